(** Where the answers of the caching CMM come from (C57): proofs. *)
From Verif Require Import Base BaseProofs AlgModel EncCtxModel HdrModel CryptoModel SessionModel KeyringModel
  WireSpec EncCtxProofs CacheModel CacheSpec CacheProofs CacheTheorems CachingModel CachingSpec CachingProofs
  CachingOrigin CachingTheorems CachingHash.
From Coq Require Import Permutation ZArith Lia ZifyBool ZifyNat ZifyN.
Import List ListNotations.
Open Scope list_scope. Open Scope N_scope.

Lemma in_trace_app : forall j h1 h2 x, In x (trace j h1) -> In x (trace j (h1 ++ h2)).
Proof. intros j h1 h2 x J. unfold trace in *. rewrite filter_app, map_app. apply in_or_app. auto. Qed.

Section Exec.
  Variables (io : sigio) (sha : list N -> list N) (P : choice -> Prop) (cap : N) (jobs : nat -> job).

  Lemma rule_at : forall A F h c j o r, exec io sha P cap jobs h c ->
    obeys A F [] (prog_of sha (jobs j)) -> In (o, r) (trace j h) ->
    exists t, A t o /\ forall x, In x t -> In x (trace j h).
  Proof.
    intros A F h c j o r E OB J. apply in_split in J. destruct J as (t1 & t2 & EQ).
    destruct (exec_follows _ _ _ _ _ _ _ E j) as (pr & FO).
    pose proof (follows_obeyed _ _ _ _ _ OB FO (trace_fits _ _ _ _ _ _ _ E j) _ _ _ _ EQ) as RULE.
    exists t1. split; [exact RULE|]. intros x J. rewrite EQ. apply in_or_app. auto.
  Qed.

  Lemma passed_on_mono : forall rq rq' t t', (forall x, In x t -> In x t') -> passed_on rq rq' t -> passed_on rq rq' t'.
  Proof.
    intros rq rq' t t' I (A & B & C & D). unfold passed_on. split; [auto|]. split; [auto|]. split; [auto|].
    destruct D as [D|(p & e & D)]; eauto.
  Qed.

  (** The put behind an entry found under [id] and used through [o]. *)
  Lemma found_put : forall h c j id p b o r ch, exec io sha P cap jobs h c ->
    In (XCache (KFind id), RFound (Some (p, b))) (trace j h) ->
    In (mk_ev j (XCache o) r ch) h -> uses o = Some p ->
    exists j0 o0 ch0 c0 c1 e, In (mk_ev j0 (XCache o0) (RPut (Some p)) ch0) h
      /\ stored_by io o0 e /\ ce_id e = id /\ put_id o0 = Some id
      /\ cstep io ch o c0 = Some (c1, r) /\ c_store c0 p = Some e.
  Proof.
    intros h c j id p b o r ch E JF JO U.
    destruct (event_entry _ _ _ _ _ _ _ _ _ _ _ _ E JO U)
      as (h1 & h2 & c0 & c1 & e & j0 & o0 & ch0 & EH & E0 & SC & S & JP & ST & _).
    assert (JP' : In (mk_ev j0 (XCache o0) (RPut (Some p)) ch0) h) by (rewrite EH; apply in_or_app; auto).
    exists j0, o0, ch0, c0, c1, e. split; [exact JP'|]. split; [exact ST|].
    apply in_trace in JF. destruct JF as (chf & JF). apply in_split in JF. destruct JF as (g1 & g2 & EG).
    rewrite EG in E.
    destruct (exec_split _ _ _ _ _ _ _ _ _ E) as (d0 & d1 & k & D0 & FO & PC & AN & D1).
    cbn [ev_op ev_call ev_env ev_resp answers] in *.
    pose proof (exec_facts _ _ _ _ _ _ _ _ _ _ _ _ _ D0 FO AN) as F.
    destruct (sf_found _ _ _ _ _ F p b eq_refl) as (id' & e' & EQ & _ & _ & S' & ID & _).
    injection EQ as <-.
    destruct (proj1 (exec_origin _ _ _ _ _ _ _ D1) p e' S') as (j2 & o2 & ch2 & JP2 & ST2 & _).
    assert (JP2' : In (mk_ev j2 (XCache o2) (RPut (Some p)) ch2) h).
    { rewrite EG. change (g1 ++ ?x :: g2) with (g1 ++ [x] ++ g2). rewrite app_assoc. apply in_or_app. auto. }
    rewrite <- EG in E.
    destruct (put_unique _ _ _ _ _ _ _ E p _ _ _ _ _ _ JP' JP2') as (_ & EO & _). injection EO as ->.
    assert (EI : ce_id e = id).
    { unfold stored_by in ST, ST2. destruct o0; try contradiction; destruct ST as (-> & _), ST2 as (<- & _); auto. }
    split; [exact EI|]. split; [|auto].
    unfold stored_by in ST. destruct o0; try contradiction; cbn [put_id]; f_equal; rewrite <- EI; symmetry; apply ST.
  Qed.

  Lemma enc_answer : forall h c j ctx mat, exec io sha P cap jobs h c -> tables jobs h ->
    returns sha jobs h j (JEnc ctx (COk mat)) ->
    exists m rq, jobs j = GenJob m rq /\
    ((exists rq', In (XUpEnc rq', REnc ctx (Ok mat)) (trace j h) /\ passed_on rq rq' (trace j h))
     \/ exists j0 m0 rq0 rq0' ctx0 mat0 id, jobs j0 = GenJob m0 rq0
        /\ In (XUpEnc rq0', REnc ctx0 (Ok mat0)) (trace j0 h) /\ passed_on rq0 rq0' (trace j0 h)
        /\ enc_cache_id sha m rq = Ok id /\ enc_cache_id sha m0 rq0 = Ok id
        /\ same_enc_mat io mat0 mat /\ distinct_keys ctx /\ same_map ctx ctx0).
  Proof.
    intros h c j ctx mat E (T1 & T2 & T3) RT.
    pose proof (exec_obeys _ _ _ _ _ _ _ _ _ _ E (job_origin sha (jobs j)) _ RT) as OB. cbn [obeys origin_end] in OB.
    destruct OB as (m & rq & EJ & OB). exists m, rq. split; [exact EJ|].
    destruct OB as [(rq' & J)|(p & J)].
    - left. exists rq'. split; [exact J|].
      destruct (rule_at _ _ _ _ _ _ _ E (job_origin sha (jobs j)) J) as (t & RULE & IN). cbn [origin_rule] in RULE.
      destruct RULE as (m1 & rq1 & E1 & PO). rewrite EJ in E1. injection E1 as <- <-.
      eapply passed_on_mono; eauto.
    - right. destruct (rule_at _ _ _ _ _ _ _ E (job_origin sha (jobs j)) J) as (t & RULE & IN). cbn [origin_rule] in RULE.
      destruct RULE as (m1 & rq1 & id & E1 & HID & _ & JF). rewrite EJ in E1. injection E1 as <- <-.
      pose proof J as JE. apply in_trace in JE. destruct JE as (ch & JE).
      destruct (found_put _ _ _ _ _ _ _ _ _ E (IN _ JF) JE eq_refl)
        as (j0 & o0 & ch0 & c0 & c1 & e & JP & ST & EI & PI & SC & S).
      cbn [cstep] in SC. rewrite S in SC. destruct (get_enc io ch e (rq_ctx rq)) as [gc gr] eqn:G.
      assert (gc = ctx /\ gr = Ok mat) as (-> & ->) by (split; congruence). clear SC.
      unfold get_enc in G. destruct (ce_mat e) as [m1 cctx key|] eqn:CM; [|discriminate].
      destruct o0; cbn [stored_by] in ST; try contradiction; cycle 1.
      { exfalso. destruct ST as (_ & ST). rewrite CM in ST. unfold cache_dec in ST.
        destruct (dm_sig m0); [destruct (si_pub io s); discriminate|discriminate]. }
      destruct ST as (_ & ST). rewrite CM in ST. cbn [put_id] in PI. injection PI as ->.
      assert (JPT : In (XCache (KPutEnc m0 bytes msgs ctx0 id), RPut (Some p)) (trace j0 h)) by (apply in_trace; eauto).
      destruct (rule_at _ _ _ _ _ _ _ E (job_origin sha (jobs j0)) JPT) as (t0 & RULE & IN0). cbn [origin_rule] in RULE.
      destruct RULE as (mm & rq0 & rq0' & EJ0 & HID0 & JU & PO).
      exists j0, mm, rq0, rq0', ctx0, m0, id. split; [exact EJ0|]. split; [auto|].
      split; [eapply passed_on_mono; eauto|]. split; [exact HID|]. split; [exact HID0|].
      pose proof (T1 _ _ _ EJ) as DK. pose proof (T3 _ _ _ _ (IN0 _ JU)) as DK0.
      destruct (negb (ch_mem ch)); [discriminate|]. destruct (ch_ctx ch); [discriminate|].
      unfold cache_enc in ST. unfold same_enc_mat.
      destruct (em_sig m0) as [sc|] eqn:SG.
      + destruct (si_priv io sc) as [k|] eqn:PR; [|discriminate]. injection ST as <- <- <-. cbn [em_alg em_key em_trace em_edks] in G.
        destruct (si_sign io (em_alg m0) k) as [sc'|] eqn:SS; [|discriminate]. injection G as <- <-.
        cbn [em_alg em_key em_trace em_edks em_sig]. split; [|apply clone_spec; auto].
        do 4 (split; [reflexivity|]). exists k. rewrite SS. auto.
      + injection ST as <- <- <-. injection G as <- <-. cbn [em_alg em_key em_trace em_edks em_sig].
        split; [auto 10|apply clone_spec; auto].
  Qed.

  Lemma dec_answer : forall h c j mat, exec io sha P cap jobs h c ->
    returns sha jobs h j (JDec (COk mat)) ->
    exists m rq, jobs j = DecJob m rq /\
    (In (XUpDec rq, RDec (Ok mat)) (trace j h)
     \/ exists j0 m0 rq0 mat0 id, jobs j0 = DecJob m0 rq0
        /\ In (XUpDec rq0, RDec (Ok mat0)) (trace j0 h)
        /\ dec_cache_id sha m rq = Ok id /\ dec_cache_id sha m0 rq0 = Ok id
        /\ same_dec_mat io mat0 mat).
  Proof.
    intros h c j mat E RT.
    pose proof (exec_obeys _ _ _ _ _ _ _ _ _ _ E (job_origin sha (jobs j)) _ RT) as OB. cbn [obeys origin_end] in OB.
    destruct OB as (m & rq & EJ & OB). exists m, rq. split; [exact EJ|].
    destruct OB as [J|(p & J)]; [left; exact J|].
    right. destruct (rule_at _ _ _ _ _ _ _ E (job_origin sha (jobs j)) J) as (t & RULE & IN). cbn [origin_rule] in RULE.
    destruct RULE as (m1 & rq1 & id & E1 & HID & JF). rewrite EJ in E1. injection E1 as <- <-.
    pose proof J as JE. apply in_trace in JE. destruct JE as (ch & JE).
    destruct (found_put _ _ _ _ _ _ _ _ _ E (IN _ JF) JE eq_refl)
      as (j0 & o0 & ch0 & c0 & c1 & e & JP & ST & EI & PI & SC & S).
    cbn [cstep] in SC. rewrite S in SC.
    assert (G : get_dec io ch e = Ok mat) by congruence. clear SC.
    unfold get_dec in G. destruct (ce_mat e) as [|m1 key] eqn:CM; [discriminate|].
    destruct o0; cbn [stored_by] in ST; try contradiction.
    { exfalso. destruct ST as (_ & ST). rewrite CM in ST. unfold cache_enc in ST.
      destruct (em_sig m0); [destruct (si_priv io s); discriminate|discriminate]. }
    destruct ST as (_ & ST). rewrite CM in ST. cbn [put_id] in PI. injection PI as ->.
    assert (JPT : In (XCache (KPutDec m0 id), RPut (Some p)) (trace j0 h)) by (apply in_trace; eauto).
    destruct (rule_at _ _ _ _ _ _ _ E (job_origin sha (jobs j0)) JPT) as (t0 & RULE & IN0). cbn [origin_rule] in RULE.
    destruct RULE as (mm & rq0 & EJ0 & HID0 & JU).
    exists j0, mm, rq0, m0, id. split; [exact EJ0|]. split; [auto|]. split; [exact HID|]. split; [exact HID0|].
    destruct (negb (ch_mem ch)); [discriminate|].
    unfold cache_dec in ST. unfold same_dec_mat.
    destruct (dm_sig m0) as [sc|] eqn:SG.
    + destruct (si_pub io sc) as [k|] eqn:PR; [|discriminate]. injection ST as <- <-. cbn [dm_alg dm_key dm_trace] in G.
      destruct (si_verify io (dm_alg m0) k) as [sc'|] eqn:SS; [|discriminate]. injection G as <-.
      cbn [dm_alg dm_key dm_trace dm_sig]. do 3 (split; [reflexivity|]). exists k. rewrite SS. auto.
    + injection ST as <- <-. injection G as <-. cbn [dm_alg dm_key dm_trace dm_sig]. auto 10.
  Qed.

  Lemma enc_transparent : forall h c j ctx mat, exec io sha P cap jobs h c -> tables jobs h ->
    typed jobs -> no_collision sha jobs ->
    returns sha jobs h j (JEnc ctx (COk mat)) ->
    exists m rq, jobs j = GenJob m rq /\
    ((exists rq', In (XUpEnc rq', REnc ctx (Ok mat)) (trace j h) /\ passed_on rq rq' (trace j h))
     \/ exists j0 m0 rq0 rq0' ctx0 mat0, jobs j0 = GenJob m0 rq0 /\ same_enc_request m m0 rq rq0
        /\ In (XUpEnc rq0', REnc ctx0 (Ok mat0)) (trace j0 h) /\ passed_on rq0 rq0' (trace j0 h)
        /\ same_enc_mat io mat0 mat /\ distinct_keys ctx /\ same_map ctx ctx0).
  Proof.
    intros h c j ctx mat E T TY NC RT.
    destruct (enc_answer _ _ _ _ _ E T RT) as (m & rq & EJ & A). exists m, rq. split; [exact EJ|].
    destruct A as [A|(j0 & m0 & rq0 & rq0' & ctx0 & mat0 & id & EJ0 & J & PO & H1 & H2 & SM & SC)]; [left; exact A|].
    right. exists j0, m0, rq0, rq0', ctx0, mat0. split; [exact EJ0|]. split; [|auto 10].
    destruct TY as (TY & _), T as (T & _).
    destruct (TY _ _ _ EJ) as (L1 & A1), (TY _ _ _ EJ0) as (L2 & A2).
    eapply enc_id_inj; eauto; [congruence|]. specialize (NC j j0). rewrite EJ, EJ0 in NC. exact NC.
  Qed.

  Lemma dec_transparent : forall h c j mat, exec io sha P cap jobs h c -> tables jobs h ->
    typed jobs -> no_collision sha jobs ->
    returns sha jobs h j (JDec (COk mat)) ->
    exists m rq, jobs j = DecJob m rq /\
    (In (XUpDec rq, RDec (Ok mat)) (trace j h)
     \/ exists j0 m0 rq0 mat0, jobs j0 = DecJob m0 rq0 /\ same_dec_request m m0 rq rq0
        /\ In (XUpDec rq0, RDec (Ok mat0)) (trace j0 h) /\ same_dec_mat io mat0 mat).
  Proof.
    intros h c j mat E T TY NC RT.
    destruct (dec_answer _ _ _ _ E RT) as (m & rq & EJ & A). exists m, rq. split; [exact EJ|].
    destruct A as [A|(j0 & m0 & rq0 & mat0 & id & EJ0 & J & H1 & H2 & SM)]; [left; exact A|].
    right. exists j0, m0, rq0, mat0. split; [exact EJ0|]. split; [|auto 10].
    destruct TY as (_ & TY), T as (_ & T & _).
    destruct (TY _ _ _ EJ) as (L1 & A1), (TY _ _ _ EJ0) as (L2 & A2).
    eapply dec_id_inj; eauto; [congruence|]. specialize (NC j j0). rewrite EJ, EJ0 in NC. exact NC.
  Qed.

  (** Failures. *)
  Lemma enc_failure : forall h c j ctx e, exec io sha P cap jobs h c ->
    returns sha jobs h j (JEnc ctx (CErr e)) ->
    exists m rq, jobs j = GenJob m rq /\
    ((exists rq', In (XUpEnc rq', REnc ctx (Err e)) (trace j h) /\ passed_on rq rq' (trace j h))
     \/ (ctx = rq_ctx rq /\ (In (XMem, RMem (Some e)) (trace j h) \/ enc_cache_id sha m rq = Err e))).
  Proof.
    intros h c j ctx e E RT.
    pose proof (exec_obeys _ _ _ _ _ _ _ _ _ _ E (job_origin sha (jobs j)) _ RT) as OB. cbn [obeys origin_end] in OB.
    destruct OB as (m & rq & EJ & OB). exists m, rq. split; [exact EJ|].
    destruct OB as [(rq' & J)|OB]; [left|right; exact OB]. exists rq'. split; [exact J|].
    destruct (rule_at _ _ _ _ _ _ _ E (job_origin sha (jobs j)) J) as (t & RULE & IN). cbn [origin_rule] in RULE.
    destruct RULE as (m1 & rq1 & E1 & PO). rewrite EJ in E1. injection E1 as <- <-.
    eapply passed_on_mono; eauto.
  Qed.
  Lemma dec_failure : forall h c j e, exec io sha P cap jobs h c ->
    returns sha jobs h j (JDec (CErr e)) ->
    exists m rq, jobs j = DecJob m rq /\
    (In (XUpDec rq, RDec (Err e)) (trace j h)
     \/ In (XMem, RMem (Some e)) (trace j h) \/ dec_cache_id sha m rq = Err e).
  Proof.
    intros h c j e E RT.
    exact (exec_obeys _ _ _ _ _ _ _ _ _ _ E (job_origin sha (jobs j)) _ RT).
  Qed.

  Lemma one_source : forall h c j t1 x t2 y t3, exec io sha P cap jobs h c ->
    trace j h = t1 ++ x :: t2 ++ y :: t3 -> used_source x -> ~ used_source y.
  Proof.
    intros h c j t1 x t2 [o r] t3 E EQ UX UY.
    destruct (exec_follows _ _ _ _ _ _ _ E j) as (pr & FO).
    assert (EQ' : trace j h = (t1 ++ x :: t2) ++ (o, r) :: t3) by (rewrite EQ, <- app_assoc; reflexivity).
    pose proof (follows_obeyed _ _ _ _ _ (job_once sha (jobs j)) FO (trace_fits _ _ _ _ _ _ _ E j) _ _ _ _ EQ') as RULE.
    assert (JX : In x (t1 ++ x :: t2)) by (apply in_or_app; cbn; auto).
    destruct o as [o| | | |]; cbn [used_source once_rule] in *; try contradiction; try (now apply (RULE x)).
    destruct o; cbn [used_source once_rule] in *; try contradiction; now apply (RULE x).
  Qed.

  (** A request too large for the limit never touches the cache. *)
  Lemma too_large : forall h c j m rq, exec io sha P cap jobs h c -> jobs j = GenJob m rq ->
    cm_limit_bytes m < rq_psize rq -> forall o r, In (o, r) (trace j h) -> o = XUpEnc rq.
  Proof.
    intros h c j m rq E EJ L o r J.
    assert (OB : obeys (fun _ o => o = XUpEnc rq) anything [] (prog_of sha (jobs j))).
    { rewrite EJ. cbn [prog_of]. unfold gen_prog. cbv zeta. apply N.ltb_lt in L. rewrite L.
      cbn [obeys]. split; [reflexivity|]. intros r0 FR. cbn [fits] in FR. destruct r0; try contradiction.
      destruct r0; exact Logic.I. }
    destruct (rule_at _ _ _ _ _ _ _ E OB J) as (t & H & _). exact H.
  Qed.
End Exec.

(** A cache whose mutex can never be locked. *)
Lemma broken_no_hit : forall io sha cap jobs h c j o r p,
  exec io sha (fun ch => ch_lock ch = false) cap jobs h c -> In (XCache o, r) (trace j h) -> 
  r <> RFound (Some p) /\ forall q, uses o <> Some q.
Proof.
  intros io sha cap jobs h c j o r p E J.
  assert (NF : forall j1 o1 r1 ch, In (mk_ev j1 (XCache o1) r1 ch) h -> hands_out (o1, r1) = None).
  { intros j1 o1 r1 ch J1. apply in_split in J1. destruct J1 as (h1 & h2 & ->).
    destruct (exec_split _ _ _ _ _ _ _ _ _ E) as (c0 & c1 & k & E0 & FO & PC & AN & _).
    cbn [ev_op ev_call ev_env ev_resp answers] in *. destruct o1; cbn [cstep] in AN.
    1: rewrite PC in AN; cbn [negb] in AN; injection AN as <- <-; reflexivity.
    1,2: unfold put_entry in AN; rewrite PC in AN; cbn [negb] in AN; injection AN as <- <-; reflexivity.
    all: unfold hands_out; cbn [snd];
      repeat match type of AN with context [match ?x with _ => _ end] => destruct x; try discriminate end;
      injection AN as <- <-; reflexivity. }
  apply in_trace in J. destruct J as (ch & J). split.
  - intros ->. apply NF in J. destruct p. discriminate.
  - intros q U. apply in_split in J. destruct J as (h1 & h2 & EH). rewrite EH in E.
    destruct (exec_split _ _ _ _ _ _ _ _ _ E) as (c0 & c1 & k & E0 & FO & PC & AN & _).
    cbn [ev_op ev_call] in FO. pose proof (exec_held _ _ _ _ _ _ _ _ _ _ _ E0 FO U) as HE.
    unfold held, acquired in HE.
    assert (Z : filter (fun x => is_some_eq (hands_out x) q) (cache_ops h1) = []).
    { assert (A : forall l, (forall x, In x l -> hands_out x = None) -> filter (fun x => is_some_eq (hands_out x) q) l = []).
      { induction l as [|y l IH]; intros HN; [reflexivity|]. cbn [filter]. rewrite (HN y) by now left. cbn [is_some_eq].
        apply IH. intros; apply HN; now right. }
      apply A. intros [o2 r2] J2. unfold cache_ops in J2. apply in_flat_map in J2. destruct J2 as ([j2 x2 y2 ch2] & J2 & J3).
      cbn [ev_op ev_resp] in J3. destruct x2; try contradiction. destruct J3 as [J3|[]]. injection J3 as -> ->.
      apply (NF j2 o2 r2 ch2). rewrite EH. apply in_or_app. auto. }
    rewrite Z in HE. cbn [length] in HE. lia.
Qed.

Lemma broken_cache : forall io sha cap jobs h c j,
  exec io sha (fun ch => ch_lock ch = false) cap jobs h c ->
  (forall ctx mat m rq, jobs j = GenJob m rq -> returns sha jobs h j (JEnc ctx (COk mat)) ->
     In (XUpEnc rq, REnc ctx (Ok mat)) (trace j h))
  /\ (forall mat m rq, jobs j = DecJob m rq -> returns sha jobs h j (JDec (COk mat)) ->
     In (XUpDec rq, RDec (Ok mat)) (trace j h)).
Proof.
  intros io sha cap jobs h c j E. split.
  - intros ctx mat m rq EJ RT.
    pose proof (exec_obeys _ _ _ _ _ _ _ _ _ _ E (job_origin sha (jobs j)) _ RT) as OB. cbn [obeys origin_end] in OB.
    destruct OB as (m1 & rq1 & EJ1 & OB). rewrite EJ in EJ1. injection EJ1 as <- <-.
    destruct OB as [(rq' & J)|(p & J)].
    + destruct (rule_at _ _ _ _ _ _ _ _ _ _ _ _ E (job_origin sha (jobs j)) J) as (t & RULE & IN). cbn [origin_rule] in RULE.
      destruct RULE as (m1 & rq1 & E1 & (A & B & C & D)). rewrite EJ in E1. injection E1 as <- <-.
      destruct D as [D|(p & e & D)].
      * replace rq with rq'; [exact J|]. destruct rq, rq'; cbn in *; subst; reflexivity.
      * exfalso. destruct (broken_no_hit _ _ _ _ _ _ _ _ _ (p, true) E (IN _ D)) as (_ & H). now apply (H p).
    + exfalso. destruct (broken_no_hit _ _ _ _ _ _ _ _ _ (p, true) E J) as (_ & H). now apply (H p).
  - intros mat m rq EJ RT.
    pose proof (exec_obeys _ _ _ _ _ _ _ _ _ _ E (job_origin sha (jobs j)) _ RT) as OB. cbn [obeys origin_end] in OB.
    destruct OB as (m1 & rq1 & EJ1 & OB). rewrite EJ in EJ1. injection EJ1 as <- <-.
    destruct OB as [J|(p & J)]; [exact J|].
    exfalso. destruct (broken_no_hit _ _ _ _ _ _ _ _ _ (p, true) E J) as (_ & H). now apply (H p).
Qed.
