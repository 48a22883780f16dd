(** Theorems about executions of the caching CMM. *)
From Verif Require Import Base BaseProofs AlgModel EncCtxModel HdrModel CryptoModel SessionModel KeyringModel
  WireSpec EncCtxProofs CacheModel CacheSpec CacheProofs CacheTheorems CachingModel CachingSpec CachingProofs
  CachingOrigin.
From Coq Require Import Permutation ZArith Lia ZifyBool ZifyNat ZifyN.
Import List ListNotations.
Open Scope list_scope. Open Scope N_scope.

(** What an entry must contain after a put operation. *)
Definition stored_by (io : sigio) (o : cop) (e : centry) : Prop :=
  match o with
  | KPutEnc m _ _ ctx id => ce_id e = id /\ cache_enc io m ctx = Some (ce_mat e)
  | KPutDec m id => ce_id e = id /\ cache_dec io m = Some (ce_mat e)
  | _ => False
  end.

Lemma put_created : forall io ch o c c' p n, cok c n -> cstep io ch o c = Some (c', RPut (Some p)) ->
  exists e t, c_store c' p = Some e /\ ch_clock ch = Some t /\ ce_created e = t.
Proof.
  intros io ch o c c' p n (I & CAP & _) S.
  assert (H : exists mat ub um id, put_entry ch mat ub um id c = Some (c', Some p)).
  { destruct o; cbn [cstep] in S;
    try (repeat match type of S with context [match ?x with _ => _ end] => destruct x; try discriminate end; fail).
    - destruct (put_entry ch (cache_enc io m ctx) bytes msgs id c) as [[c1 r]|] eqn:P; [|discriminate].
      injection S as -> ->. eauto.
    - destruct (put_entry ch (cache_dec io m) 0 0 id c) as [[c1 r]|] eqn:P; [|discriminate].
      injection S as -> ->. eauto. }
  destruct H as (mat & ub & um & id & P).
  destruct (put_entry_ok ch mat ub um id c n I CAP) as (c1 & r & P1 & _ & _ & R). rewrite P in P1.
  injection P1 as <- <-. destruct R as (_ & _ & D & RR & T & PD). destruct (pd_entry _ _ _ _ _ _ _ _ _ _ _ PD)
    as (now & m & CK & _ & SP). exists (with_refs 2 (fresh_entry id now m ub um)), now. auto.
Qed.

Section Exec.
  Variables (io : sigio) (sha : list N -> list N) (P : choice -> Prop) (cap : N) (jobs : nat -> job).

  Lemma exec_split : forall h1 e h2 c, exec io sha P cap jobs (h1 ++ e :: h2) c ->
    exists c0 c1 k, exec io sha P cap jobs h1 c0
      /\ follows (prog_of sha (jobs (ev_call e))) (trace (ev_call e) h1) (Do (ev_op e) k)
      /\ P (ev_env e) /\ answers io (ev_env e) (ev_op e) c0 c1 (ev_resp e)
      /\ exec io sha P cap jobs (h1 ++ [e]) c1.
  Proof.
    intros h1 e h2 c E. change (h1 ++ e :: h2) with (h1 ++ [e] ++ h2) in E. rewrite app_assoc in E.
    destruct (exec_prefix _ _ _ _ _ _ _ _ E) as (c1 & E1).
    destruct (exec_snoc_inv _ _ _ _ _ _ _ _ E1) as (c0 & k & E0 & FO & PC & AN). eauto 10.
  Qed.

  (** Every entry in memory was put by some call. *)
  Lemma exec_origin : forall h c, exec io sha P cap jobs h c ->
    (forall p e, c_store c p = Some e ->
      exists j o ch, In (mk_ev j (XCache o) (RPut (Some p)) ch) h /\ stored_by io o e
        /\ ch_clock ch = Some (ce_created e))
    /\ (forall j o ch p, In (mk_ev j o (RPut (Some p)) ch) h -> (p < c_next c)%nat).
  Proof.
    intros h c E. induction E as [|h c j o k ch c' r E (IH1 & IH2) FO PC AN].
    - split; [intros; discriminate|intros ? ? ? ? []].
    - destruct o as [o| | | |].
      2-5: cbn [answers] in AN; destruct AN as (-> & AN); split;
        [ intros p e S; destruct (IH1 p e S) as (j1 & o1 & ch1 & J & ST & CR); exists j1, o1, ch1;
          split; [apply in_or_app; auto|auto]
        | intros j1 o1 ch1 p J; apply in_app_or in J; destruct J as [J|[J|[]]];
          [ eapply IH2; eauto
          | exfalso; injection J as _ _ Q _; try (destruct AN as (? & AN)); try (destruct AN as (? & AN)); congruence ] ].
      cbn [answers] in AN.
      pose proof (exec_facts _ _ _ _ _ _ _ _ _ _ _ _ _ E FO AN) as F.
      pose proof (exec_cok _ _ _ _ _ _ _ E) as OK.
      split.
      + intros p e' S'. destruct (Nat.lt_ge_cases p (c_next c)) as [L|L].
        * destruct (sf_old _ _ _ _ _ F p e' L S') as (e & S & EV).
          destruct (IH1 p e S) as (j1 & o1 & ch1 & J & ST & CR). exists j1, o1, ch1.
          split; [apply in_or_app; auto|]. destruct EV as (E1 & E2 & E3 & _).
          split; [|congruence]. unfold stored_by in *. rewrite E1, E3. exact ST.
        * destruct (sf_new _ _ _ _ _ F p e' L S') as (EP & R & PT). subst r.
          destruct (put_created _ _ _ _ _ _ _ OK AN) as (e1 & t & S1 & CK & CR).
          assert (e1 = e') by congruence. subst e1. exists j, o, ch.
          split; [apply in_or_app; cbn; auto|]. split; [|congruence].
          destruct PT as (_ & _ & PT). unfold stored_by. destruct o; try contradiction; tauto.
      + intros j1 o1 ch1 p J. apply in_app_or in J. destruct J as [J|[J|[]]].
        * apply IH2 in J. pose proof (sf_next _ _ _ _ _ F). lia.
        * injection J as <- <- -> <-. destruct (sf_put _ _ _ _ _ F p eq_refl) as (_ & -> & _). lia.
  Qed.

  (** An address is put once. *)
  Lemma put_unique : forall h c, exec io sha P cap jobs h c ->
    forall p j o ch j' o' ch', In (mk_ev j o (RPut (Some p)) ch) h -> In (mk_ev j' o' (RPut (Some p)) ch') h ->
    j' = j /\ o' = o /\ ch' = ch.
  Proof.
    intros h c E. induction E as [|h c i x k ch0 c' r E IH FO PC AN]; intros p j o ch j' o' ch' J1 J2; [contradiction|].
    assert (NEW : forall j1 o1 ch1, In (mk_ev j1 o1 (RPut (Some p)) ch1) h -> r = RPut (Some p) -> False).
    { intros j1 o1 ch1 J ->. apply (proj2 (exec_origin _ _ E)) in J. destruct x as [x| | | |]; cbn [answers] in AN;
      try (destruct AN as (_ & AN); try (destruct AN as (? & AN)); try (destruct AN as (? & AN)); discriminate).
      pose proof (exec_facts _ _ _ _ _ _ _ _ _ _ _ _ _ E FO AN) as F.
      destruct (sf_put _ _ _ _ _ F p eq_refl) as (-> & _). lia. }
    apply in_app_or in J1. apply in_app_or in J2.
    destruct J1 as [J1|[J1|[]]], J2 as [J2|[J2|[]]].
    - eapply IH; eauto.
    - exfalso. eapply NEW; eauto. congruence.
    - exfalso. eapply NEW; eauto. congruence.
    - injection J1 as <- <- _ <-. injection J2 as <- <- _ <-. auto.
  Qed.

  (** An answered operation on entry [p]: the entry and the put it came from. *)
  Lemma event_entry : forall h c j o r ch p, exec io sha P cap jobs h c ->
    In (mk_ev j (XCache o) r ch) h -> uses o = Some p ->
    exists h1 h2 c0 c1 e j0 o0 ch0, h = h1 ++ mk_ev j (XCache o) r ch :: h2 /\ exec io sha P cap jobs h1 c0
      /\ cstep io ch o c0 = Some (c1, r) /\ c_store c0 p = Some e
      /\ In (mk_ev j0 (XCache o0) (RPut (Some p)) ch0) h1 /\ stored_by io o0 e /\ ch_clock ch0 = Some (ce_created e).
  Proof.
    intros h c j o r ch p E J U. apply in_split in J. destruct J as (h1 & h2 & ->).
    destruct (exec_split _ _ _ _ E) as (c0 & c1 & k & E0 & FO & PC & AN & _). cbn [ev_op ev_call ev_env ev_resp answers] in *.
    assert (S : exists e, c_store c0 p = Some e).
    { destruct o; cbn [uses] in U; try discriminate; injection U as <-; cbn [cstep] in AN;
      destruct (c_store c0 p0); eauto; discriminate. }
    destruct S as (e & S). destruct (proj1 (exec_origin _ _ E0) p e S) as (j0 & o0 & ch0 & J & ST & CR).
    exists h1, h2, c0, c1, e, j0, o0, ch0. auto 10.
  Qed.

  (** C34, CMM part. *)
  Lemma served_fresh : forall h c j p, exec io sha P cap jobs h c -> (served h j p \/ served_dec h j p) ->
    exists m j0 o0 ch0 created, cmm_of (jobs j) = Some m
      /\ In (mk_ev j0 (XCache o0) (RPut (Some p)) ch0) h /\ ch_clock ch0 = Some created
      /\ (cm_ttl m = UINT64_MAX \/ UINT64_MAX < created + cm_ttl m
          \/ exists now, In (XClock, RClock (Some now)) (trace j h) /\ now < created + cm_ttl m).
  Proof.
    intros h c j p E SV.
    assert (H : exists o r, In (XCache o, r) (trace j h) /\ uses o = Some p /\
       (forall t, fresh_rule (jobs j) t (XCache o) -> exists m, cmm_of (jobs j) = Some m /\ fresh_for m t p)).
    { destruct SV as [(ctx & ctx' & mt & J)|(mt & J)].
      - exists (KGetEnc p ctx), (REnc ctx' (Ok mt)). split; [exact J|]. split; [reflexivity|]. auto.
      - exists (KGetDec p), (RDec (Ok mt)). split; [exact J|]. split; [reflexivity|]. auto. }
    destruct H as (o & r & J & U & FR).
    pose proof J as J'. apply in_trace in J'. destruct J' as (ch & JE).
    destruct (event_entry _ _ _ _ _ _ _ E JE U) as (h1 & h2 & c0 & c1 & e & j0 & o0 & ch0 & EH & E0 & _ & S & JP & ST & CR).
    apply in_split in J. destruct J as (t1 & t2 & EQ).
    destruct (exec_follows _ _ _ _ _ _ _ E j) as (pr & FO).
    pose proof (follows_obeyed _ _ _ _ _ (job_fresh sha (jobs j)) FO (trace_fits _ _ _ _ _ _ _ E j) _ _ _ _ EQ) as RULE.
    destruct (FR _ RULE) as (m & EM & FF).
    exists m, j0, o0, ch0, (ce_created e). split; [exact EM|].
    split; [rewrite EH; apply in_or_app; auto|]. split; [exact CR|].
    destruct FF as [FF|(created & JC & FF)]; [auto|]. right.
    assert (created = ce_created e).
    { assert (JC' : In (XCache (KCreated p), RNum created) (trace j h)) by (rewrite EQ; apply in_or_app; auto).
      apply in_trace in JC'. destruct JC' as (chc & JC').
      destruct (event_entry _ _ _ _ _ _ _ E JC' eq_refl) as (g1 & g2 & d0 & d1 & e2 & j2 & o2 & ch2 & EG & _ & SC & S2 & JP2 & _ & CR2).
      cbn [cstep] in SC. rewrite S2 in SC. assert (created = ce_created e2) by congruence.
      destruct (put_unique _ _ E p j0 (XCache o0) ch0 j2 (XCache o2) ch2) as (_ & _ & EC).
      - rewrite EH. apply in_or_app. auto.
      - rewrite EG. apply in_or_app. auto.
      - congruence. }
    subst created. unfold add64 in FF. change two64 with (UINT64_MAX + 1) in FF.
    destruct (N.lt_ge_cases UINT64_MAX (ce_created e + cm_ttl m)) as [L|L]; [left; exact L|right].
    rewrite N.mod_small in FF by lia. destruct FF as [FF|(now & JN & L2)]; [lia|].
    exists now. split; [rewrite EQ; apply in_or_app; auto|exact L2].
  Qed.
End Exec.
