(** Proofs about the caching CMM: what its programs do, and what follows for executions. *)
From Verif Require Import Base BaseProofs EncCtxModel HdrModel CryptoModel SessionModel KeyringModel
  WireSpec CacheModel CacheSpec CacheProofs CachingModel CachingSpec.
From Coq Require Import Permutation ZArith Lia ZifyBool ZifyNat ZifyN.
Import List ListNotations.
Open Scope list_scope. Open Scope N_scope.

(** * Answers have the kind that was asked for *)

Definition fits (o : xop) (r : resp) : Prop :=
  match o, r with
  | XCache (KFind _), RFound _ => True
  | XCache (KPutEnc _ _ _ _ _), RPut _ => True
  | XCache (KPutDec _ _), RPut _ => True
  | XCache (KCheck _), RBool _ => True
  | XCache (KAddBytes _ _), RNum _ => True
  | XCache (KAddMsgs _ _), RNum _ => True
  | XCache (KGetEnc _ _), REnc _ _ => True
  | XCache (KGetDec _), RDec _ => True
  | XCache (KCreated _), RNum _ => True
  | XCache (KHint _ _), RUnit => True
  | XCache (KRelease _ _), RUnit => True
  | XCache (KRelease _ _), RLeak => True
  | XCache KClear, RUnit => True
  | XCache KCount, RNum _ => True
  | XClock, RClock _ => True
  | XMem, RMem _ => True
  | XUpEnc _, REnc _ _ => True
  | XUpDec _, RDec _ => True
  | _, _ => False
  end.

Lemma cstep_fits : forall io ch o c c' r, cstep io ch o c = Some (c', r) -> fits (XCache o) r.
Proof.
  intros io ch o c c' r H.
  destruct o; cbn [cstep] in H; unfold put_entry in *;
  repeat match type of H with
  | context [match ?x with _ => _ end] => destruct x; try discriminate
  end; injection H as <- <-; exact Logic.I.
Qed.

Lemma answers_fits : forall io ch o c c' r, answers io ch o c c' r -> fits o r.
Proof.
  intros io ch o c c' r H. destruct o; cbn [answers] in H.
  - eapply cstep_fits; eauto.
  - destruct H as (_ & t & ->). exact Logic.I.
  - destruct H as (_ & t & ->). exact Logic.I.
  - destruct H as (_ & t & x & ->). exact Logic.I.
  - destruct H as (_ & t & ->). exact Logic.I.
Qed.

(** * Rules obeyed by programs *)

(** [A t o]: after the interactions [t] the program may ask [o]; [F t r]: it may return [r]. *)
Fixpoint obeys (A : list (xop * resp) -> xop -> Prop) (F : list (xop * resp) -> jres -> Prop)
  (t : list (xop * resp)) (p : prog) : Prop :=
  match p with
  | Ret r => F t r
  | Do o k => A t o /\ forall r, fits o r -> obeys A F (t ++ [(o, r)]) (k r)
  end.

Lemma obeys_follows : forall A F p t p', obeys A F [] p -> follows p t p' ->
  (forall o r, In (o, r) t -> fits o r) -> obeys A F t p'.
Proof.
  intros A F p t p' OB FO. induction FO as [|t o k r FO IH]; intros FT; auto.
  assert (H : obeys A F t (Do o k)). { apply IH. intros. apply FT, in_or_app. auto. }
  destruct H as (_ & H). apply H. apply FT, in_or_app. cbn. auto.
Qed.

Lemma follows_fun : forall p t a, follows p t a -> forall b, follows p t b -> a = b.
Proof.
  intros p t a F. induction F as [|t o k r F IH]; intros b G.
  - inversion G; auto. destruct t; discriminate.
  - inversion G as [E|t' o' k' r' G' E]; [destruct t; discriminate|].
    apply app_inj_tail in E. destruct E as (-> & E). injection E as -> ->.
    specialize (IH _ G'). congruence.
Qed.

(** Every step of an execution was allowed when it was made. *)
Lemma follows_obeyed : forall A F p t p', obeys A F [] p -> follows p t p' ->
  (forall o r, In (o, r) t -> fits o r) ->
  forall t1 o r t2, t = t1 ++ (o, r) :: t2 -> A t1 o.
Proof.
  intros A F p t p' OB FO. induction FO as [|t o k r FO IH]; intros FT t1 o' r' t2 E.
  - destruct t1; discriminate.
  - assert (FT' : forall o r, In (o, r) t -> fits o r) by (intros; apply FT, in_or_app; auto).
    destruct t2 as [|x t2] using rev_ind.
    + apply app_inj_tail in E. destruct E as (-> & E). injection E as -> ->.
      destruct (obeys_follows _ _ _ _ _ OB FO FT') as (H & _). exact H.
    + clear IHt2. rewrite app_comm_cons, app_assoc in E. apply app_inj_tail in E. destruct E as (-> & _).
      eapply IH; eauto.
Qed.

Lemma trace_snoc : forall j h e, trace j (h ++ [e]) =
  trace j h ++ (if Nat.eqb (ev_call e) j then [(ev_op e, ev_resp e)] else []).
Proof.
  intros j h e. unfold trace. rewrite filter_app, map_app. cbn [filter].
  destruct (Nat.eqb (ev_call e) j); reflexivity.
Qed.

Lemma trace_snoc_same : forall j h o r ch, trace j (h ++ [mk_ev j o r ch]) = trace j h ++ [(o, r)].
Proof. intros. rewrite trace_snoc. cbn. now rewrite Nat.eqb_refl. Qed.
Lemma trace_snoc_other : forall j i h o r ch, i <> j -> trace i (h ++ [mk_ev j o r ch]) = trace i h.
Proof.
  intros. rewrite trace_snoc. cbn. destruct (Nat.eqb_spec j i); [subst; contradiction|].
  now rewrite app_nil_r.
Qed.

Lemma in_trace : forall j h o r, In (o, r) (trace j h) <-> exists ch, In (mk_ev j o r ch) h.
Proof.
  intros. unfold trace. rewrite in_map_iff. split.
  - intros (e & E & H). apply filter_In in H. destruct H as (H & J). apply Nat.eqb_eq in J.
    destruct e as [j' o' r' ch]. cbn in *. injection E as -> ->. subst j'. eauto.
  - intros (ch & H). exists (mk_ev j o r ch). split; [reflexivity|]. apply filter_In.
    split; [exact H|]. cbn. apply Nat.eqb_refl.
Qed.

Lemma cache_ops_snoc : forall h e, cache_ops (h ++ [e]) =
  cache_ops h ++ match ev_op e with XCache o => [(o, ev_resp e)] | _ => [] end.
Proof. intros. unfold cache_ops. rewrite flat_map_app. cbn. now rewrite app_nil_r. Qed.

Section Exec.
  Variables (io : sigio) (sha : list N -> list N) (P : choice -> Prop) (cap : N) (jobs : nat -> job).

  Lemma exec_fits : forall h c, exec io sha P cap jobs h c ->
    forall e, In e h -> fits (ev_op e) (ev_resp e).
  Proof.
    intros h c E. induction E as [|h c j o k ch c' r E IH FO PC AN]; intros e J; [contradiction|].
    apply in_app_or in J. destruct J as [J|[<-|[]]]; auto. cbn. eapply answers_fits; eauto.
  Qed.

  Lemma trace_fits : forall h c, exec io sha P cap jobs h c ->
    forall j o r, In (o, r) (trace j h) -> fits o r.
  Proof. intros h c E j o r J. apply in_trace in J. destruct J as (ch & J). exact (exec_fits _ _ E _ J). Qed.

  (** Every call is somewhere in its program. *)
  Lemma exec_follows : forall h c, exec io sha P cap jobs h c -> forall j,
    exists p, follows (prog_of sha (jobs j)) (trace j h) p.
  Proof.
    intros h c E. induction E as [|h c j o k ch c' r E IH FO PC AN]; intros i.
    - exists (prog_of sha (jobs i)). apply follows_nil.
    - destruct (Nat.eq_dec i j) as [->|D].
      + rewrite trace_snoc_same. eexists. apply follows_step. exact FO.
      + rewrite trace_snoc_other by auto. apply IH.
  Qed.

  Lemma exec_obeys : forall A F h c j, exec io sha P cap jobs h c -> obeys A F [] (prog_of sha (jobs j)) ->
    forall p, follows (prog_of sha (jobs j)) (trace j h) p -> obeys A F (trace j h) p.
  Proof. intros A F h c j E OB p FO. eapply obeys_follows; eauto. intros. eapply trace_fits; eauto. Qed.

  Lemma exec_prefix : forall h1 h2 c, exec io sha P cap jobs (h1 ++ h2) c ->
    exists c1, exec io sha P cap jobs h1 c1.
  Proof.
    intros h1 h2. induction h2 as [|e h2 IH] using rev_ind; intros c E.
    - rewrite app_nil_r in E. eauto.
    - rewrite app_assoc in E. inversion E as [Q|h c0 j o k ch c' r E0 FO PC AN Q].
      + destruct (h1 ++ h2); discriminate.
      + apply app_inj_tail in Q. destruct Q as (-> & _). eauto.
  Qed.

  Lemma exec_snoc_inv : forall h e c, exec io sha P cap jobs (h ++ [e]) c ->
    exists c0 k, exec io sha P cap jobs h c0
      /\ follows (prog_of sha (jobs (ev_call e))) (trace (ev_call e) h) (Do (ev_op e) k)
      /\ P (ev_env e) /\ answers io (ev_env e) (ev_op e) c0 c (ev_resp e).
  Proof.
    intros h e c E. inversion E as [Q|h' c0 j o k ch c' r E0 FO PC AN Q]; [destruct h; discriminate|].
    apply app_inj_tail in Q. destruct Q as (-> & <-). cbn. eauto 10.
  Qed.

  (** The cache sees one of its own histories. *)
  Lemma exec_runs : forall h c, exec io sha P cap jobs h c -> runs io P (new_cache cap) (cache_ops h) c.
  Proof.
    intros h c E. induction E as [|h c j o k ch c' r E IH FO PC AN].
    - apply runs_nil.
    - rewrite cache_ops_snoc. cbn [ev_op ev_resp]. destruct o; cbn [answers] in AN.
      + eapply runs_step; eauto.
      + destruct AN as (-> & _). now rewrite app_nil_r.
      + destruct AN as (-> & _). now rewrite app_nil_r.
      + destruct AN as (-> & _). now rewrite app_nil_r.
      + destruct AN as (-> & _). now rewrite app_nil_r.
  Qed.
End Exec.

(** * Symbolic execution *)

Ltac sx_answer r H :=
  destruct r; cbn [fits] in H; try contradiction; clear H.

(** Walk through a program; [tA] solves the rules, [tF] the conditions on the result. *)
Ltac sx tA tF :=
  cbn [obeys app];
  lazymatch goal with
  | |- _ /\ (forall r, fits _ r -> _) =>
      split; [tA | let r := fresh "r" in let H := fresh "H" in intros r H; sx_answer r H; sx tA tF]
  | |- obeys _ _ _ (match ?x with _ => _ end) => destruct x eqn:?; sx tA tF
  | |- obeys _ _ _ ((match ?x with _ => _ end) _) => destruct x eqn:?; sx tA tF
  | |- _ => tF
  end.

(** * Rule 1: handles *)

Definition xuses (o : xop) : option nat := match o with XCache o => uses o | _ => None end.
Definition acquires (o : xop) : Prop :=
  match o with XCache (KFind _) | XCache (KPutEnc _ _ _ _ _) | XCache (KPutDec _ _) => True | _ => False end.

(** The handle a call holds after the interactions [t]. *)
Definition hold_step (a : option nat) (x : xop * resp) : option nat :=
  match x with
  | (XCache (KFind _), RFound (Some (p, _))) => Some p
  | (XCache (KPutEnc _ _ _ _ _), RPut (Some p)) => Some p
  | (XCache (KPutDec _ _), RPut (Some p)) => Some p
  | (XCache (KRelease _ _), _) => None
  | _ => a
  end.
Definition holding (t : list (xop * resp)) : option nat := fold_left hold_step t None.

Definition handle_rule (t : list (xop * resp)) (o : xop) : Prop :=
  (forall p, xuses o = Some p -> holding t = Some p) /\ (acquires o -> holding t = None).
Definition handle_end (t : list (xop * resp)) (r : jres) : Prop := holding t = None /\ r <> JStuck.

Ltac handle_A := split; [intros ? HU; cbn [xuses uses] in HU; (discriminate || (injection HU as <-; reflexivity))
                        | cbn [acquires]; (contradiction || (intros _; reflexivity))].
Ltac handle_F := split; [reflexivity|discriminate].

Lemma gen_handles : forall sha m rq, obeys handle_rule handle_end [] (gen_prog sha m rq).
Proof.
  intros. unfold gen_prog, gen_hit, gen_miss, check_ttl, set_ttl_on_miss, update_usage, release_opt.
  cbv zeta.
  sx handle_A handle_F.
Qed.

Lemma dec_handles : forall sha m rq, obeys handle_rule handle_end [] (dec_prog sha m rq).
Proof.
  intros. unfold dec_prog, dec_miss, check_ttl, set_ttl_on_miss, release_opt.
  cbv zeta. sx handle_A handle_F.
Qed.

Lemma job_handles : forall sha j, obeys handle_rule handle_end [] (prog_of sha j).
Proof.
  intros sha [m rq|m rq|]; cbn [prog_of].
  - apply gen_handles.
  - apply dec_handles.
  - sx handle_A handle_F.
Qed.

Lemma holding_snoc : forall t x, holding (t ++ [x]) = hold_step (holding t) x.
Proof. intros. unfold holding. rewrite fold_left_app. reflexivity. Qed.

Lemma legal_snoc : forall h o r, legal h -> (forall p, uses o = Some p -> held h p) -> legal (h ++ [(o, r)]).
Proof.
  intros h o r L U h1 o' r' h2 E p US. destruct h2 as [|x h2] using rev_ind.
  - apply app_inj_tail in E. destruct E as (-> & E). injection E as -> ->. auto.
  - rewrite app_comm_cons, app_assoc in E. apply app_inj_tail in E. destruct E as (-> & _).
    eapply L; eauto.
Qed.

Definition leaks (x : cop * resp) (p : nat) : bool :=
  match x with (KRelease q _, RLeak) => Nat.eqb q p | _ => false end.

Lemma acquired_snoc : forall h x p, acquired (h ++ [x]) p =
  (acquired h p + if is_some_eq (hands_out x) p then 1 else 0)%nat.
Proof. intros. unfold acquired. now rewrite filter_snoc. Qed.
Lemma released_snoc : forall h x p, released (h ++ [x]) p =
  (released h p + if is_some_eq (gives_back x) p then 1 else 0)%nat.
Proof. intros. unfold released. now rewrite filter_snoc. Qed.
Lemma leaked_snoc : forall h x p, leaked (h ++ [x]) p = (leaked h p + if leaks x p then 1 else 0)%nat.
Proof. intros. unfold leaked. rewrite filter_snoc. now destruct x as [[] []]. Qed.

(** [T] lists the calls that hold a handle, with the handle. *)
Definition tokens (h : list event) (T : list (nat * nat)) : Prop :=
  NoDup (map fst T)
  /\ (forall j p, holding (trace j h) = Some p <-> In (j, p) T)
  /\ forall p, acquired (cache_ops h) p =
       (released (cache_ops h) p + leaked (cache_ops h) p + count_occ Nat.eq_dec (map snd T) p)%nat.

Section Handles.
  Variables (io : sigio) (sha : list N -> list N) (P : choice -> Prop) (cap : N) (jobs : nat -> job).

  Lemma step_handle_rule : forall h c j o k, exec io sha P cap jobs h c ->
    follows (prog_of sha (jobs j)) (trace j h) (Do o k) -> handle_rule (trace j h) o.
  Proof.
    intros h c j o k E FO.
    destruct (exec_obeys _ _ _ _ _ _ _ _ _ _ E (job_handles sha (jobs j)) _ FO) as (H & _). exact H.
  Qed.

  Lemma exec_tokens : forall h c, exec io sha P cap jobs h c ->
    legal (cache_ops h) /\ exists T, tokens h T.
  Proof.
    intros h c E. induction E as [|h c j o k ch c' r E (LG & T & ND & HT & CT) FO PC AN].
    - split.
      + intros [|x h1] o r h2 Q; discriminate.
      + exists []. split; [constructor|]. split.
        * intros j p. cbn. split; [discriminate|contradiction].
        * reflexivity.
    - destruct (step_handle_rule _ _ _ _ _ E FO) as (HU & HA).
      assert (FT : fits o r) by (eapply answers_fits; eauto).
      assert (HELD : forall p, xuses o = Some p -> held (cache_ops h) p).
      { intros p U. specialize (HU p U). apply HT in HU. unfold held. rewrite CT.
        assert (In p (map snd T)) by (change p with (snd (j, p)); now apply in_map).
        apply (count_occ_In Nat.eq_dec) in H. lia. }
      split.
      { rewrite cache_ops_snoc. cbn [ev_op ev_resp]. destruct o as [o| | | |]; try (now rewrite app_nil_r).
        apply legal_snoc; auto. }
      assert (OTH : forall i, i <> j -> trace i (h ++ [mk_ev j o r ch]) = trace i h)
        by (intros; now apply trace_snoc_other).
      assert (SAME : trace j (h ++ [mk_ev j o r ch]) = trace j h ++ [(o, r)]) by apply trace_snoc_same.
      assert (CASES : (exists p x, o = XCache x /\ hands_out (x, r) = Some p /\ gives_back (x, r) = None /\
                         (forall q, leaks (x, r) q = false) /\ acquires o /\ forall a, hold_step a (o, r) = Some p)
                  \/ (exists p b, o = XCache (KRelease p b) /\ (r = RUnit \/ r = RLeak))
                  \/ ((forall a, hold_step a (o, r) = a) /\
                      match o with XCache x => hands_out (x, r) = None /\ gives_back (x, r) = None /\
                                               forall q, leaks (x, r) q = false
                                 | _ => True end)).
      { destruct o as [o| | | |].
        - destruct o, r; cbn [fits] in FT; try contradiction;
          try match goal with x : option (nat * bool) |- _ => destruct x as [[? ?]|] end;
          try match goal with x : option nat |- _ => destruct x end;
          try (right; right; repeat split; intros; reflexivity);
          try (right; left; eauto 6; fail);
          left; repeat eexists.
        - right; right. split; [reflexivity|exact Logic.I].
        - right; right. split; [reflexivity|exact Logic.I].
        - right; right. split; [reflexivity|exact Logic.I].
        - right; right. split; [reflexivity|exact Logic.I]. }
      destruct CASES as [(p & x & -> & HO & GB & LK & AQ & HS)|[(p & b & -> & RR)|(HS & NX)]].
      + specialize (HA AQ). exists ((j, p) :: T).
        assert (NJ : forall q, ~ In (j, q) T) by (intros q Q; apply HT in Q; congruence).
        split. { cbn. constructor; auto. intros Q. apply in_map_iff in Q. destruct Q as ([j' q] & Q1 & Q2).
                 cbn in Q1. subst j'. eapply NJ; eauto. }
        split.
        * intros i q. destruct (Nat.eq_dec i j) as [->|D].
          -- rewrite SAME, holding_snoc, HS. cbn [In]. split.
             ++ intros Q. left. congruence.
             ++ intros [Q|Q]; [congruence|]. exfalso. eapply NJ; eauto.
          -- rewrite OTH by auto. rewrite HT. cbn [In]. split; auto. intros [Q|Q]; auto. congruence.
        * intros q. rewrite cache_ops_snoc. cbn [ev_op ev_resp].
          rewrite acquired_snoc, released_snoc, leaked_snoc, CT, HO, GB, LK. cbn [is_some_eq map snd count_occ].
          destruct (Nat.eq_dec p q) as [->|D].
          -- rewrite Nat.eqb_refl. lia.
          -- destruct (Nat.eqb_spec p q); [contradiction|]. lia.
      + assert (HJ : In (j, p) T) by (apply HT, HU; reflexivity).
        apply in_split in HJ. destruct HJ as (T1 & T2 & ->). exists (T1 ++ T2).
        rewrite map_app in ND. cbn [map fst] in ND. pose proof (NoDup_remove_2 _ _ _ ND) as NJ.
        apply NoDup_remove_1 in ND. rewrite <- map_app in ND, NJ.
        split; [exact ND|]. split.
        * intros i q. destruct (Nat.eq_dec i j) as [->|D].
          -- rewrite SAME, holding_snoc. cbn [hold_step]. split; [discriminate|]. intros Q. exfalso. apply NJ.
             change j with (fst (j, q)). now apply in_map.
          -- rewrite OTH by auto. rewrite HT, !in_app_iff. cbn [In]. split; [|tauto].
             intros [Q|[Q|Q]]; auto. congruence.
        * intros q. rewrite cache_ops_snoc. cbn [ev_op ev_resp].
          rewrite acquired_snoc, released_snoc, leaked_snoc, CT, !map_app, !count_occ_app.
          cbn [map snd count_occ].
          destruct RR as [-> | ->]; cbn [hands_out gives_back leaks snd is_some_eq].
          -- destruct (Nat.eq_dec p q) as [->|D].
             ++ rewrite Nat.eqb_refl. lia.
             ++ destruct (Nat.eqb_spec p q); [contradiction|]. lia.
          -- destruct (Nat.eq_dec p q) as [->|D].
             ++ rewrite Nat.eqb_refl. lia.
             ++ destruct (Nat.eqb_spec p q); [contradiction|]. lia.
      + exists T. split; [exact ND|]. split.
        * intros i q. destruct (Nat.eq_dec i j) as [->|D].
          -- rewrite SAME, holding_snoc, HS. apply HT.
          -- rewrite OTH by auto. apply HT.
        * intros q. rewrite cache_ops_snoc. cbn [ev_op ev_resp]. destruct o as [o| | | |];
            try (rewrite app_nil_r; apply CT). destruct NX as (HO & GB & LK).
          rewrite acquired_snoc, released_snoc, leaked_snoc, CT, HO, GB, LK. cbn [is_some_eq]. lia.
  Qed.

  Lemma exec_legal : forall h c, exec io sha P cap jobs h c -> legal (cache_ops h).
  Proof. intros. eapply exec_tokens; eauto. Qed.

  Lemma exec_cok : forall h c, exec io sha P cap jobs h c -> cok c (outstanding (cache_ops h)).
  Proof. intros h c E. eapply runs_cok; [eapply exec_runs; eauto|eapply exec_legal; eauto]. Qed.

  (** A call about to operate on an entry holds a handle to it, so the cache can answer. *)
  Lemma exec_held : forall h c j o k p, exec io sha P cap jobs h c ->
    follows (prog_of sha (jobs j)) (trace j h) (Do (XCache o) k) -> uses o = Some p ->
    held (cache_ops h) p.
  Proof.
    intros h c j o k p E FO U. destruct (exec_tokens _ _ E) as (LG & T & ND & HT & CT).
    destruct (step_handle_rule _ _ _ _ _ E FO) as (HU & _). specialize (HU p U). apply HT in HU.
    unfold held. rewrite CT.
    assert (In p (map snd T)) by (change p with (snd (j, p)); now apply in_map).
    apply (count_occ_In Nat.eq_dec) in H. lia.
  Qed.

  Lemma exec_no_ub : forall h c j o k ch, exec io sha P cap jobs h c ->
    follows (prog_of sha (jobs j)) (trace j h) (Do (XCache o) k) ->
    exists c' r, cstep io ch o c = Some (c', r).
  Proof.
    intros h c j o k ch E FO. pose proof (exec_legal _ _ E) as LG.
    destruct (cstep_ok io ch o c _ (exec_cok _ _ E)) as (c' & r & H & _).
    - intros p U. pose proof (exec_held _ _ _ _ _ _ E FO U) as HE. unfold held in HE.
      unfold outstanding. lia.
    - eauto.
  Qed.

  (** Facts about one cache step of an execution. *)
  Lemma exec_facts : forall h c j o k ch c' r, exec io sha P cap jobs h c ->
    follows (prog_of sha (jobs j)) (trace j h) (Do (XCache o) k) ->
    cstep io ch o c = Some (c', r) -> step_facts io o r c c'.
  Proof.
    intros h c j o k ch c' r E FO S. pose proof (exec_legal _ _ E) as LG.
    destruct (cstep_ok io ch o c _ (exec_cok _ _ E)) as (c1 & r1 & H & _ & F).
    - intros p U. pose proof (exec_held _ _ _ _ _ _ E FO U) as HE. unfold held in HE.
      unfold outstanding. lia.
    - rewrite S in H. injection H as <- <-. exact F.
  Qed.

  Lemma exec_done_released : forall h c, exec io sha P cap jobs h c ->
    (forall j, trace j h = [] \/ exists r, returns sha jobs h j r) ->
    forall p, acquired (cache_ops h) p = (released (cache_ops h) p + leaked (cache_ops h) p)%nat.
  Proof.
    intros h c E D p. destruct (exec_tokens _ _ E) as (LG & T & ND & HT & CT).
    rewrite CT. enough (T = []) as -> by (cbn; lia).
    destruct T as [|[j q] T]; auto. exfalso.
    assert (HJ : holding (trace j h) = Some q) by (apply HT; now left).
    destruct (D j) as [H|(r & H)].
    - rewrite H in HJ. discriminate.
    - pose proof (exec_obeys _ _ _ _ _ _ _ _ _ _ E (job_handles sha (jobs j)) _ H) as (N & _). congruence.
  Qed.

  Lemma exec_not_stuck : forall h c j r, exec io sha P cap jobs h c -> returns sha jobs h j r -> r <> JStuck.
  Proof.
    intros h c j r E H.
    pose proof (exec_obeys _ _ _ _ _ _ _ _ _ _ E (job_handles sha (jobs j)) _ H) as (_ & N). exact N.
  Qed.
End Handles.
