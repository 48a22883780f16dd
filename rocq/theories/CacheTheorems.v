(** Properties of the local cache over all histories. *)
From Coq Require Import Permutation ZArith ZifyBool ZifyNat ZifyN.
From Verif Require Import Base EncCtxModel HdrModel CryptoModel SessionModel CacheModel CacheSpec
  BaseProofs CacheProofs.
Open Scope N_scope.

(** * Consistency and capacity *)

Lemma runs_cap : forall io P c0 h c, runs io P c0 h c -> forall cap, c0 = new_cache cap -> legal h ->
  c_cap c = c_cap (new_cache cap).
Proof.
  intros io P c0 h c R. induction R as [|h c o ch c' r R IH PC E]; intros cap E0 L; [now subst|]. subst c0.
  pose proof (runs_facts _ _ _ _ _ _ _ _ _ R L E) as F. rewrite (sf_cap _ _ _ _ _ F).
  apply IH; eauto using legal_prefix.
Qed.

Lemma cache_consistent : forall io P cap h c, runs io P (new_cache cap) h c -> legal h ->
  Nlen (c_map c) <= N.max 2 cap
  /\ NoDup (map fst (c_map c)) /\ NoDup (map snd (c_map c))
  /\ Permutation (map snd (c_map c)) (c_lru c)
  /\ NoDup (c_heap c)
  /\ (forall p, In p (c_heap c) <->
        exists id e, live c id p /\ c_store c p = Some e /\ ce_expiry e <> NO_EXPIRY)
  /\ (forall id p, live c id p -> exists e, c_store c p = Some e /\ ce_id e = id /\ ce_zombie e = false).
Proof.
  intros io P cap h c R L. pose proof (runs_cok _ _ _ _ _ R L) as (I & (_ & CAP) & _).
  split. { rewrite (runs_cap _ _ _ _ _ R cap eq_refl L) in CAP. unfold new_cache in CAP. cbn [c_cap] in CAP.
    destruct (N.ltb_spec cap 2); lia. }
  split; [apply (i_ids _ _ _ I)|]. split; [exact (ptrs_nd _ _ _ I)|].
  split. { apply NoDup_Permutation; [exact (ptrs_nd _ _ _ I)|apply (i_lru_nd _ _ _ I)|].
    intros p. symmetry. apply (i_lru _ _ _ I). }
  split; [apply (i_heap_nd _ _ _ I)|]. split; [|exact (i_map _ _ _ I)].
  intros p. rewrite (i_heap _ _ _ I). split.
  - intros (e & S & Z & E). exists (ce_id e), e. split; [|auto]. apply (i_live _ _ _ I); auto. discriminate.
  - intros (id & e & LV & S & E). exists e. split; [auto|]. split; [|auto].
    destruct (i_map _ _ _ I _ _ LV) as (e' & S' & _ & Z'). congruence.
Qed.

(** An entry that is in the table after an operation was there before, unless it is new. *)
Lemma live_back : forall io o r c c' n n' p id,
  cinv c n None -> cinv c' n' None -> step_facts io o r c c' -> (p < c_next c)%nat ->
  live c' id p -> live c id p.
Proof.
  intros io o r c c' n n' p id I I' F LT LV.
  destruct (i_map _ _ _ I' _ _ LV) as (e' & S' & ID & Z').
  destruct (sf_old _ _ _ _ _ F p e' LT S') as (e & S & EV). destruct EV as (E1 & _ & _ & Z & _).
  assert (ZF : ce_zombie e = false) by (destruct (ce_zombie e); [rewrite Z in Z' by auto; discriminate|auto]).
  unfold live. replace id with (ce_id e) by congruence. apply (i_live _ _ _ I); auto. discriminate.
Qed.

Lemma never_found_again : forall io P cap h c p, runs io P (new_cache cap) h c ->
  (p < c_next c)%nat -> (forall id, ~ live c id p) ->
  forall h2 c2, runs io P c h2 c2 -> legal (h ++ h2) ->
  (p < c_next c2)%nat /\ (forall id, ~ live c2 id p) /\ forall o b, ~ In (o, RFound (Some (p, b))) h2.
Proof.
  intros io P cap h c p R LT NL h2 c2 R2. induction R2 as [|h2 c2 o ch c3 r R2 IH PC E]; intros L.
  - split; [auto|]. split; [auto|]. intros o b [].
  - rewrite app_assoc in L. destruct (IH (legal_app_l _ _ L)) as (LT2 & NL2 & NF2).
    pose proof (runs_app _ _ _ _ _ _ _ R R2) as RR.
    pose proof (runs_facts _ _ _ _ _ _ _ _ _ RR L E) as F.
    pose proof (runs_cok _ _ _ _ _ RR (legal_prefix _ _ L)) as (I & _).
    pose proof (runs_cok _ _ _ _ _ (runs_step _ _ _ _ _ _ _ _ _ RR PC E) L) as (I' & _).
    split. { pose proof (sf_next _ _ _ _ _ F). lia. }
    split. { intros id LV. apply (NL2 id). eapply live_back; eauto. }
    intros o' b J. apply in_app_iff in J. destruct J as [J|[J|[]]]; [eapply NF2; eauto|].
    assert (EQ : r = RFound (Some (p, b))) by congruence.
    destruct (sf_found _ _ _ _ _ F p b EQ) as (id & e & _ & LV & _). eapply NL2; eauto.
Qed.

Lemma put_lt_next : forall io P cap h c, runs io P (new_cache cap) h c -> legal h ->
  forall o p, In (o, RPut (Some p)) h -> (p < c_next c)%nat.
Proof.
  intros io P cap h c R. induction R as [|h c o ch c' r R IH PC E]; intros L o' p J; [inversion J|].
  pose proof (runs_facts _ _ _ _ _ _ _ _ _ R L E) as F.
  apply in_app_iff in J. destruct J as [J|[J|[]]].
  - specialize (IH (legal_prefix _ _ L) o' p J). pose proof (sf_next _ _ _ _ _ F). lia.
  - assert (EQ : r = RPut (Some p)) by congruence. destruct (sf_put _ _ _ _ _ F p EQ) as (_ & -> & _). lia.
Qed.

Lemma dead_not_found : forall io P cap h c o p, runs io P (new_cache cap) h c ->
  In (o, RPut (Some p)) h -> (forall id, ~ live c id p) ->
  forall h2 c2, runs io P c h2 c2 -> legal (h ++ h2) ->
  (forall id, ~ live c2 id p) /\ forall o b, ~ In (o, RFound (Some (p, b))) h2.
Proof.
  intros io P cap h c o p R J NL h2 c2 R2 L.
  pose proof (put_lt_next _ _ _ _ _ R (legal_app_l _ _ L) _ _ J) as LT.
  destruct (never_found_again _ _ _ _ _ _ R LT NL _ _ R2 L) as (_ & A & B). auto.
Qed.

Lemma invalidated_dead : forall io P cap h c p, runs io P (new_cache cap) (h ++ [(KRelease p true, RUnit)]) c ->
  legal (h ++ [(KRelease p true, RUnit)]) -> forall id, ~ live c id p.
Proof.
  intros io P cap h c p R L id LV. destruct (runs_snoc_inv _ _ _ _ _ _ R) as (c1 & ch & R1 & PC & E).
  cbn [fst snd] in E. pose proof (runs_cok _ _ _ _ _ R1 (legal_prefix _ _ L)) as (I & CAP & _).
  pose proof (runs_cok _ _ _ _ _ R L) as (I' & _).
  pose proof (runs_facts _ _ _ _ _ _ _ _ _ R1 L E) as F.
  pose proof (legal_last _ _ _ L p eq_refl) as HD.
  assert (NP : outstanding (h) p <> 0%nat) by (unfold outstanding, held in *; lia).
  cbn [cstep] in E. destruct (c_store c1 p) as [e|] eqn:S; [|discriminate].
  destruct (ce_zombie e) eqn:Z; cbn [andb negb] in E.
  - pose proof (lt_next _ _ _ _ _ I S) as LT. pose proof (live_back _ _ _ _ _ _ _ _ _ I I' F LT LV) as LV1.
    destruct (i_map _ _ _ I _ _ LV1) as (e1 & S1 & _ & Z1). congruence.
  - destruct (ch_lock ch); cbn [negb] in E; [|discriminate].
    destruct (locked_release_ok _ _ _ _ I CAP S NP Z) as (c2 & E2 & _ & _ & _ & _ & M). rewrite E2 in E.
    assert (c2 = c) by congruence. subst c2. unfold live in LV. rewrite M in LV. apply in_minus_snd in LV.
    destruct LV as (_ & X). apply X. now left.
Qed.

Lemma found_right_id : forall io P cap h c id p b, runs io P (new_cache cap) (h ++ [(KFind id, RFound (Some (p, b)))]) c ->
  legal (h ++ [(KFind id, RFound (Some (p, b)))]) ->
  live c id p /\ exists e, c_store c p = Some e /\ ce_id e = id /\ ce_zombie e = false /\ b = is_enc (ce_mat e).
Proof.
  intros io P cap h c id p b R L. destruct (runs_snoc_inv _ _ _ _ _ _ R) as (c1 & ch & R1 & PC & E).
  cbn [fst snd] in E. pose proof (runs_facts _ _ _ _ _ _ _ _ _ R1 L E) as F.
  pose proof (runs_cok _ _ _ _ _ R L) as (I' & _).
  destruct (sf_found _ _ _ _ _ F p b eq_refl) as (id' & e & EQ & _ & LV & S & ID & B).
  assert (EI : id' = id) by congruence. rewrite EI in LV, ID. clear EQ EI. split; [exact LV|]. exists e.
  destruct (i_map _ _ _ I' _ _ LV) as (e' & S' & _ & Z'). assert (e' = e) by congruence. subst e'. auto.
Qed.

(** * Lifetime *)

Lemma entry_lifetime : forall io P cap h c, runs io P (new_cache cap) h c -> legal h ->
  NoDup (c_freed c)
  /\ (forall p, (p < c_next c)%nat ->
        (In p (c_freed c) <-> (forall id, ~ live c id p) /\ ~ held h p))
  /\ (forall p, In p (c_freed c) -> c_store c p = None)
  /\ (forall p, held h p -> c_store c p <> None)
  /\ (forall id p, live c id p -> c_store c p <> None)
  /\ forall ch o, (forall p, uses o = Some p -> held h p) -> cstep io ch o c <> None.
Proof.
  intros io P cap h c R L. pose proof (runs_cok _ _ _ _ _ R L) as OK. pose proof OK as (I & _).
  split; [apply (i_freed_nd _ _ _ I)|].
  split. { intros p LT. rewrite (i_freed _ _ _ I). split.
    - intros (_ & S). split.
      + intros id LV. destruct (i_map _ _ _ I _ _ LV) as (e & S' & _). congruence.
      + pose proof (i_none _ _ _ I _ S) as N0. unfold held, outstanding in *. lia.
    - intros (NL & NH). split; [auto|]. destruct (c_store c p) as [e|] eqn:S; auto. exfalso.
      destruct (i_refs _ _ _ I _ _ S) as (RF & R0). destruct (ce_zombie e) eqn:Z.
      + assert (outstanding h p <> 0%nat) by lia. unfold held, outstanding in *. lia.
      + apply (NL (ce_id e)). apply (i_live _ _ _ I); auto. discriminate. }
  split. { intros p J. now apply (i_freed _ _ _ I) in J. }
  split. { intros p H S. pose proof (i_none _ _ _ I _ S) as N0. unfold held, outstanding in *. lia. }
  split. { intros id p LV S. destruct (i_map _ _ _ I _ _ LV) as (e & S' & _). congruence. }
  intros ch o U E. destruct (cstep_ok io ch o c (outstanding h) OK) as (c' & r & E' & _).
  - intros p UP. specialize (U p UP). unfold held, outstanding in *. lia.
  - congruence.
Qed.

(** * Expiry *)

Lemma lookup_expiry : forall io P cap h c ch id c' p b now,
  runs io P (new_cache cap) h c -> legal h ->
  cstep io ch (KFind id) c = Some (c', RFound (Some (p, b))) -> ch_clock ch = Some now ->
  (exists e, c_store c' p = Some e /\ (ce_expiry e = NO_EXPIRY \/ now < ce_expiry e))
  \/ exists D, NoDup D /\ length D = 8%nat /\ ~ In p D /\
       forall q, In q D -> exists i e, live c i q /\ c_store c q = Some e /\ ce_expiry e <= now.
Proof.
  intros io P cap h c ch id c' p b now R L E CK. pose proof (runs_cok _ _ _ _ _ R L) as (I & CAP & EXP).
  cbn [cstep] in E. destruct (ch_lock ch); cbn [negb] in E; [|discriminate].
  destruct (process_ttls_ok (ch_clock ch) c (outstanding h) None I) as (D & c1 & E1 & D1 & I1 & TTL).
  rewrite E1 in E. destruct (map_find id (c_map c1)) as [p'|] eqn:F; [|discriminate].
  destruct (c_store c1 p') as [e|] eqn:S; [|discriminate].
  assert (Q : c' = put_at p' (with_refs (Datatypes.S (ce_refs e)) e) (set_lru (p' :: without p' (c_lru c1)) c1)
              /\ p' = p) by (split; congruence). destruct Q as (-> & ->). clear E.
  rewrite CK in TTL. cbn [ttl_done] in TTL. destruct TTL as (ND & _ & OLD & FIN).
  pose proof (map_find_in _ _ _ F) as LV1.
  destruct FIN as [LEN|FIN].
  - right. exists D. split; [auto|]. split; [exact LEN|]. split.
    + rewrite (d_map _ _ _ D1) in LV1. apply in_minus_snd in LV1. tauto.
    + intros q Q. destruct (OLD q Q) as (HP & EX).
      destruct (d_gone _ _ _ D1 q Q) as (eq & Sq & Zq & Lq & _). exists (ce_id eq), eq.
      split; [exact Lq|]. split; [auto|]. unfold expiry_of in EX. now rewrite Sq in EX.
  - left. eexists. split; [cbn [put_at set_store c_store]; apply upd_same|]. cbn [with_refs ce_expiry].
    destruct (i_map _ _ _ I1 _ _ LV1) as (e' & S' & _ & Z'). assert (e' = e) by congruence. subst e'.
    destruct (N.eq_dec (ce_expiry e) NO_EXPIRY) as [X|X]; [now left|right].
    assert (HP : In p (c_heap c1)) by (apply (i_heap _ _ _ I1); eauto).
    specialize (FIN p HP). unfold expiry_of in FIN. now rewrite S in FIN.
Qed.

(** The entry that lookups return has the expiry it had before the lookup. *)
Lemma hints_shorten : forall io P cap h c o ch c' r p e e',
  runs io P (new_cache cap) h c -> legal (h ++ [(o, r)]) -> ch_push ch = true ->
  cstep io ch o c = Some (c', r) -> c_store c p = Some e -> c_store c' p = Some e' ->
  ce_expiry e' <= ce_expiry e /\ ce_created e' = ce_created e.
Proof.
  intros io P cap h c o ch c' r p e e' R L PU E S S'.
  pose proof (runs_cok _ _ _ _ _ R (legal_prefix _ _ L)) as (I & _).
  pose proof (runs_facts _ _ _ _ _ _ _ _ _ R L E) as F.
  destruct (sf_old _ _ _ _ _ F p e' (lt_next _ _ _ _ _ I S) S') as (e0 & S0 & EV).
  assert (e0 = e) by congruence. subst e0. destruct EV as (_ & CR & _ & _ & _ & _ & X).
  split; [|exact CR]. destruct X as [X|(t & O & LT & X)]; [lia|]. subst o.
  cbn [cstep] in E. rewrite S in E. destruct (ce_zombie e || (ce_expiry e <=? t)).
  { assert (c' = c) by congruence. subst c'. rewrite S in S'. assert (e' = e) by congruence. subst. lia. }
  destruct (ch_lock ch); cbn [negb] in E.
  2:{ assert (c' = c) by congruence. subst c'. rewrite S in S'. assert (e' = e) by congruence. subst. lia. }
  rewrite PU in E. cbv zeta in E.
  assert (C : c' = set_heap (p :: c_heap (if ce_expiry e <? NO_EXPIRY then set_heap (without p (c_heap c)) c else c))
      (put_at p (with_expiry t e) (if ce_expiry e <? NO_EXPIRY then set_heap (without p (c_heap c)) c else c)))
    by congruence.
  subst c'. cbn [set_heap put_at set_store c_store] in S'. rewrite upd_same in S'.
  assert (e' = with_expiry t e) by congruence. subst e'. cbn [with_expiry ce_expiry]. lia.
Qed.

Lemma hints_shorten_run : forall io cap h c p e,
  runs io (fun ch => ch_push ch = true) (new_cache cap) h c -> c_store c p = Some e ->
  forall h2 c2 e2, runs io (fun ch => ch_push ch = true) c h2 c2 -> legal (h ++ h2) ->
  c_store c2 p = Some e2 -> ce_expiry e2 <= ce_expiry e /\ ce_created e2 = ce_created e.
Proof.
  intros io cap h c p e R S h2 c2 e2 R2. revert e2.
  induction R2 as [|h2 c2 o ch c3 r R2 IH PC E]; intros e3 L S3.
  - assert (e3 = e) by congruence. subst. split; lia.
  - rewrite app_assoc in L. pose proof (runs_app _ _ _ _ _ _ _ R R2) as RR.
    pose proof (runs_facts _ _ _ _ _ _ _ _ _ RR L E) as F.
    pose proof (runs_cok _ _ _ _ _ RR (legal_prefix _ _ L)) as (I & _).
    assert (LT : (p < c_next c2)%nat).
    { pose proof (runs_cok _ _ _ _ _ R (legal_app_l _ _ (legal_app_l _ _ L))) as (I0 & _).
      apply (lt_next _ _ _ _ _ I0) in S.
      revert R S. clear -R2 L. intros R S.
      assert (G : (c_next c <= c_next c2)%nat).
      { apply legal_prefix in L. clear -R2 L R. induction R2 as [|h2 c2 o ch c3 r R2 IH PC E]; [auto|].
        rewrite app_assoc in L. pose proof (runs_app _ _ _ _ _ _ _ R R2) as RR.
        pose proof (sf_next _ _ _ _ _ (runs_facts _ _ _ _ _ _ _ _ _ RR L E)).
        specialize (IH (legal_prefix _ _ L)). lia. }
      lia. }
    destruct (sf_old _ _ _ _ _ F p e3 LT S3) as (e2 & S2 & _).
    destruct (IH e2 (legal_prefix _ _ L) S2) as (A & B).
    destruct (hints_shorten _ _ _ _ _ _ _ _ _ _ _ _ RR L PC E S2 S3) as (A' & B'). split; [lia|congruence].
Qed.

(** * Least recently used *)

Lemma fop_filter : forall {A} (Q : A -> A -> Prop) f l, ForallOrdPairs Q l -> ForallOrdPairs Q (filter f l).
Proof.
  induction 1 as [|a l F FO IH]; cbn [filter]; [constructor|]. destruct (f a); auto. constructor; auto.
  apply Forall_forall. intros x X. apply filter_In in X. rewrite Forall_forall in F. apply F. tauto.
Qed.
Lemma fop_app_l : forall {A} (Q : A -> A -> Prop) l1 l2, ForallOrdPairs Q (l1 ++ l2) -> ForallOrdPairs Q l1.
Proof.
  induction l1 as [|a l1 IH]; intros l2 H; [constructor|]. cbn [app] in H. inversion H as [|? ? F FO]; subst.
  constructor; eauto. rewrite Forall_forall in *. intros x X. apply F. apply in_app_iff. now left.
Qed.
Lemma fop_cross : forall {A} (Q : A -> A -> Prop) l1 l2 x y, ForallOrdPairs Q (l1 ++ l2) -> In x l1 -> In y l2 -> Q x y.
Proof.
  induction l1 as [|a l1 IH]; intros l2 x y H X Y; [inversion X|]. cbn [app] in H.
  inversion H as [|? ? F FO]; subst. destruct X as [<-|X]; [|eauto].
  rewrite Forall_forall in F. apply F. apply in_app_iff. now right.
Qed.
Lemma fop_mono : forall {A} (Q Q' : A -> A -> Prop) l, ForallOrdPairs Q l ->
  (forall x y, In x l -> In y l -> Q x y -> Q' x y) -> ForallOrdPairs Q' l.
Proof.
  intros A Q Q' l H. induction H as [|a l F FO IH]; intros M; [constructor|].
  constructor.
  - rewrite Forall_forall in *. intros x X. apply M; [now left|now right|auto].
  - apply IH. intros; apply M; auto; now right.
Qed.

Definition by_recency (h : list (cop * resp)) (l : list nat) : Prop :=
  ForallOrdPairs (fun r q => older h q r) l.

Lemma older_snoc : forall h x q r, older h q r -> hands_out x <> Some q -> older (h ++ [x]) q r.
Proof.
  intros h x q r (h1 & y & h2 & E & H & NE & AFTER) NX. exists h1, y, (h2 ++ [x]).
  split; [rewrite E, <- app_assoc; reflexivity|]. split; [auto|]. split; [auto|].
  intros z Z. apply in_app_iff in Z. destruct Z as [Z|[<-|[]]]; auto.
Qed.
Lemma older_now : forall h x q r, hands_out x = Some r -> r <> q -> older (h ++ [x]) q r.
Proof.
  intros h x q r H NE. exists h, x, []. split; [reflexivity|]. split; [auto|]. split; [auto|].
  intros y [].
Qed.

Lemma recency_step : forall io P cap h c o ch c' r,
  runs io P (new_cache cap) h c -> legal (h ++ [(o, r)]) -> cstep io ch o c = Some (c', r) ->
  by_recency h (c_lru c) -> by_recency (h ++ [(o, r)]) (c_lru c').
Proof.
  intros io P cap h c o ch c' r R L E BR. pose proof (runs_facts _ _ _ _ _ _ _ _ _ R L E) as F.
  pose proof (sf_lru _ _ _ _ _ F) as LR. unfold by_recency in *.
  destruct (hands_out (o, r)) as [p|] eqn:H.
  - destruct LR as (l & T & D & E1 & E2 & NI). rewrite E1. constructor.
    + apply Forall_forall. intros q Q. apply older_now; auto. intros ->. apply NI, in_app_iff. now left.
    + apply (fop_mono (fun r0 q => older h q r0)).
      * eapply fop_app_l. rewrite E2. apply fop_filter. exact BR.
      * intros x y X Y O. apply older_snoc; auto. rewrite H. intros EQ. injection EQ as ->. apply NI, in_app_iff. now left.
  - destruct LR as (D & ->). apply (fop_mono (fun r0 q => older h q r0)).
    + apply fop_filter. exact BR.
    + intros x y X Y O. apply older_snoc; auto. congruence.
Qed.

Lemma lru_by_recency : forall io P c0 h c, runs io P c0 h c -> forall cap, c0 = new_cache cap -> legal h ->
  by_recency h (c_lru c).
Proof.
  intros io P c0 h c R. induction R as [|h c o ch c' r R IH PC E]; intros cap E0 L; subst c0; [constructor|].
  eapply recency_step; eauto using legal_prefix.
Qed.

Lemma evicts_lru : forall io P cap h c o ch c' p,
  runs io P (new_cache cap) h c -> legal (h ++ [(o, RPut (Some p))]) ->
  cstep io ch o c = Some (c', RPut (Some p)) ->
  forall q idq, live c idq q -> (forall id, ~ live c' id q) -> put_id o <> Some idq ->
  (forall e t, c_store c q = Some e -> ch_clock2 ch = Some t -> t < ce_expiry e) ->
  Nlen (c_map c') = c_cap c /\
  forall r idr, live c' idr r -> older (h ++ [(o, RPut (Some p))]) q r.
Proof.
  intros io P cap h c o ch c' p R L E q idq LQ NL NID NEXP.
  pose proof (runs_cok _ _ _ _ _ R (legal_prefix _ _ L)) as (I & CAP & _).
  pose proof (lru_by_recency _ _ _ _ _ R cap eq_refl (legal_prefix _ _ L)) as BR.
  assert (PUT : exists mat ub um id, put_id o = Some id /\ put_entry ch mat ub um id c = Some (c', Some p)).
  { destruct o; cbn [cstep] in E; try discriminate.
    - destruct (ch_lock ch); cbn [negb] in E; [|discriminate].
      destruct (process_ttls (ch_clock ch) c); [|discriminate].
      destruct (map_find id (c_map c0)) as [p'|]; [|discriminate].
      destruct (c_store c0 p'); discriminate.
    - destruct (put_entry ch (cache_enc io m ctx) bytes msgs id c) as [[c1 r1]|] eqn:PE; [|discriminate].
      exists (cache_enc io m ctx), bytes, msgs, id. split; [reflexivity|]. rewrite PE. congruence.
    - destruct (put_entry ch (cache_dec io m) 0 0 id c) as [[c1 r1]|] eqn:PE; [|discriminate].
      exists (cache_dec io m), 0, 0, id. split; [reflexivity|]. rewrite PE. congruence.
    - destruct (c_store c p0); discriminate.
    - destruct (c_store c p0); discriminate.
    - destruct (c_store c p0); discriminate.
    - destruct (c_store c p0) as [e|]; [|discriminate]. destruct (get_enc io ch e ctx). discriminate.
    - destruct (c_store c p0); discriminate.
    - destruct (c_store c p0); discriminate.
    - destruct (c_store c p0) as [e|]; [|discriminate]. destruct (ce_zombie e || (ce_expiry e <=? t)); [discriminate|].
      destruct (negb (ch_lock ch)); [discriminate|]. cbv zeta in E. destruct (ch_push ch); discriminate.
    - destruct (c_store c p0) as [e|]; [|discriminate]. destruct (inval && negb (ce_zombie e)).
      + destruct (negb (ch_lock ch)); [discriminate|]. destruct (locked_release p0 true c); discriminate.
      + destruct (drop_ref p0 c); discriminate.
    - destruct (negb (ch_lock ch)); [discriminate|]. destruct (clear_loop (c_map c) c); discriminate. }
  destruct PUT as (mat & ub & um & id & PI & PE).
  destruct (put_entry_ok ch mat ub um id c (outstanding h) I CAP) as (c2 & r2 & E2 & K & CAP2 & R2).
  assert (c2 = c' /\ r2 = Some p) by (split; congruence). destruct H as (-> & ->).
  destruct R2 as (PN & I' & D & RR & T & PD).
  destruct PD as [pd_entry0 pd_lru0 pd_map0 pd_repl0 pd_old0 pd_full0 pd_head0 pd_next0].
  assert (LTQ : (q < c_next c)%nat).
  { destruct (i_map _ _ _ I _ _ LQ) as (e & S & _). eapply lt_next; eauto. }
  assert (NPQ : p <> q) by lia.
  assert (QD : ~ In q D).
  { intros J. destruct (pd_old0 q J) as (t & CK & EX). destruct (i_map _ _ _ I _ _ LQ) as (e & S & _).
    unfold expiry_of in EX. rewrite S in EX. specialize (NEXP e t S CK). lia. }
  assert (QR : ~ In q RR).
  { intros J. apply pd_repl0 in J. destruct (i_map _ _ _ I _ _ J) as (e & S & A & _).
    destruct (i_map _ _ _ I _ _ LQ) as (e' & S' & A' & _). apply NID. congruence. }
  assert (QT : In q T).
  { assert (J : In q (p :: minus (c_lru c) (D ++ RR))).
    { right. apply in_minus. split; [apply (i_lru _ _ _ I), in_ptrs; eauto|]. rewrite in_app_iff. tauto. }
    rewrite pd_lru0 in J. apply in_app_iff in J. destruct J as [J|J]; auto. exfalso.
    apply (i_lru _ _ _ I') in J. apply in_ptrs in J. destruct J as (i & J). eapply NL; exact J. }
  split. { apply pd_full0. intros ->. inversion QT. }
  intros r idr LR.
  assert (RL : In r (c_lru c')) by (apply (i_lru _ _ _ I'), in_ptrs; eauto).
  assert (BR' : by_recency (h ++ [(o, RPut (Some p))]) (c_lru c' ++ T)).
  { rewrite <- pd_lru0. constructor.
    - apply Forall_forall. intros z Z. apply older_now; [reflexivity|]. intros ->.
      apply in_minus in Z. destruct Z as (Z & _). apply (i_lru _ _ _ I) in Z. apply in_ptrs in Z.
      destruct Z as (i & Z). destruct (i_map _ _ _ I _ _ Z) as (e & S & _). apply (lt_next _ _ _ _ _ I) in S. lia.
    - apply (fop_mono (fun r0 q0 => older h q0 r0)); [apply fop_filter; exact BR|].
      intros x y X Y O. apply older_snoc; auto. cbn [hands_out snd]. intros EQ. injection EQ as ->.
      apply in_minus in Y. destruct Y as (Y & _). apply (i_lru _ _ _ I) in Y. apply in_ptrs in Y.
      destruct Y as (i & Y). destruct (i_map _ _ _ I _ _ Y) as (e & S & _). apply (lt_next _ _ _ _ _ I) in S. lia. }
  exact (fop_cross _ _ _ _ _ BR' RL QT).
Qed.
