(** Entries stay in the cache until there is a reason to remove them, and are used (C71): proofs. *)
From Verif Require Import Base BaseProofs AlgModel EncCtxModel HdrModel CryptoModel SessionModel KeyringModel
  WireSpec EncCtxProofs CacheModel CacheSpec CacheProofs CacheTheorems CachingModel CachingSpec CachingProofs
  CachingOrigin CachingTheorems CachingHash CachingAnswers CacheHitSpec.
From Coq Require Import Permutation ZArith Lia ZifyBool ZifyNat ZifyN.
Import List ListNotations.
Open Scope list_scope. Open Scope N_scope.

(** * Leaving the cache *)

Lemma live_not_dropped : forall D c c' id p, dropped D c c' -> live c id p -> ~ In p D -> live c' id p.
Proof. intros D c c' id p H L N. unfold live. rewrite (d_map _ _ _ H). apply in_minus_snd. auto. Qed.

Lemma ttl_dropped_old : forall clock D c c' n x id p e, ttl_done clock D c c' -> cinv c n x ->
  live c id p -> c_store c p = Some e -> In p D -> exists now, clock = Some now /\ ce_expiry e <= now.
Proof.
  intros clock D c c' n x id p e T I L S J. destruct clock as [now|]; cbn [ttl_done] in T; [|subst; contradiction].
  exists now. split; [auto|]. destruct T as (_ & _ & OLD & _). destruct (OLD p J) as (_ & X). unfold expiry_of in X.
  now rewrite S in X.
Qed.

Lemma minus_snd_lt : forall D (m : list (list N * nat)) id p, In (id, p) m -> In p D ->
  (length (minus_snd m D) < length m)%nat.
Proof.
  intros D m id p. unfold minus_snd. induction m as [|x m IH]; intros J K; [contradiction|].
  cbn [filter length]. destruct J as [->|J].
  - cbn [snd]. assert (M : memb D p = true) by (now apply memb_spec). rewrite M. cbn [negb].
    pose proof (len_filter (fun x => negb (memb D (snd x))) m). lia.
  - specialize (IH J K). destruct (negb (memb D (snd x))); cbn [length]; lia.
Qed.

Lemma put_removes : forall h mat ub um id0 c n c' r id p e, cinv c n None -> cap_ok c ->
  put_entry h mat ub um id0 c = Some (c', r) -> live c id p -> c_store c p = Some e -> ~ live c' id p ->
  id = id0 \/ c_cap c <= Nlen (c_map c) \/ exists now, ch_clock2 h = Some now /\ ce_expiry e <= now.
Proof.
  intros h mat ub um id0 c n c' r id p e I CAP E L S NL.
  destruct r as [q|].
  - destruct (put_entry_ok h mat ub um id0 c n I CAP) as (c2 & r2 & E2 & K & CAP2 & R). rewrite E in E2.
    assert (Q : c2 = c' /\ r2 = Some q) by (split; congruence). destruct Q as (-> & ->).
    destruct R as (EQ & I' & D & R & T & [pd_entry0 pd_lru0 pd_map0 pd_repl0 pd_old0 pd_full0 pd_head0 pd_next0]).
    destruct (in_dec_nat p D) as [JD|JD].
    { right. right. destruct (pd_old0 p JD) as (t & CK & X). exists t. split; [auto|]. unfold expiry_of in X.
      now rewrite S in X. }
    destruct (in_dec_nat p R) as [JR|JR].
    { left. pose proof (pd_repl0 p JR) as L2. destruct (i_map _ _ _ I _ _ L) as (e1 & S1 & D1 & _).
      destruct (i_map _ _ _ I _ _ L2) as (e2 & S2 & D2 & _). congruence. }
    destruct (in_dec_nat p T) as [JT|JT].
    { right. left. assert (TN : T <> []) by (intros ->; contradiction). specialize (pd_full0 TN).
      assert (J1 : In (id, p) (minus_snd (c_map c) (D ++ R))).
      { apply in_minus_snd. split; [exact L|]. rewrite in_app_iff. cbn [snd]. tauto. }
      pose proof (minus_snd_lt (rev T) ((id0, q) :: minus_snd (c_map c) (D ++ R)) id p (or_intror J1)) as LT.
      rewrite <- in_rev in LT. specialize (LT JT). rewrite <- pd_map0 in LT. cbn [length] in LT.
      pose proof (len_filter (fun x => negb (memb (D ++ R) (snd x))) (c_map c)) as LF.
      unfold minus_snd in LT. unfold Nlen in *. lia. }
    exfalso. apply NL. unfold live. rewrite pd_map0. apply in_minus_snd. cbn [snd]. rewrite <- in_rev. split; [|auto].
    right. apply in_minus_snd. split; [exact L|]. rewrite in_app_iff. cbn [snd]. tauto.
  - unfold put_entry in E. destruct (ch_lock h); cbn [negb] in E; [|exfalso; apply NL; congruence].
    destruct (ch_clock h) as [now|]; [|exfalso; apply NL; congruence].
    destruct mat as [m|]; [|exfalso; apply NL; congruence].
    destruct (ch_mem h); [|exfalso; apply NL; congruence]. cbv zeta in E.
    change (mk_cache (c_cap c) (c_map c) (c_lru c) (c_heap c)
      (upd (c_store c) (c_next c) (Some (mk_centry id0 now NO_EXPIRY m ub um 1 false))) (Datatypes.S (c_next c)) (c_freed c))
      with (alloc_entry (fresh_entry id0 now m ub um) c) in E.
    pose proof (alloc_ok c n id0 now m ub um I) as I0.
    set (q := c_next c) in *. set (c0 := alloc_entry (fresh_entry id0 now m ub um) c) in *.
    assert (PQ : p <> q). { intros ->. unfold q in S. rewrite (i_next _ _ _ I) in S; [discriminate|lia]. }
    assert (S0 : c_store c0 p = Some e) by (unfold c0, alloc_entry; cbn [c_store]; now rewrite upd_other).
    unfold insert_entry in E.
    destruct (process_ttls_ok (ch_clock2 h) c0 n (Some q) I0) as (D & c1 & E1 & D1 & I1 & TTL). rewrite E1 in E.
    destruct (negb (ch_insert h)).
    + assert (c' = destroy_entry q c1) by congruence. subst c'.
      destruct (in_dec_nat p D) as [JD|JD].
      { right. right. exact (ttl_dropped_old _ _ _ _ _ _ id p e TTL I0 L S0 JD). }
      exfalso. apply NL. exact (live_not_dropped _ _ _ _ _ D1 L JD).
    + destruct (match map_find id0 (c_map c1) with None => Some c1 | Some old => invalidate old true c1 end) as [c2|];
        [|discriminate].
      match type of E with context [evict_loop ?a ?b ?d] => destruct (evict_loop a b d) as [c5|]; [|discriminate] end.
      destruct (c_store c5 q); discriminate.
Qed.

Lemma drop_ref_map : forall p c c', drop_ref p c = Some c' -> c_map c' = c_map c.
Proof.
  intros p c c' E. unfold drop_ref in E. destruct (c_store c p) as [e|]; [|discriminate].
  destruct (ce_refs e) as [|[|k]]; [discriminate| |].
  - destruct (ce_zombie e); [|discriminate]. assert (c' = destroy_entry p c) by congruence. now subst.
  - assert (c' = put_at p (with_refs (S k) e) c) by congruence. now subst.
Qed.

Lemma drop_ref_cinv : forall c n p e c', cinv c n None -> c_store c p = Some e -> n p <> 0%nat ->
  drop_ref p c = Some c' -> cinv c' (down p n) None.
Proof.
  intros c n p e c' I S NP E. destruct (drop_ref_ok c n p e I S NP) as (c2 & E2 & A). rewrite E in E2.
  assert (c2 = c') by congruence. subst. apply A.
Qed.

Lemma removed_for_a_reason : forall io c n ch o c' r id p e, cok c n ->
  (forall q, uses o = Some q -> n q <> 0%nat) ->
  cstep io ch o c = Some (c', r) -> live c id p -> c_store c p = Some e -> ~ live c' id p ->
  may_remove o ch c id p e.
Proof.
  intros io c n ch o c' r id p e (I & CAP & _) US E L S NL. unfold may_remove.
  assert (SAME : c_map c' = c_map c -> False) by (intros Q; apply NL; unfold live; now rewrite Q).
  destruct o as [i|m ub um ctx i|m i|q|q k|q k|q ctx|q|q|q t|q inval| |]; cbn [cstep put_id expiry_clock] in *.
  - destruct (ch_lock ch); cbn [negb] in E; [|exfalso; apply SAME; congruence].
    destruct (process_ttls_ok (ch_clock ch) c n None I) as (D & c1 & E1 & D1 & I1 & TTL). rewrite E1 in E.
    assert (M : c_map c' = c_map c1).
    { destruct (map_find i (c_map c1)) as [q|]; [|congruence]. destruct (c_store c1 q) as [e1|]; [|discriminate].
      match type of E with Some (?x, _) = _ => assert (c' = x) by congruence; subst c'; reflexivity end. }
    destruct (in_dec_nat p D) as [JD|JD].
    + right. right. right. right. exact (ttl_dropped_old _ _ _ _ _ _ id p e TTL I L S JD).
    + exfalso. apply NL. unfold live. rewrite M. exact (live_not_dropped _ _ _ _ _ D1 L JD).
  - destruct (put_entry ch (cache_enc io m ctx) ub um i c) as [[c2 r2]|] eqn:EP; [|discriminate].
    assert (c2 = c') by congruence. subst c2.
    destruct (put_removes _ _ _ _ _ _ _ _ _ _ _ _ I CAP EP L S NL) as [->|[X|X]]; auto 6.
    right. right. right. left. split; [discriminate|auto].
  - destruct (put_entry ch (cache_dec io m) 0 0 i c) as [[c2 r2]|] eqn:EP; [|discriminate].
    assert (c2 = c') by congruence. subst c2.
    destruct (put_removes _ _ _ _ _ _ _ _ _ _ _ _ I CAP EP L S NL) as [->|[X|X]]; auto 6.
    right. right. right. left. split; [discriminate|auto].
  - exfalso. apply SAME. destruct (c_store c q); [congruence|discriminate].
  - exfalso. apply SAME. destruct (c_store c q) as [e1|]; [|discriminate]. cbv zeta in E.
    match type of E with Some (?x, _) = _ => assert (c' = x) by congruence; subst c'; reflexivity end.
  - exfalso. apply SAME. destruct (c_store c q) as [e1|]; [|discriminate]. cbv zeta in E.
    match type of E with Some (?x, _) = _ => assert (c' = x) by congruence; subst c'; reflexivity end.
  - exfalso. apply SAME. destruct (c_store c q) as [e1|]; [|discriminate].
    destruct (get_enc io ch e1 ctx) as [ctx' x]. congruence.
  - exfalso. apply SAME. destruct (c_store c q); [congruence|discriminate].
  - exfalso. apply SAME. destruct (c_store c q); [congruence|discriminate].
  - exfalso. apply SAME. destruct (c_store c q) as [e1|]; [|discriminate].
    destruct (ce_zombie e1 || (ce_expiry e1 <=? t)); [congruence|].
    destruct (negb (ch_lock ch)); [congruence|]. cbv zeta in E.
    destruct (ch_push ch); match type of E with Some (?x, _) = _ => assert (c' = x) by congruence; subst c' end;
      cbn [set_heap put_at set_store c_map]; destruct (ce_expiry e1 <? NO_EXPIRY); reflexivity.
  - destruct (c_store c q) as [e1|] eqn:Sq; [|discriminate]. destruct inval; cbn [andb] in E.
    2:{ exfalso. apply SAME. destruct (drop_ref q c) as [c2|] eqn:ED; [|discriminate].
        assert (c2 = c') by congruence. subst. now apply drop_ref_map in ED. }
    destruct (Nat.eq_dec q p) as [->|QP]; [auto|].
    destruct (ce_zombie e1) eqn:Zq; cbn [negb] in E.
    { exfalso. apply SAME. destruct (drop_ref q c) as [c2|] eqn:ED; [|discriminate].
      assert (c2 = c') by congruence. subst. now apply drop_ref_map in ED. }
    destruct (ch_lock ch); cbn [negb] in E; [|exfalso; apply SAME; congruence].
    unfold locked_release in E. destruct (drop_ref q c) as [c1|] eqn:ED; [|discriminate].
    pose proof (drop_ref_map _ _ _ ED) as M1.
    pose proof (drop_ref_cinv _ _ _ _ _ I Sq (US q eq_refl) ED) as I1.
    destruct (c_store c1 q) as [e2|] eqn:S2.
    2:{ exfalso. apply SAME. congruence. }
    cbn [andb] in E. destruct (ce_zombie e2) eqn:Z2; cbn [negb] in E; [exfalso; apply SAME; congruence|].
    assert (X : (None : option nat) <> Some q) by discriminate.
    destruct (invalidate_ok _ _ _ _ _ I1 S2 Z2 X) as (c2 & E2 & D2 & _). rewrite E2 in E.
    assert (c2 = c') by congruence. subst c2. exfalso. apply NL.
    apply (live_not_dropped _ _ _ _ _ D2).
    + unfold live. rewrite M1. exact L.
    + intros [J|[]]. auto.
  - auto.
  - exfalso. apply SAME. congruence.
Qed.

(** * Finding and putting *)

Lemma find_live : forall io c n ch id p e, cok c n -> live c id p -> c_store c p = Some e ->
  ch_lock ch = true -> (forall now, ch_clock ch = Some now -> now < ce_expiry e \/ ce_expiry e = NO_EXPIRY) ->
  exists c', cstep io ch (KFind id) c = Some (c', RFound (Some (p, is_enc (ce_mat e))))
    /\ c_store c' p = Some (with_refs (S (ce_refs e)) e) /\ live c' id p.
Proof.
  intros io c n ch id p e (I & CAP & EXP) L S LK FR. cbn [cstep]. rewrite LK. cbn [negb].
  destruct (process_ttls_ok (ch_clock ch) c n None I) as (D & c1 & E1 & D1 & I1 & TTL). rewrite E1.
  assert (JD : ~ In p D).
  { intros J. destruct (ch_clock ch) as [now|]; cbn [ttl_done] in TTL; [|subst; contradiction].
    destruct TTL as (_ & _ & OLD & _). destruct (OLD p J) as (HP & X). unfold expiry_of in X. rewrite S in X.
    apply (i_heap _ _ _ I) in HP. destruct HP as (e' & S' & _ & NE). assert (e' = e) by congruence. subst.
    destruct (FR now eq_refl); [lia|contradiction]. }
  pose proof (live_not_dropped _ _ _ _ _ D1 L JD) as L1.
  assert (F : map_find id (c_map c1) = Some p).
  { destruct (map_find id (c_map c1)) as [q|] eqn:F; [|now destruct (map_find_none _ _ F p)].
    apply map_find_in in F. f_equal. pose proof (i_ids _ _ _ I1) as ND. unfold live in L1.
    clear - ND F L1. induction (c_map c1) as [|(i, x) m IH]; [contradiction|]. cbn [map fst] in ND.
    inversion ND as [|? ? A B]; subst. destruct F as [F|F], L1 as [L1|L1]; auto; try congruence;
      exfalso; apply A; apply in_map_iff; [exists (id, p)|exists (id, q)]; cbn; split; auto; congruence. }
  rewrite F, (d_same _ _ _ D1) by auto. rewrite S. eexists. split; [reflexivity|].
  cbn [put_at set_store c_store set_lru]. split; [apply upd_same|exact L1].
Qed.

Lemma put_entry_live : forall h m ub um id c n now, cok c n ->
  ch_lock h = true -> ch_mem h = true -> ch_insert h = true -> ch_clock h = Some now ->
  exists c', put_entry h (Some m) ub um id c = Some (c', Some (c_next c))
    /\ live c' id (c_next c) /\ c_store c' (c_next c) = Some (with_refs 2 (fresh_entry id now m ub um)).
Proof.
  intros h m ub um id c n now (I & CAP & EXP) LK MM IN CK.
  destruct (put_entry_ok h (Some m) ub um id c n I CAP) as (c' & r & E & K & CAP' & R).
  destruct r as [p|].
  - destruct R as (-> & I' & D & R & T & [pe pl pm _ _ _ _ _]).
    destruct pe as (now' & m' & CK' & EM & S). assert (now' = now) by congruence. assert (m' = m) by congruence. subst.
    exists c'. split; [exact E|]. split; [|exact S].
    pose proof (i_live _ _ _ I' _ _ S eq_refl) as L. apply L. discriminate.
  - exfalso. unfold put_entry in E. rewrite LK, MM, CK in E. cbn [negb] in E. cbv zeta in E.
    match type of E with context [insert_entry ?a ?b ?d ?e] => destruct (insert_entry a b d e) as [[c2 [|]]|] eqn:EI end;
      [| |discriminate].
    + destruct (c_store c2 (c_next c)); discriminate.
    + unfold insert_entry in EI. rewrite IN in EI. cbn [negb] in EI.
      repeat match type of EI with context [match ?x with _ => _ end] => destruct x; try discriminate end.
Qed.

Lemma clear_empties : forall io c n ch, cok c n -> ch_lock ch = true ->
  exists c', cstep io ch KClear c = Some (c', RUnit) /\ c_map c' = [] /\ c_lru c' = [] /\ c_heap c' = [].
Proof.
  intros io c n ch (I & CAP & EXP) LK. cbn [cstep]. rewrite LK. cbn [negb].
  destruct (cstep_ok io ch KClear c n) as (c' & r & E & (I' & _) & _); [now split|discriminate|].
  cbn [cstep] in E. rewrite LK in E. cbn [negb] in E.
  destruct (clear_loop (c_map c) c) as [c2|] eqn:CL; [|discriminate]. assert (c2 = c') by congruence. subst c2.
  exists c'. split; [reflexivity|].
  assert (M : c_map c' = []).
  { clear - CL. revert CL. generalize (c_map c) as l. intros l. revert c.
    induction l as [|(i, p) l IH]; intros c CL; cbn [clear_loop] in CL.
    - assert (c' = set_map [] c) by congruence. now subst.
    - destruct (invalidate p true c) as [c1|]; [|discriminate]. eauto. }
  split; [exact M|]. assert (P : forall p, ~ In p (ptrs c')) by (intros p; unfold ptrs; rewrite M; intros []).
  split.
  - destruct (c_lru c') as [|p l] eqn:LR; auto. exfalso. apply (P p). apply (i_lru _ _ _ I'). rewrite LR. now left.
  - destruct (c_heap c') as [|p l] eqn:HP; auto. exfalso.
    assert (J : In p (c_heap c')) by (rewrite HP; now left). apply (i_heap _ _ _ I') in J.
    destruct J as (e & S & Z & _). apply (P p). apply in_ptrs. exists (ce_id e). apply (i_live _ _ _ I'); auto. discriminate.
Qed.

(** * Calls made alone *)

Section Exec.
  Variables (io : sigio) (sha : list N -> list N) (P : choice -> Prop) (cap : N) (jobs : nat -> job).

  Lemma exec_fun : forall h c c', exec io sha P cap jobs h c -> exec io sha P cap jobs h c' -> c = c'.
  Proof.
    induction h as [|e h IH] using rev_ind; intros c c' E E'.
    - inversion E as [Q|? ? ? ? ? ? ? ? ? ? ? ? Q]; [|destruct h; discriminate].
      inversion E' as [Q'|? ? ? ? ? ? ? ? ? ? ? ? Q']; [auto|destruct h; discriminate].
    - destruct (exec_snoc_inv _ _ _ _ _ _ _ _ E) as (c0 & k & E0 & FO & PC & AN).
      destruct (exec_snoc_inv _ _ _ _ _ _ _ _ E') as (c0' & k' & E0' & _ & _ & AN').
      assert (c0' = c0) by eauto. subst c0'.
      destruct (ev_op e); cbn [answers] in *.
      + congruence.
      + destruct AN as (-> & _), AN' as (-> & _); auto.
      + destruct AN as (-> & _), AN' as (-> & _); auto.
      + destruct AN as (-> & _), AN' as (-> & _); auto.
      + destruct AN as (-> & _), AN' as (-> & _); auto.
  Qed.

  (** [p] makes the interactions [h] on the cache [c] and is then at [p'], the cache at [c']. *)
  Inductive solo : prog -> cache -> list event -> prog -> cache -> Prop :=
  | solo_nil : forall p c, solo p c [] p c
  | solo_cons : forall o k c e c1 h p' c', (exists n, cok c n) -> ev_op e = o -> answers io (ev_env e) o c c1 (ev_resp e) ->
      solo (k (ev_resp e)) c1 h p' c' -> solo (Do o k) c (e :: h) p' c'.

  Lemma solo_snoc : forall p c h o k c1, solo p c h (Do o k) c1 -> forall e c2, (exists n, cok c1 n) -> ev_op e = o ->
    answers io (ev_env e) o c1 c2 (ev_resp e) -> solo p c (h ++ [e]) (k (ev_resp e)) c2.
  Proof.
    intros p c h o k c1 S. remember (Do o k) as q eqn:Q. induction S as [p c|o0 k0 c e0 c1 h p' c' OK EO AN S IH];
      intros e c2 OK2 EO2 AN2.
    - subst. cbn [app]. econstructor; eauto. constructor.
    - cbn [app]. econstructor; eauto.
  Qed.

  Lemma exec_solo : forall j h1 c1, exec io sha P cap jobs h1 c1 -> trace j h1 = [] ->
    forall h2 c, exec io sha P cap jobs (h1 ++ h2) c -> alone j h2 ->
    exists p', solo (prog_of sha (jobs j)) c1 h2 p' c /\ follows (prog_of sha (jobs j)) (trace j (h1 ++ h2)) p'.
  Proof.
    intros j h1 c1 E1 T. induction h2 as [|e h2 IH] using rev_ind; intros c E A.
    - rewrite app_nil_r in *. assert (c = c1) by (eapply exec_fun; eauto). subst. rewrite T. eexists.
      split; [apply solo_nil|apply follows_nil].
    - assert (A2 : alone j h2) by (intros x J; apply A; apply in_or_app; auto).
      assert (EJ : ev_call e = j) by (apply A; apply in_or_app; right; now left).
      rewrite app_assoc in E. destruct (exec_snoc_inv _ _ _ _ _ _ _ _ E) as (c0 & k & E0 & FO & PC & AN).
      rewrite EJ in FO. destruct (IH c0 E0 A2) as (p' & S & FO').
      pose proof (follows_fun _ _ _ FO _ FO') as Q. subst p'.
      exists (k (ev_resp e)). split.
      + eapply solo_snoc; eauto. eexists. eapply exec_cok. exact E0.
      + rewrite app_assoc, trace_snoc, EJ, Nat.eqb_refl. now constructor.
  Qed.
End Exec.

Lemma trace_alone : forall j h1 h2 x, trace j h1 = [] -> In x (trace j (h1 ++ h2)) ->
  exists e, In e h2 /\ x = (ev_op e, ev_resp e).
Proof.
  intros j h1 h2 x T J. unfold trace in *. rewrite filter_app, map_app, T in J. cbn [app] in J.
  apply in_map_iff in J. destruct J as (e & <- & J). apply filter_In in J. destruct J as (J & _). eauto.
Qed.

(** Call steps one at a time. *)
Ltac one S :=
  let e := fresh "e" in let c1 := fresh "c1" in let h := fresh "h" in let OK := fresh "OK" in
  let EO := fresh "EO" in let AN := fresh "AN" in let S' := fresh "S" in let Q := fresh "Q" in
  inversion S as [? ? Q|? ? ? e c1 h ? ? OK EO AN S' Q]; subst; [clear S|clear S; rename S' into S].

Definition no_upstream (e : event) : Prop := match ev_op e with XUpEnc _ | XUpDec _ => False | _ => True end.

Lemma add64_small : forall a b, a + b < two64 -> add64 a b = a + b.
Proof. intros a b L. unfold add64. apply N.mod_small. exact L. Qed.

Lemma add64_wraps : forall a b, a < two64 -> b < two64 -> two64 <= a + b -> add64 a b < a.
Proof.
  intros a b A B L. unfold add64. replace (a + b) with ((a + b - two64) + 1 * two64) by lia.
  rewrite N.mod_add by discriminate. rewrite N.mod_small by lia. lia.
Qed.

(** check_ttl passes on a usable entry and leaves it in place. *)
Lemma check_ttl_passes : forall io m p k c h p' c' t0 t1 e (G : list event -> Prop),
  solo io (check_ttl m p k) c h p' c' -> Forall (smooth t0 t1) h ->
  c_store c p = Some e -> ce_created e < two64 -> cm_ttl m < two64 -> usable m (ce_created e) t1 ->
  (forall e h, no_upstream e -> G h -> G (e :: h)) ->
  ((forall r, p' <> Ret r) -> G []) ->
  (forall c1 h1 e1, solo io (k true) c1 h1 p' c' -> Forall (smooth t0 t1) h1 -> c_store c1 p = Some e1 ->
     ce_mat e1 = ce_mat e -> ce_bytes e1 = ce_bytes e -> ce_msgs e1 = ce_msgs e -> ce_zombie e1 = ce_zombie e ->
     ce_refs e1 = ce_refs e -> c_map c1 = c_map c -> ce_created e1 = ce_created e ->
     ce_expiry e1 = ce_expiry e \/ (ce_expiry e1 = ce_created e + cm_ttl m /\ ce_expiry e1 < ce_expiry e) -> G h1) ->
  G h.
Proof.
  intros io m p k c h p' c' t0 t1 e G S SM ST CR TT US CONS STOP K. unfold check_ttl in S.
  destruct (N.eqb_spec (cm_ttl m) UINT64_MAX) as [E|E]; [eapply K; eauto|].
  one S. { apply STOP. discriminate. }
  cbn [answers cstep] in AN. rewrite ST in AN. injection AN as <- RE. rewrite <- RE in S.
  inversion SM as [|? ? SM0 SM1]; subst. apply CONS. { unfold no_upstream. now rewrite EO. }
  destruct (N.ltb_spec (add64 (ce_created e) (cm_ttl m)) (ce_created e)) as [W|W]; [eapply K; eauto|].
  assert (SMALL : t1 < add64 (ce_created e) (cm_ttl m)).
  { destruct US as [US|[US|US]]; [contradiction| |].
    - pose proof (add64_wraps _ _ CR TT US). lia.
    - destruct (N.ltb_spec (ce_created e + cm_ttl m) two64).
      + now rewrite add64_small.
      + pose proof (add64_wraps _ _ CR TT H). lia. }
  one S. { apply STOP. discriminate. }
  cbn [answers] in AN. destruct AN as (-> & _). inversion SM1 as [|? ? SM2 SM3]; subst.
  apply CONS. { unfold no_upstream. now rewrite EO0. }
  destruct SM2 as (_ & _ & _ & _ & _ & _ & _ & CK). rewrite EO0 in CK. destruct CK as (t & RT & T0 & T1). rewrite RT in S.
  destruct (N.leb_spec (add64 (ce_created e) (cm_ttl m)) t) as [X|X]; [lia|].
  one S. { apply STOP. discriminate. }
  inversion SM3 as [|? ? SM4 SM5]; subst. apply CONS. { unfold no_upstream. now rewrite EO1. }
  cbn [answers cstep] in AN. rewrite ST in AN.
  destruct (ce_zombie e || (ce_expiry e <=? add64 (ce_created e) (cm_ttl m))) eqn:ZE.
  { assert (c1 = c) by congruence. subst. eapply K; eauto. }
  apply orb_false_iff in ZE. destruct ZE as (_ & LE). apply N.leb_gt in LE.
  assert (NW : add64 (ce_created e) (cm_ttl m) = ce_created e + cm_ttl m).
  { apply add64_small. destruct (N.ltb_spec (ce_created e + cm_ttl m) two64); auto.
    pose proof (add64_wraps _ _ CR TT H). lia. }
  destruct SM4 as (LK & _ & _ & PU & _). rewrite LK, PU in AN. cbn [negb] in AN. cbv zeta in AN.
  match type of AN with Some (?x, _) = _ => assert (EC : c1 = x) by congruence end. subst c1.
  eapply K; [exact S|exact SM5|cbn [set_heap put_at set_store c_store]; apply upd_same|..];
    cbn [with_expiry ce_expiry]; try reflexivity.
  { cbn [set_heap put_at set_store c_map]. destruct (ce_expiry e <? NO_EXPIRY); reflexivity. }
  right. now rewrite NW in *.
Qed.

(** Releasing an entry that is in the cache. *)
Lemma release_live : forall io q ch c c' r e, cstep io ch (KRelease q false) c = Some (c', r) -> c_store c q = Some e ->
  ce_zombie e = false -> c_map c' = c_map c /\ c_store c' q = Some (with_refs (pred (ce_refs e)) e).
Proof.
  intros io q ch c c' r e E ST ZF. cbn [cstep] in E. rewrite ST in E. cbn [andb] in E. unfold drop_ref in E.
  rewrite ST, ZF in E. destruct (ce_refs e) as [|[|n]]; try discriminate.
  match type of E with Some (?x, _) = _ => assert (EC : c' = x) by (clear - E; congruence) end. subst c'.
  cbn [put_at set_store c_store c_map pred]. split; [reflexivity|apply upd_same].
Qed.

Lemma release_drops : forall io q ch c c' r e id, cstep io ch (KRelease q true) c = Some (c', r) ->
  c_store c q = Some e -> ce_zombie e = false -> ch_lock ch = true -> live c id q -> (exists n, cok c n) ->
  ~ live c' id q.
Proof.
  intros io q ch c c' r e id E ST ZF LK LV (n & OK) LV'.
  cbn [cstep] in E. rewrite ST, ZF, LK in E. cbn [andb negb] in E. unfold locked_release in E.
  assert (ID : ce_id e = id).
  { destruct OK as (OK & _). destruct (i_map _ _ _ OK _ _ LV) as (e' & ST' & IE & _). congruence. }
  unfold drop_ref in E. rewrite ST, ZF in E. destruct (ce_refs e) as [|[|k]]; try discriminate.
  cbn [put_at set_store c_store] in E. rewrite upd_same in E. cbn [with_refs ce_zombie andb negb] in E. rewrite ZF in E.
  cbn [andb negb] in E. unfold invalidate in E. cbn [put_at set_store c_store] in E. rewrite upd_same in E.
  cbn [with_refs ce_zombie ce_expiry ce_id] in E. rewrite ZF in E. cbv zeta in E.
  rewrite ID in E.
  assert (M : c_map c' = map_remove id (c_map c)).
  { clear - E. unfold drop_ref in E. destruct (ce_expiry e =? NO_EXPIRY); cbn in E; rewrite upd_same in E;
      cbn in E; destruct k; injection E as <- _; reflexivity. }
  unfold live in LV'. rewrite M in LV'. unfold map_remove in LV'. apply filter_In in LV'. destruct LV' as (_ & NE).
  cbn [fst] in NE. rewrite bytes_eqb_refl in NE. discriminate.
Qed.

Lemma cacheable : forall alg, can_cache alg = None \/ can_cache alg = Some true.
Proof.
  intros alg. unfold can_cache. destruct (alg_lookup alg) as [p|] eqn:E; auto. right. unfold alg_lookup in E.
  repeat match type of E with (if ?b then _ else _) = _ => destruct b; [injection E as <-; reflexivity|] end. discriminate.
Qed.

Lemma get_enc_good : forall io ch e ctx m0 ctx0 key, ce_mat e = CachedEnc m0 ctx0 key ->
  ch_mem ch = true -> ch_ctx ch = None ->
  (forall k, key = Some k -> exists sc, si_sign io (em_alg m0) k = Ok sc) ->
  exists mat, get_enc io ch e ctx = (enc_ctx_clone ctx ctx0, Ok mat) /\
    match key with
    | None => mat = m0
    | Some k => exists sc, si_sign io (em_alg m0) k = Ok sc
                /\ mat = mk_enc_mat (em_key m0) (em_trace m0) (em_edks m0) sc (em_alg m0)
    end.
Proof.
  intros io ch e ctx m0 ctx0 key MT MM CX SG. unfold get_enc. rewrite MT, MM, CX. cbn [negb]. cbv zeta.
  destruct key as [k|]; [|eauto]. destruct (SG k eq_refl) as (sc & E). rewrite E. eauto 6.
Qed.

Lemma gen_used : forall io sha m rq id p e m0 ctx0 key c h p' c' t0 t1,
  solo io (gen_prog sha m rq) c h p' c' -> Forall (smooth t0 t1) h ->
  known_suite (rq_alg rq) -> enc_cache_id sha m rq = Ok id ->
  live c id p -> c_store c p = Some e -> ce_mat e = CachedEnc m0 ctx0 key ->
  t1 < ce_expiry e \/ ce_expiry e = NO_EXPIRY -> usable m (ce_created e) t1 ->
  ce_created e < two64 -> cm_ttl m < two64 -> cm_limit_bytes m < two64 -> cm_limit_msgs m < two64 ->
  ce_bytes e + rq_psize rq <= cm_limit_bytes m -> ce_msgs e + 1 <= cm_limit_msgs m ->
  (forall k, key = Some k -> exists sc, si_sign io (em_alg m0) k = Ok sc) ->
  Forall no_upstream h /\
  forall r, p' = Ret r -> exists mat, r = JEnc (enc_ctx_clone (rq_ctx rq) ctx0) (COk mat)
    /\ (exists e, In e h /\ ev_op e = XCache (KGetEnc p (rq_ctx rq))
                  /\ ev_resp e = REnc (enc_ctx_clone (rq_ctx rq) ctx0) (Ok mat))
    /\ (ce_msgs e + 1 < cm_limit_msgs m -> kept m c' id p e (rq_psize rq) 1)
    /\ (ce_msgs e + 1 = cm_limit_msgs m -> ~ live c' id p)
    /\ match key with
       | None => mat = m0
       | Some k => exists sc, si_sign io (em_alg m0) k = Ok sc
                   /\ mat = mk_enc_mat (em_key m0) (em_trace m0) (em_edks m0) sc (em_alg m0)
       end.
Proof.
  intros io sha m rq id p e m0 ctx0 key c h p' c' t0 t1 S SM KS ID L ST MT EXP US CR TT LB LM BY MS SG.
  set (G := fun h : list event => Forall no_upstream h /\
    forall r, p' = Ret r -> exists mat, r = JEnc (enc_ctx_clone (rq_ctx rq) ctx0) (COk mat)
    /\ (exists e, In e h /\ ev_op e = XCache (KGetEnc p (rq_ctx rq))
                  /\ ev_resp e = REnc (enc_ctx_clone (rq_ctx rq) ctx0) (Ok mat))
    /\ (ce_msgs e + 1 < cm_limit_msgs m -> kept m c' id p e (rq_psize rq) 1)
    /\ (ce_msgs e + 1 = cm_limit_msgs m -> ~ live c' id p)
    /\ match key with
       | None => mat = m0
       | Some k => exists sc, si_sign io (em_alg m0) k = Ok sc
                   /\ mat = mk_enc_mat (em_key m0) (em_trace m0) (em_edks m0) sc (em_alg m0)
       end).
  change (G h).
  assert (CONS : forall x l, no_upstream x -> G l -> G (x :: l)).
  { intros x l NU (F & R). split; [now constructor|]. intros r Q. destruct (R r Q) as (mat & A & (y & B1 & B2) & C).
    exists mat. split; [auto|]. split; [|exact C]. exists y. split; [now right|auto]. }
  assert (STOP : (forall r, p' <> Ret r) -> G []).
  { intros NR. split; [constructor|]. intros r Q. now destruct (NR r). }
  unfold gen_prog in S. cbv zeta in S.
  destruct (N.ltb_spec (cm_limit_bytes m) (rq_psize rq)) as [X|_]; [lia|].
  match type of S with context [Do XMem ?k] => set (go := Do XMem k) in S end.
  assert (S2 : solo io go c h p' c').
  { destruct (N.eqb_spec (rq_alg rq) 0) as [Z|Z]; [exact S|]. destruct KS as [KS|KS]; [contradiction|].
    destruct (can_cache (rq_alg rq)) as [[|]|] eqn:CC; [exact S| |contradiction].
    destruct (cacheable (rq_alg rq)); congruence. }
  clear S. unfold go in S2. clear go. rename S2 into S.
  one S. { apply STOP. discriminate. }
  inversion SM as [|? ? SM0 SM1]; subst. apply CONS. { unfold no_upstream. now rewrite EO. }
  cbn [answers] in AN. destruct AN as (-> & _).
  destruct SM0 as (_ & _ & _ & _ & _ & _ & _ & RM). rewrite EO in RM. rewrite RM, ID in S. clear SM RM EO OK.
  one S. { apply STOP. discriminate. }
  inversion SM1 as [|? ? SM2 SM3]; subst. apply CONS. { unfold no_upstream. now rewrite EO. }
  cbn [answers] in AN. destruct OK as (n & OK).
  assert (FR : forall now, ch_clock (ev_env e1) = Some now -> now < ce_expiry e \/ ce_expiry e = NO_EXPIRY).
  { intros now CK. destruct SM2 as (_ & _ & _ & _ & _ & (t & CK' & _ & T1) & _). assert (t = now) by congruence. subst.
    destruct EXP; [left; lia|now right]. }
  destruct OK as (OK1 & OK2). destruct (i_map _ _ _ OK1 _ _ L) as (e' & ST' & _ & ZF).
  assert (e' = e) by congruence. subst e'.
  destruct (find_live io c n (ev_env e1) id p e (conj OK1 OK2) L ST (proj1 SM2) FR) as (c2 & FE & ST2 & L2).
  rewrite FE in AN. injection AN as <- RE. rewrite <- RE in S. rewrite MT in S. cbn [is_enc] in S.
  clear SM1 SM2 FR FE RE EO OK1 OK2 ST'.
  unfold gen_hit in S.
  eapply (check_ttl_passes io m p _ c2 _ p' c' t0 t1 _ G S SM3 ST2); auto.
  intros c3 h3 e3 S3 SM4 ST3 M3 B3 N3 Z3 R3 MP3 CR3 EX3.
  cbn [with_refs ce_mat ce_bytes ce_msgs ce_zombie ce_refs ce_created ce_expiry] in *. cbn [negb] in S3.
  clear S SM3. rename S3 into S. unfold update_usage in S.
  one S. { apply STOP. discriminate. }
  inversion SM4 as [|? ? _ SM5]; subst. apply CONS. { unfold no_upstream. now rewrite EO. }
  cbn [answers cstep] in AN. rewrite ST3, M3, MT, Z3, ZF in AN. cbn [is_enc negb andb] in AN.
  injection AN as <- RE. rewrite <- RE in S. clear EO OK RE SM4.
  one S. { apply STOP. discriminate. }
  inversion SM5 as [|? ? _ SM6]; subst. apply CONS. { unfold no_upstream. now rewrite EO. }
  cbn [answers cstep] in AN. rewrite ST3 in AN. cbv zeta in AN. injection AN as <- RE. rewrite <- RE in S. clear EO OK RE SM5.
  rewrite B3 in S. rewrite (add64_small (ce_bytes e)) in S by lia.
  one S. { apply STOP. discriminate. }
  inversion SM6 as [|? ? _ SM7]; subst. apply CONS. { unfold no_upstream. now rewrite EO. }
  cbn [answers cstep] in AN. cbn [put_at set_store c_store] in AN. rewrite upd_same in AN. cbv zeta in AN.
  injection AN as <- RE. rewrite <- RE in S. clear EO OK RE SM6.
  cbn [with_usage ce_msgs] in S. rewrite N3 in S. rewrite (add64_small (ce_msgs e)) in S by lia.
  destruct (N.ltb_spec (cm_limit_bytes m) (ce_bytes e + rq_psize rq)) as [X|_]; [lia|].
  destruct (N.ltb_spec (cm_limit_msgs m) (ce_msgs e + 1)) as [X|_]; [lia|]. cbn [orb] in S.
  one S. { apply STOP. discriminate. }
  inversion SM7 as [|? ? SM8 SM9]; subst.
  cbn [answers cstep] in AN. cbn [put_at set_store c_store] in AN. rewrite upd_same in AN.
  match type of AN with context [get_enc io ?ch ?en ?cx] =>
    destruct (get_enc_good io ch en cx m0 ctx0 key) as (mat & GE & MK) end.
  { cbn [with_usage ce_mat]. congruence. }
  { apply SM8. }
  { apply SM8. }
  { exact SG. }
  rewrite GE in AN.
  match type of AN with Some (?x, ?y) = Some (_, ?z) =>
    assert (RE : z = y) by (clear - AN; congruence); assert (EC : c1 = x) by (clear - AN; congruence) end.
  rewrite RE in S. clear GE AN.
  assert (NU : no_upstream e6) by (unfold no_upstream; now rewrite EO).
  one S. { apply CONS; [exact NU|]. apply STOP. discriminate. }
  assert (NU2 : no_upstream e7) by (unfold no_upstream; now rewrite EO0).
  inversion S; subst.
  split; [constructor; [exact NU|constructor; [exact NU2|constructor]]|].
  intros r Q. exists mat. split; [congruence|].
  split; [exists e6; split; [now left|]; split; [exact EO|exact RE]|].
  inversion SM9 as [|? ? SM10 _]; subst.
  cbn [answers] in AN.
  match type of AN with cstep _ _ _ ?x = _ => set (cx := x) in * end.
  match type of cx with _ => set (ex := with_usage (ce_bytes e + rq_psize rq) (ce_msgs e + 1)
                 (with_usage (ce_bytes e + rq_psize rq) (ce_msgs e) e3)) in * end.
  assert (LX : live cx id p) by (unfold live; subst cx; cbn [put_at set_store c_map]; rewrite MP3; exact L2).
  assert (STX : c_store cx p = Some ex) by (subst cx; cbn [put_at set_store c_store]; apply upd_same).
  assert (ZX : ce_zombie ex = false) by (subst ex; cbn [with_usage ce_zombie]; congruence).
  split; [|split; [|exact MK]].
  - intros LT. destruct (N.eqb_spec (ce_msgs e + 1) (cm_limit_msgs m)) as [X|_]; [lia|].
    destruct (release_live _ _ _ _ _ _ _ AN STX ZX) as (MC & SC).
    split; [unfold live; rewrite MC; exact LX|]. eexists. split; [exact SC|].
    subst ex. cbn [with_refs with_usage ce_mat ce_created ce_refs ce_bytes ce_msgs ce_expiry].
    rewrite R3. cbn [pred]. auto 10.
  - intros EQ. rewrite <- EQ, N.eqb_refl in AN. eapply release_drops; eauto. apply SM10.
Qed.

Lemma get_dec_good : forall io ch e m0 key, ce_mat e = CachedDec m0 key -> ch_mem ch = true ->
  (forall k, key = Some k -> exists sc, si_verify io (dm_alg m0) k = Ok sc) ->
  exists mat, get_dec io ch e = Ok mat /\
    match key with
    | None => mat = m0
    | Some k => exists sc, si_verify io (dm_alg m0) k = Ok sc
                /\ mat = mk_dec_mat (dm_key m0) (dm_trace m0) sc (dm_alg m0)
    end.
Proof.
  intros io ch e m0 key MT MM SG. unfold get_dec. rewrite MT, MM. cbn [negb].
  destruct key as [k|]; [|eauto]. destruct (SG k eq_refl) as (sc & E). rewrite E. eauto 6.
Qed.

Lemma dec_used : forall io sha m rq id p e m0 key c h p' c' t0 t1,
  solo io (dec_prog sha m rq) c h p' c' -> Forall (smooth t0 t1) h ->
  can_cache (dq_alg rq) <> None -> dec_cache_id sha m rq = Ok id ->
  live c id p -> c_store c p = Some e -> ce_mat e = CachedDec m0 key ->
  t1 < ce_expiry e \/ ce_expiry e = NO_EXPIRY -> usable m (ce_created e) t1 ->
  ce_created e < two64 -> cm_ttl m < two64 ->
  (forall k, key = Some k -> exists sc, si_verify io (dm_alg m0) k = Ok sc) ->
  Forall no_upstream h /\
  forall r, p' = Ret r -> exists mat, r = JDec (COk mat)
    /\ (exists e, In e h /\ ev_op e = XCache (KGetDec p) /\ ev_resp e = RDec (Ok mat))
    /\ kept m c' id p e 0 0
    /\ match key with
       | None => mat = m0
       | Some k => exists sc, si_verify io (dm_alg m0) k = Ok sc
                   /\ mat = mk_dec_mat (dm_key m0) (dm_trace m0) sc (dm_alg m0)
       end.
Proof.
  intros io sha m rq id p e m0 key c h p' c' t0 t1 S SM KS ID L ST MT EXP US CR TT SG.
  set (G := fun h : list event => Forall no_upstream h /\
    forall r, p' = Ret r -> exists mat, r = JDec (COk mat)
    /\ (exists e, In e h /\ ev_op e = XCache (KGetDec p) /\ ev_resp e = RDec (Ok mat))
    /\ kept m c' id p e 0 0
    /\ match key with
       | None => mat = m0
       | Some k => exists sc, si_verify io (dm_alg m0) k = Ok sc
                   /\ mat = mk_dec_mat (dm_key m0) (dm_trace m0) sc (dm_alg m0)
       end).
  change (G h).
  assert (CONS : forall x l, no_upstream x -> G l -> G (x :: l)).
  { intros x l NU (F & R). split; [now constructor|]. intros r Q. destruct (R r Q) as (mat & A & (y & B1 & B2) & C).
    exists mat. split; [auto|]. split; [|exact C]. exists y. split; [now right|auto]. }
  assert (STOP : (forall r, p' <> Ret r) -> G []).
  { intros NR. split; [constructor|]. intros r Q. now destruct (NR r). }
  unfold dec_prog in S. destruct (cacheable (dq_alg rq)) as [Q|Q]; [contradiction|]. rewrite Q in S.
  one S. { apply STOP. discriminate. }
  inversion SM as [|? ? SM0 SM1]; subst. apply CONS. { unfold no_upstream. now rewrite EO. }
  cbn [answers] in AN. destruct AN as (-> & _).
  destruct SM0 as (_ & _ & _ & _ & _ & _ & _ & RM). rewrite EO in RM. rewrite RM, ID in S. clear SM RM EO OK.
  one S. { apply STOP. discriminate. }
  inversion SM1 as [|? ? SM2 SM3]; subst. apply CONS. { unfold no_upstream. now rewrite EO. }
  cbn [answers] in AN. destruct OK as (n & OK).
  assert (FR : forall now, ch_clock (ev_env e1) = Some now -> now < ce_expiry e \/ ce_expiry e = NO_EXPIRY).
  { intros now CK. destruct SM2 as (_ & _ & _ & _ & _ & (t & CK' & _ & T1) & _). assert (t = now) by congruence. subst.
    destruct EXP; [left; lia|now right]. }
  assert (ZF : ce_zombie e = false).
  { destruct OK as (OK1 & _). destruct (i_map _ _ _ OK1 _ _ L) as (e' & ST' & _ & ZF'). congruence. }
  destruct (find_live io c n (ev_env e1) id p e OK L ST (proj1 SM2) FR) as (c2 & FE & ST2 & L2).
  rewrite FE in AN. injection AN as <- RE. rewrite <- RE in S. rewrite MT in S. cbn [is_enc] in S.
  clear SM1 SM2 FR FE RE EO OK.
  eapply (check_ttl_passes io m p _ c2 _ p' c' t0 t1 _ G S SM3 ST2); auto.
  intros c3 h3 e3 S3 SM4 ST3 M3 B3 N3 Z3 R3 MP3 CR3 EX3.
  cbn [with_refs ce_mat ce_bytes ce_msgs ce_zombie ce_refs ce_created ce_expiry] in *. cbn [negb] in S3.
  clear S SM3. rename S3 into S.
  one S. { apply STOP. discriminate. }
  inversion SM4 as [|? ? SM5 SM6]; subst.
  cbn [answers cstep] in AN. rewrite ST3 in AN.
  destruct (get_dec_good io (ev_env e2) e3 m0 key) as (mat & GE & MK).
  { congruence. }
  { apply SM5. }
  { exact SG. }
  rewrite GE in AN. injection AN as <- RE. rewrite <- RE in S.
  assert (NU : no_upstream e2) by (unfold no_upstream; now rewrite EO).
  one S. { apply CONS; [exact NU|]. apply STOP. discriminate. }
  assert (NU2 : no_upstream e4) by (unfold no_upstream; now rewrite EO0).
  inversion S; subst.
  split; [constructor; [exact NU|constructor; [exact NU2|constructor]]|].
  intros r QQ. exists mat. split; [congruence|].
  split; [exists e2; split; [now left|]; split; [exact EO|now symmetry]|]. split; [|exact MK].
  cbn [answers] in AN.
  destruct (release_live _ _ _ _ _ _ _ AN ST3) as (MC & SC); [congruence|].
  split; [unfold live in *; rewrite MC, MP3; exact L2|]. eexists. split; [exact SC|].
  cbn [with_refs ce_mat ce_created ce_refs ce_bytes ce_msgs ce_expiry]. rewrite R3, !N.add_0_r. cbn [pred]. auto 10.
Qed.

(** The same when the call has returned. *)
Ltac one1 S :=
  let e := fresh "e" in let c1 := fresh "c1" in let h := fresh "h" in let OK := fresh "OK" in
  let EO := fresh "EO" in let AN := fresh "AN" in let S' := fresh "S" in let Q := fresh "Q" in
  inversion S as [|? ? ? e c1 h ? ? OK EO AN S' Q]; subst; clear S; rename S' into S.

(** * Storing *)

(** The entry holding [mat] under [id], as the caching CMM [m] leaves it. *)
Definition stored (m : caching) (id : list N) (mat : cached) (bytes msgs t0 t1 : N) (c : cache) : Prop :=
  exists q e, live c id q /\ c_store c q = Some e /\ ce_mat e = mat /\ ce_bytes e = bytes /\ ce_msgs e = msgs
    /\ t0 <= ce_created e <= t1 /\ (ce_expiry e = NO_EXPIRY \/ ce_expiry e = ce_created e + cm_ttl m).

Lemma set_ttl_stores : forall io m q k c h r c' t0 t1 e,
  solo io (set_ttl_on_miss m q k) c h (Ret r) c' -> Forall (smooth t0 t1) h -> c_store c q = Some e ->
  ce_zombie e = false -> ce_expiry e = NO_EXPIRY -> ce_created e < two64 -> cm_ttl m < two64 ->
  exists c1 h1 e1, solo io k c1 h1 (Ret r) c' /\ Forall (smooth t0 t1) h1 /\ c_store c1 q = Some e1
    /\ c_map c1 = c_map c /\ ce_mat e1 = ce_mat e /\ ce_bytes e1 = ce_bytes e /\ ce_msgs e1 = ce_msgs e
    /\ ce_created e1 = ce_created e /\ ce_refs e1 = ce_refs e
    /\ (ce_expiry e1 = NO_EXPIRY \/ ce_expiry e1 = ce_created e + cm_ttl m).
Proof.
  intros io m q k c h r c' t0 t1 e S SM ST ZF EX CR TT. unfold set_ttl_on_miss in S.
  destruct (cm_ttl m =? UINT64_MAX); [eauto 20|].
  one1 S. inversion SM as [|? ? _ SM1]; subst.
  cbn [answers cstep] in AN. rewrite ST in AN. injection AN as <- RE. rewrite <- RE in S. cbv zeta in S.
  destruct (N.ltb_spec (ce_created e) (add64 (ce_created e) (cm_ttl m))) as [LT|LT]; [|eauto 20].
  assert (SMALL : add64 (ce_created e) (cm_ttl m) = ce_created e + cm_ttl m).
  { apply add64_small. destruct (N.ltb_spec (ce_created e + cm_ttl m) two64); auto.
    pose proof (add64_wraps _ _ CR TT H). lia. }
  one1 S. inversion SM1 as [|? ? (LK & _ & _ & PU & _) SM3]; subst.
  cbn [answers cstep] in AN. rewrite ST, ZF, LK, PU in AN. cbn [orb negb] in AN. cbv zeta in AN.
  destruct (ce_expiry e <=? add64 (ce_created e) (cm_ttl m)).
  { injection AN as <- _. eauto 20. }
  match type of AN with Some (?x, _) = _ => assert (EC : c1 = x) by (clear - AN; congruence) end. subst c1.
  eexists _, _, _. split; [exact S|]. split; [exact SM3|].
  split. { cbn [set_heap put_at set_store c_store]. apply upd_same. }
  split. { cbn [set_heap put_at set_store c_map]. destruct (ce_expiry e <? NO_EXPIRY); reflexivity. }
  cbn [with_expiry ce_mat ce_bytes ce_msgs ce_created ce_refs ce_expiry]. auto 10.
Qed.

Lemma release_keeps : forall io q ch c c' r e, cstep io ch (KRelease q false) c = Some (c', r) -> c_store c q = Some e ->
  ce_refs e = 2%nat -> c_map c' = c_map c /\ c_store c' q = Some (with_refs 1 e).
Proof.
  intros io q ch c c' r e E ST RF. cbn [cstep] in E. rewrite ST in E. cbn [andb] in E. unfold drop_ref in E.
  rewrite ST, RF in E. match type of E with Some (?x, _) = _ => assert (EC : c' = x) by (clear - E; congruence) end. subst c'.
  cbn [put_at set_store c_store c_map]. split; [reflexivity|apply upd_same].
Qed.

Lemma put_then_stored : forall io m o id cm ub um c h r rest c' t0 t1, t1 < two64 -> cm_ttl m < two64 ->
  solo io (Do (XCache o) (fun x => match x with
             | RPut None => Ret rest
             | RPut (Some q) => set_ttl_on_miss m q (Do (XCache (KRelease q false)) (fun _ => Ret rest))
             | _ => Ret JStuck
             end)) c h (Ret r) c' -> Forall (smooth t0 t1) h ->
  (forall ch, cstep io ch o c = match put_entry ch (Some cm) ub um id c with
                                | None => None
                                | Some (c', r) => Some (c', RPut r)
                                end) ->
  stored m id cm ub um t0 t1 c'.
Proof.
  intros io m o id cm ub um c h r rest c' t0 t1 T1 TT S SM PE.
  one1 S. inversion SM as [|? ? SM0 SM1]; subst. cbn [answers] in AN. rewrite PE in AN. destruct OK as (n & OK).
  destruct SM0 as (LK & MM & IN & _ & _ & (t & CK & TB) & _).
  destruct (put_entry_live (ev_env e) cm ub um id c n t OK LK MM IN CK) as (c2 & EP & LV & ST).
  rewrite EP in AN. injection AN as <- RE. rewrite <- RE in S.
  destruct (set_ttl_stores _ _ _ _ _ _ _ _ t0 t1 _ S SM1 ST) as
    (c3 & h3 & e3 & S3 & SM3 & ST3 & M3 & A1 & A2 & A3 & A4 & A5 & A6); auto.
  { cbn [with_refs fresh_entry ce_created]. lia. }
  cbn [with_refs fresh_entry ce_created ce_mat ce_bytes ce_msgs ce_refs] in *.
  one1 S3. cbn [answers] in AN. destruct (release_keeps _ _ _ _ _ _ _ AN ST3 A5) as (M4 & ST4).
  inversion S3; subst. exists (c_next c), (with_refs 1 e3). unfold live. rewrite M4, M3. split; [exact LV|].
  split; [exact ST4|]. cbn [with_refs ce_mat ce_bytes ce_msgs ce_created ce_expiry]. auto 10.
Qed.

Lemma miss_stores : forall io m rq id found c h ctx mat c' t0 t1 cm, t1 < two64 -> cm_ttl m < two64 ->
  solo io (gen_miss m rq id found) c h (Ret (JEnc ctx (COk mat))) c' -> Forall (smooth t0 t1) h ->
  cache_enc io mat ctx = Some cm -> stored m id cm (rq_psize rq) 1 t0 t1 c'.
Proof.
  intros io m rq id found c h ctx mat c' t0 t1 cm T1 TT S SM CE. unfold gen_miss in S.
  match type of S with context [Do (XUpEnc rq) ?k] => set (up := Do (XUpEnc rq) k) in S end.
  assert (S2 : exists c1 h1, solo io up c1 h1 (Ret (JEnc ctx (COk mat))) c' /\ Forall (smooth t0 t1) h1).
  { destruct found as [p|]; cbn [release_opt] in S; [|eauto]. one1 S. inversion SM; subst. eauto. }
  clear S SM. destruct S2 as (c1 & h1 & S & SM). unfold up in S. clear up.
  one1 S. inversion SM as [|? ? _ SM1]; subst. cbn [answers] in AN. destruct AN as (-> & ctx1 & x & RE). rewrite RE in S.
  destruct x as [mat1|er]; [|inversion S].
  destruct (cacheable (em_alg mat1)) as [Q|Q]; rewrite Q in S; [inversion S|].
  assert (EQ : ctx1 = ctx /\ mat1 = mat).
  { clear - S. one1 S. destruct (ev_resp e) as [ | [q|]| | | | | | | | ]; try (now inversion S).
    unfold set_ttl_on_miss in S. destruct (cm_ttl m =? UINT64_MAX).
    - one1 S. inversion S; auto.
    - one1 S. destruct (ev_resp e0); try (now inversion S). cbv zeta in S.
      destruct (n <? add64 n (cm_ttl m)); [one1 S|]; one1 S; inversion S; auto. }
  destruct EQ as (-> & ->).
  eapply put_then_stored; [exact T1|exact TT|exact S|exact SM1|].
  intros ch. cbn [cstep]. rewrite CE. reflexivity.
Qed.

Ltac quiet := unfold no_upstream; match goal with E : ev_op ?e = _ |- match ev_op ?e with _ => _ end => rewrite E; exact Logic.I end.

Lemma check_ttl_goes_on : forall io m p k c h r c' t0 t1, solo io (check_ttl m p k) c h (Ret r) c' -> r <> JStuck ->
  Forall (smooth t0 t1) h ->
  exists b c1 h0 h1, h = h0 ++ h1 /\ Forall no_upstream h0 /\ Forall (smooth t0 t1) h1 /\ solo io (k b) c1 h1 (Ret r) c'.
Proof.
  intros io m p k c h r c' t0 t1 S NS SM. unfold check_ttl in S. cbv zeta in S.
  destruct (cm_ttl m =? UINT64_MAX). { exists true, c, [], h. auto. }
  one1 S. inversion SM as [|? ? _ SM1]; subst.
  assert (NU : no_upstream e) by quiet.
  destruct (ev_resp e); try (inversion S; congruence).
  destruct (add64 n (cm_ttl m) <? n). { exists true, c1, [e], h0. auto. }
  one1 S. inversion SM1 as [|? ? _ SM3]; subst. assert (NU2 : no_upstream e0) by quiet.
  destruct (ev_resp e0) as [ | | | | | | | |[t|]| ]; try (inversion S; congruence).
  2:{ exists false, c0, [e; e0], h. auto. }
  destruct (add64 n (cm_ttl m) <=? t). { exists false, c0, [e; e0], h. auto. }
  one1 S. inversion SM3 as [|? ? _ SM5]; subst. assert (NU3 : no_upstream e1) by quiet.
  exists true, c2, [e; e0; e1], h0. auto 6.
Qed.

Lemma gen_stores : forall io sha m rq id c h ctx mat c' t0 t1 cm, t1 < two64 -> cm_ttl m < two64 ->
  solo io (gen_prog sha m rq) c h (Ret (JEnc ctx (COk mat))) c' -> Forall (smooth t0 t1) h ->
  rq_psize rq <= cm_limit_bytes m -> enc_cache_id sha m rq = Ok id -> cache_enc io mat ctx = Some cm ->
  Forall no_upstream h \/ stored m id cm (rq_psize rq) 1 t0 t1 c'.
Proof.
  intros io sha m rq id c h ctx mat c' t0 t1 cm T1 TT S SM PS ID CE.
  assert (MISS : forall rq' found c h, rq_psize rq' = rq_psize rq ->
    solo io (gen_miss m rq' id found) c h (Ret (JEnc ctx (COk mat))) c' ->
    Forall (smooth t0 t1) h -> stored m id cm (rq_psize rq) 1 t0 t1 c').
  { intros rq' found d g EQ S' SM'. rewrite <- EQ. eapply miss_stores; eauto. }
  unfold gen_prog in S. cbv zeta in S.
  destruct (N.ltb_spec (cm_limit_bytes m) (rq_psize rq)) as [X|_]; [lia|].
  match type of S with context [Do XMem ?k] => set (go := Do XMem k) in S end.
  assert (S2 : solo io go c h (Ret (JEnc ctx (COk mat))) c').
  { destruct (rq_alg rq =? 0); [exact S|]. destruct (cacheable (rq_alg rq)) as [Q|Q]; rewrite Q in S; [inversion S|exact S]. }
  clear S. unfold go in S2. clear go. rename S2 into S.
  one1 S. assert (NU : no_upstream e) by quiet. inversion SM as [|? ? SM0 SM1]; subst. clear SM.
  destruct SM0 as (_ & _ & _ & _ & _ & _ & _ & RM). rewrite EO in RM. rewrite RM, ID in S. clear AN OK EO RM.
  one1 S. assert (NU2 : no_upstream e0) by quiet. inversion SM1 as [|? ? SM2 SM3]; subst. clear SM1.
  destruct (ev_resp e0) as [ [[p [|]]|] | | | | | | | | | ]; try (now inversion S).
  2:{ right. exact (MISS rq (Some p) _ _ eq_refl S ltac:(eassumption)). }
  2:{ right. exact (MISS rq None _ _ eq_refl S ltac:(eassumption)). }
  unfold gen_hit in S. clear AN OK EO.
  destruct (check_ttl_goes_on _ _ _ _ _ _ _ _ _ _ S ltac:(discriminate) SM3) as (b & c2 & h2 & h3 & -> & F2 & SM4 & S2).
  clear S SM3 SM2. rename S2 into S. destruct b; cbn [negb] in S.
  2:{ right. exact (MISS rq (Some p) _ _ eq_refl S ltac:(eassumption)). }
  unfold update_usage in S.
  one1 S. assert (NU3 : no_upstream e1) by quiet. inversion SM4 as [|? ? _ SM5]; subst. clear SM4 EO AN OK.
  destruct (ev_resp e1) as [ | |[|]| | | | | | | ]; try (now inversion S).
  2:{ right. exact (MISS rq (Some p) _ _ eq_refl S ltac:(eassumption)). }
  one1 S. assert (NU4 : no_upstream e2) by quiet. inversion SM5 as [|? ? _ SM6]; subst. clear SM5 EO AN OK.
  destruct (ev_resp e2) as [ | | |n| | | | | | ]; try (now inversion S).
  one1 S. assert (NU5 : no_upstream e3) by quiet. inversion SM6 as [|? ? _ SM7]; subst. clear SM6 EO AN OK.
  destruct (ev_resp e3) as [ | | |n2| | | | | | ]; try (now inversion S).
  destruct ((cm_limit_bytes m <? n) || (cm_limit_msgs m <? n2)). { right. exact (MISS rq (Some p) _ _ eq_refl S ltac:(eassumption)). }
  cbv zeta in S.
  one1 S. assert (NU6 : no_upstream e4) by quiet. inversion SM7 as [|? ? _ SM8]; subst. clear SM7 EO AN OK.
  destruct (ev_resp e4) as [ | | | |ctx2 [mat2|er]| | | | | ]; try (now inversion S).
  2:{ right. exact (MISS (with_ctx ctx2 rq) (Some p) _ _ eq_refl S ltac:(eassumption)). }
  one1 S. assert (NU7 : no_upstream e5) by quiet. inversion S; subst.
  left. constructor; [auto|]. constructor; [auto|]. apply Forall_app. split; [auto|]. auto 10.
Qed.

Lemma dec_stores : forall io sha m rq id c h mat c' t0 t1 cm, t1 < two64 -> cm_ttl m < two64 ->
  solo io (dec_prog sha m rq) c h (Ret (JDec (COk mat))) c' -> Forall (smooth t0 t1) h ->
  dec_cache_id sha m rq = Ok id -> cache_dec io mat = Some cm ->
  Forall no_upstream h \/ stored m id cm 0 0 t0 t1 c'.
Proof.
  intros io sha m rq id c h mat c' t0 t1 cm T1 TT S SM ID CE.
  assert (MISS : forall found c h, solo io (dec_miss m rq id found) c h (Ret (JDec (COk mat))) c' ->
    Forall (smooth t0 t1) h -> stored m id cm 0 0 t0 t1 c').
  { clear - T1 TT CE. intros found c h S SM. unfold dec_miss in S.
    match type of S with context [Do (XUpDec rq) ?k] => set (up := Do (XUpDec rq) k) in S end.
    assert (S2 : exists c1 h1, solo io up c1 h1 (Ret (JDec (COk mat))) c' /\ Forall (smooth t0 t1) h1).
    { destruct found as [p|]; cbn [release_opt] in S; [|eauto]. one1 S. inversion SM; subst. eauto. }
    clear S SM. destruct S2 as (c1 & h1 & S & SM). unfold up in S. clear up.
    one1 S. inversion SM as [|? ? _ SM1]; subst. cbn [answers] in AN. destruct AN as (-> & x & RE). rewrite RE in S.
    destruct x as [mat1|er]; [|inversion S].
    assert (EQ : mat1 = mat).
    { clear - S. one1 S. destruct (ev_resp e) as [ | [q|]| | | | | | | | ]; try (now inversion S).
      unfold set_ttl_on_miss in S. destruct (cm_ttl m =? UINT64_MAX).
      - one1 S. now inversion S.
      - one1 S. destruct (ev_resp e0); try (now inversion S). cbv zeta in S.
        destruct (n <? add64 n (cm_ttl m)); [one1 S|]; one1 S; now inversion S. }
    subst mat1.
    eapply put_then_stored; [exact T1|exact TT|exact S|exact SM1|].
    intros ch. cbn [cstep]. rewrite CE. reflexivity. }
  unfold dec_prog in S. destruct (cacheable (dq_alg rq)) as [Q|Q]; rewrite Q in S; [inversion S|].
  one1 S. assert (NU : no_upstream e) by quiet. inversion SM as [|? ? SM0 SM1]; subst. clear SM.
  destruct SM0 as (_ & _ & _ & _ & _ & _ & _ & RM). rewrite EO in RM. rewrite RM, ID in S. clear AN OK EO RM.
  one1 S. assert (NU2 : no_upstream e0) by quiet. inversion SM1 as [|? ? SM2 SM3]; subst. clear SM1.
  destruct (ev_resp e0) as [ [[p [|]]|] | | | | | | | | | ]; try (now inversion S).
  { right. exact (MISS (Some p) _ _ S SM3). }
  2:{ right. exact (MISS None _ _ S SM3). }
  clear AN OK EO.
  destruct (check_ttl_goes_on _ _ _ _ _ _ _ _ _ _ S ltac:(discriminate) SM3) as (b & c2 & h2 & h3 & -> & F2 & SM4 & S2).
  clear S SM3 SM2. rename S2 into S. destruct b; cbn [negb] in S.
  2:{ right. exact (MISS (Some p) _ _ S SM4). }
  one1 S. assert (NU3 : no_upstream e1) by quiet. inversion SM4 as [|? ? _ SM5]; subst. clear SM4 EO AN OK.
  destruct (ev_resp e1) as [ | | | | |[mat2|er]| | | | ]; try (now inversion S).
  2:{ right. exact (MISS (Some p) _ _ S SM5). }
  one1 S. assert (NU4 : no_upstream e2) by quiet. inversion S; subst.
  left. constructor; [auto|]. constructor; [auto|]. apply Forall_app. split; [auto|]. auto 10.
Qed.

(** * The theorems *)

Lemma gen_id : forall io sha m rq c h ctx mat c' t0 t1,
  solo io (gen_prog sha m rq) c h (Ret (JEnc ctx (COk mat))) c' -> Forall (smooth t0 t1) h ->
  rq_psize rq <= cm_limit_bytes m -> known_suite (rq_alg rq) /\ exists id, enc_cache_id sha m rq = Ok id.
Proof.
  intros io sha m rq c h ctx mat c' t0 t1 S SM PS. unfold gen_prog in S. cbv zeta in S.
  destruct (N.ltb_spec (cm_limit_bytes m) (rq_psize rq)) as [X|_]; [lia|].
  match type of S with context [Do XMem ?k] => set (go := Do XMem k) in S end.
  assert (S2 : solo io go c h (Ret (JEnc ctx (COk mat))) c' /\ known_suite (rq_alg rq)).
  { unfold known_suite. destruct (N.eqb_spec (rq_alg rq) 0); [auto|].
    destruct (cacheable (rq_alg rq)) as [Q|Q]; rewrite Q in *; [inversion S|]. split; [exact S|right; discriminate]. }
  clear S. destruct S2 as (S & KS). split; [exact KS|]. unfold go in S. clear go.
  one1 S. inversion SM as [|? ? SM0 SM1]; subst.
  destruct SM0 as (_ & _ & _ & _ & _ & _ & _ & RM). rewrite EO in RM. rewrite RM in S.
  destruct (enc_cache_id sha m rq) as [id|er]; [eauto|inversion S].
Qed.

Lemma dec_id : forall io sha m rq c h mat c' t0 t1,
  solo io (dec_prog sha m rq) c h (Ret (JDec (COk mat))) c' -> Forall (smooth t0 t1) h ->
  can_cache (dq_alg rq) <> None /\ exists id, dec_cache_id sha m rq = Ok id.
Proof.
  intros io sha m rq c h mat c' t0 t1 S SM. unfold dec_prog in S.
  destruct (cacheable (dq_alg rq)) as [Q|Q]; rewrite Q in *; [inversion S|]. split; [discriminate|].
  one1 S. inversion SM as [|? ? SM0 SM1]; subst.
  destruct SM0 as (_ & _ & _ & _ & _ & _ & _ & RM). rewrite EO in RM. rewrite RM in S.
  destruct (dec_cache_id sha m rq) as [id|er]; [eauto|inversion S].
Qed.

Lemma not_asked : forall h j, (forall x, In x (trace j h) -> match fst x with XUpEnc _ | XUpDec _ => False | _ => True end) ->
  ~ asked_upstream h j.
Proof. intros h j A (o & r & J & U). specialize (A _ J). cbn [fst] in A. now destruct o. Qed.

Lemma alone_asked : forall h1 h2 j, trace j h1 = [] -> Forall no_upstream h2 -> ~ asked_upstream (h1 ++ h2) j.
Proof.
  intros h1 h2 j T F. apply not_asked. intros x J. destruct (trace_alone _ _ _ _ T J) as (e & I & ->). cbn [fst].
  rewrite Forall_forall in F. exact (F e I).
Qed.

Lemma in_alone : forall h1 h2 j e, alone j h2 -> In e h2 -> In (ev_op e, ev_resp e) (trace j (h1 ++ h2)).
Proof.
  intros h1 h2 j e A J. apply in_trace. exists (ev_env e). pose proof (A e J) as EJ. apply in_or_app. right.
  destruct e as [j' o r ch]. cbn in *. now subst.
Qed.

Section Hit.
  Variables (io : sigio) (sha : list N -> list N) (P : choice -> Prop) (cap : N) (jobs : nat -> job).

  Lemma enc_entry_used : forall h1 h2 c1 c j m rq id p e m0 ctx0 key t0 t1,
    exec io sha P cap jobs h1 c1 -> exec io sha P cap jobs (h1 ++ h2) c ->
    trace j h1 = [] -> alone j h2 -> Forall (smooth t0 t1) h2 ->
    jobs j = GenJob m rq -> c_types m -> known_suite (rq_alg rq) -> enc_cache_id sha m rq = Ok id ->
    live c1 id p -> c_store c1 p = Some e -> ce_mat e = CachedEnc m0 ctx0 key ->
    t1 < ce_expiry e \/ ce_expiry e = NO_EXPIRY -> ce_created e < two64 -> usable m (ce_created e) t1 ->
    ce_bytes e + rq_psize rq <= cm_limit_bytes m -> ce_msgs e + 1 <= cm_limit_msgs m ->
    (forall k, key = Some k -> exists sc, si_sign io (em_alg m0) k = Ok sc) ->
    ~ asked_upstream (h1 ++ h2) j /\
    forall r, returns sha jobs (h1 ++ h2) j r ->
      served (h1 ++ h2) j p /\ (exists ctx mat, r = JEnc ctx (COk mat))
      /\ (ce_msgs e + 1 < cm_limit_msgs m -> kept m c id p e (rq_psize rq) 1)
      /\ (ce_msgs e + 1 = cm_limit_msgs m -> ~ live c id p).
  Proof.
    intros h1 h2 c1 c j m rq id p e m0 ctx0 key t0 t1 E1 E T A SM J (TT & LB & LM) KS ID L ST MT EX CR US BY MS SG.
    destruct (exec_solo _ _ _ _ _ _ _ _ E1 T _ _ E A) as (p' & S & FO). rewrite J in S. cbn [prog_of] in S.
    destruct (gen_used _ _ _ _ _ _ _ _ _ _ _ _ _ _ _ _ S SM KS ID L ST MT EX US CR TT LB LM BY MS SG) as (NU & RET).
    split; [now apply alone_asked|]. intros r R. unfold returns in R.
    pose proof (follows_fun _ _ _ FO _ R) as Q. destruct (RET r Q) as (mat & -> & (ev & I & EO & ER) & KE & DR & _).
    split; [|eauto]. unfold served. exists (rq_ctx rq), (enc_ctx_clone (rq_ctx rq) ctx0), mat.
    rewrite <- EO, <- ER. now apply in_alone.
  Qed.

  Lemma dec_entry_used : forall h1 h2 c1 c j m rq id p e m0 key t0 t1,
    exec io sha P cap jobs h1 c1 -> exec io sha P cap jobs (h1 ++ h2) c ->
    trace j h1 = [] -> alone j h2 -> Forall (smooth t0 t1) h2 ->
    jobs j = DecJob m rq -> c_types m -> can_cache (dq_alg rq) <> None -> dec_cache_id sha m rq = Ok id ->
    live c1 id p -> c_store c1 p = Some e -> ce_mat e = CachedDec m0 key ->
    t1 < ce_expiry e \/ ce_expiry e = NO_EXPIRY -> ce_created e < two64 -> usable m (ce_created e) t1 ->
    (forall k, key = Some k -> exists sc, si_verify io (dm_alg m0) k = Ok sc) ->
    ~ asked_upstream (h1 ++ h2) j /\
    forall r, returns sha jobs (h1 ++ h2) j r ->
      served_dec (h1 ++ h2) j p /\ (exists mat, r = JDec (COk mat)) /\ kept m c id p e 0 0.
  Proof.
    intros h1 h2 c1 c j m rq id p e m0 key t0 t1 E1 E T A SM J (TT & LB & LM) KS ID L ST MT EX CR US SG.
    destruct (exec_solo _ _ _ _ _ _ _ _ E1 T _ _ E A) as (p' & S & FO). rewrite J in S. cbn [prog_of] in S.
    destruct (dec_used _ _ _ _ _ _ _ _ _ _ _ _ _ _ _ S SM KS ID L ST MT EX US CR TT SG) as (NU & RET).
    split; [now apply alone_asked|]. intros r R. unfold returns in R.
    pose proof (follows_fun _ _ _ FO _ R) as Q. destruct (RET r Q) as (mat & -> & (ev & I & EO & ER) & KE & _).
    split; [|eauto]. unfold served_dec. exists mat. rewrite <- EO, <- ER. now apply in_alone.
  Qed.

  Lemma second_encryption : forall h1 h2 h3 c j0 j m0 m rq0 rq ctx mat t0 t1,
    exec io sha P cap jobs (h1 ++ h2 ++ h3) c -> j <> j0 ->
    trace j0 h1 = [] -> alone j0 h2 -> trace j h1 = [] -> alone j h3 -> Forall (smooth t0 t1) (h2 ++ h3) ->
    jobs j0 = GenJob m0 rq0 -> jobs j = GenJob m rq -> c_types m0 -> c_types m -> same_enc_request m0 m rq0 rq ->
    distinct_keys (rq_ctx rq0) -> distinct_keys (rq_ctx rq) -> distinct_keys ctx ->
    returns sha jobs (h1 ++ h2) j0 (JEnc ctx (COk mat)) -> asked_upstream (h1 ++ h2) j0 -> enc_resumes io mat ->
    t1 < two64 -> t1 < t0 + cm_ttl m0 -> t1 < t0 + cm_ttl m ->
    rq_psize rq0 <= cm_limit_bytes m0 -> rq_psize rq0 + rq_psize rq <= cm_limit_bytes m -> 2 <= cm_limit_msgs m ->
    ~ asked_upstream (h1 ++ h2 ++ h3) j /\
    forall r, returns sha jobs (h1 ++ h2 ++ h3) j r ->
      exists ctx' mat', r = JEnc ctx' (COk mat') /\ same_enc_mat io mat mat' /\ same_map ctx' ctx.
  Proof.
    intros h1 h2 h3 c j0 j m0 m rq0 rq ctx mat t0 t1 E NJ T0 A0 TJ A SM J0 J (TT0 & _) (TT & LB & LM) SAME DK0 DK DC R0 UP RES
      TW TL0 TL PS0 PS MS.
    apply Forall_app in SM. destruct SM as (SM2 & SM3).
    rewrite app_assoc in *. destruct (exec_prefix _ _ _ _ _ _ _ _ E) as (c2 & E2).
    destruct (exec_prefix _ _ _ _ _ _ _ _ E2) as (c1 & E1).
    destruct (exec_solo _ _ _ _ _ _ _ _ E1 T0 _ _ E2 A0) as (p0 & S0 & FO0).
    unfold returns in R0. pose proof (follows_fun _ _ _ FO0 _ R0) as Q. subst p0. rewrite J0 in S0. cbn [prog_of] in S0.
    destruct (gen_id _ _ _ _ _ _ _ _ _ _ _ S0 SM2 PS0) as (KS & id & ID).
    assert (CE : exists key, cache_enc io mat ctx = Some (CachedEnc (mk_enc_mat (em_key mat) (em_trace mat) (em_edks mat) None (em_alg mat)) ctx key)
      /\ match em_sig mat with None => key = None | Some sc => exists k x, key = Some k /\ si_priv io sc = Ok k /\ si_sign io (em_alg mat) k = Ok x end).
    { unfold cache_enc. destruct (em_sig mat) as [sc|] eqn:SG; [|eauto]. destruct (RES sc SG) as (k & x & PK & SK). rewrite PK.
      exists (Some k). eauto 8. }
    destruct CE as (key & CE & KEY).
    destruct (gen_stores _ _ _ _ _ _ _ _ _ _ _ _ _ TW TT0 S0 SM2 PS0 ID CE) as [NU|STO].
    { exfalso. revert UP. now apply alone_asked. }
    destruct STO as (q & e & LV & ST & MT & BY & NM & CR & EX).
    assert (T : trace j (h1 ++ h2) = []).
    { unfold trace. rewrite filter_app, map_app. fold (trace j h1). rewrite TJ. cbn [app].
      clear - A0 NJ. induction h2 as [|x l IH]; [reflexivity|]. cbn [filter].
      pose proof (A0 x (or_introl eq_refl)) as EX. destruct (Nat.eqb_spec (ev_call x) j); [congruence|].
      apply IH. intros y I. apply A0. now right. }
    destruct (exec_solo _ _ _ _ _ _ _ _ E2 T _ _ E A) as (p' & S & FO). rewrite J in S. cbn [prog_of] in S.
    pose proof (enc_id_same sha m0 m rq0 rq DK0 DK SAME) as IDS. rewrite ID in IDS. symmetry in IDS.
    assert (KS' : known_suite (rq_alg rq)) by (destruct SAME as (_ & EQ & _); now rewrite <- EQ).
    assert (EX' : t1 < ce_expiry e \/ ce_expiry e = NO_EXPIRY) by (destruct EX; [now right|left; lia]).
    assert (US : usable m (ce_created e) t1) by (right; right; lia).
    assert (SG : forall k, key = Some k -> exists sc, si_sign io (em_alg mat) k = Ok sc).
    { intros k KE. destruct (em_sig mat) as [sc|]; [|congruence]. destruct KEY as (k' & x & KE' & _ & SK).
      assert (k' = k) by congruence. subst. eauto. }
    destruct (gen_used _ _ _ _ _ _ _ _ _ _ _ _ _ _ _ _ S SM3 KS' IDS LV ST MT EX' US ltac:(lia) TT LB LM ltac:(lia) ltac:(lia) SG)
      as (NU & RET).
    split; [now apply alone_asked|]. intros r R. unfold returns in R.
    pose proof (follows_fun _ _ _ FO _ R) as Q. destruct (RET r Q) as (mat' & -> & _ & _ & _ & MK).
    exists (enc_ctx_clone (rq_ctx rq) ctx), mat'. split; [reflexivity|]. cbn [em_alg em_key em_trace em_edks] in MK.
    split; [|now apply clone_spec]. unfold same_enc_mat. destruct (em_sig mat) as [sc|].
    - destruct KEY as (k & x & -> & PK & SK). destruct MK as (sc' & SK' & ->). cbn [em_alg em_key em_trace em_edks em_sig].
      split; [auto|]. split; [auto|]. split; [auto|]. split; [auto|]. eauto.
    - subst key. rewrite MK. cbn. auto.
  Qed.

  Lemma second_decryption : forall h1 h2 h3 c j0 j m0 m rq0 rq mat t0 t1,
    exec io sha P cap jobs (h1 ++ h2 ++ h3) c -> j <> j0 ->
    trace j0 h1 = [] -> alone j0 h2 -> trace j h1 = [] -> alone j h3 -> Forall (smooth t0 t1) (h2 ++ h3) ->
    jobs j0 = DecJob m0 rq0 -> jobs j = DecJob m rq -> c_types m0 -> c_types m -> same_dec_request m0 m rq0 rq ->
    distinct_keys (dq_ctx rq0) -> distinct_keys (dq_ctx rq) ->
    returns sha jobs (h1 ++ h2) j0 (JDec (COk mat)) -> asked_upstream (h1 ++ h2) j0 -> dec_resumes io mat ->
    t1 < two64 -> t1 < t0 + cm_ttl m0 -> t1 < t0 + cm_ttl m ->
    ~ asked_upstream (h1 ++ h2 ++ h3) j /\
    forall r, returns sha jobs (h1 ++ h2 ++ h3) j r ->
      exists mat', r = JDec (COk mat') /\ same_dec_mat io mat mat'.
  Proof.
    intros h1 h2 h3 c j0 j m0 m rq0 rq mat t0 t1 E NJ T0 A0 TJ A SM J0 J (TT0 & _) (TT & _ & _) SAME DK0 DK R0 UP RES
      TW TL0 TL.
    apply Forall_app in SM. destruct SM as (SM2 & SM3).
    rewrite app_assoc in *. destruct (exec_prefix _ _ _ _ _ _ _ _ E) as (c2 & E2).
    destruct (exec_prefix _ _ _ _ _ _ _ _ E2) as (c1 & E1).
    destruct (exec_solo _ _ _ _ _ _ _ _ E1 T0 _ _ E2 A0) as (p0 & S0 & FO0).
    unfold returns in R0. pose proof (follows_fun _ _ _ FO0 _ R0) as Q. subst p0. rewrite J0 in S0. cbn [prog_of] in S0.
    destruct (dec_id _ _ _ _ _ _ _ _ _ _ S0 SM2) as (KS & id & ID).
    assert (CE : exists key, cache_dec io mat = Some (CachedDec (mk_dec_mat (dm_key mat) (dm_trace mat) None (dm_alg mat)) key)
      /\ match dm_sig mat with None => key = None | Some sc => exists k x, key = Some k /\ si_pub io sc = Ok k /\ si_verify io (dm_alg mat) k = Ok x end).
    { unfold cache_dec. destruct (dm_sig mat) as [sc|] eqn:SG; [|eauto]. destruct (RES sc SG) as (k & x & PK & SK). rewrite PK.
      exists (Some k). eauto 8. }
    destruct CE as (key & CE & KEY).
    destruct (dec_stores _ _ _ _ _ _ _ _ _ _ _ _ TW TT0 S0 SM2 ID CE) as [NU|STO].
    { exfalso. revert UP. now apply alone_asked. }
    destruct STO as (q & e & LV & ST & MT & BY & NM & CR & EX).
    assert (T : trace j (h1 ++ h2) = []).
    { unfold trace. rewrite filter_app, map_app. fold (trace j h1). rewrite TJ. cbn [app].
      clear - A0 NJ. induction h2 as [|x l IH]; [reflexivity|]. cbn [filter].
      pose proof (A0 x (or_introl eq_refl)) as EX. destruct (Nat.eqb_spec (ev_call x) j); [congruence|].
      apply IH. intros y I. apply A0. now right. }
    destruct (exec_solo _ _ _ _ _ _ _ _ E2 T _ _ E A) as (p' & S & FO). rewrite J in S. cbn [prog_of] in S.
    pose proof (dec_id_same sha m0 m rq0 rq id DK0 DK SAME ID) as IDS.
    assert (KS' : can_cache (dq_alg rq) <> None) by (destruct SAME as (_ & EQ & _); now rewrite <- EQ).
    assert (EX' : t1 < ce_expiry e \/ ce_expiry e = NO_EXPIRY) by (destruct EX; [now right|left; lia]).
    assert (US : usable m (ce_created e) t1) by (right; right; lia).
    assert (SG : forall k, key = Some k -> exists sc, si_verify io (dm_alg mat) k = Ok sc).
    { intros k KE. destruct (dm_sig mat) as [sc|]; [|congruence]. destruct KEY as (k' & x & KE' & _ & SK).
      assert (k' = k) by congruence. subst. eauto. }
    destruct (dec_used _ _ _ _ _ _ _ _ _ _ _ _ _ _ _ S SM3 KS' IDS LV ST MT EX' US ltac:(lia) TT SG) as (NU & RET).
    split; [now apply alone_asked|]. intros r R. unfold returns in R.
    pose proof (follows_fun _ _ _ FO _ R) as Q. destruct (RET r Q) as (mat' & -> & _ & _ & MK).
    exists mat'. split; [reflexivity|]. cbn [dm_alg dm_key dm_trace] in MK.
    unfold same_dec_mat. destruct (dm_sig mat) as [sc|].
    - destruct KEY as (k & x & -> & PK & SK). destruct MK as (sc' & SK' & ->). cbn [dm_alg dm_key dm_trace dm_sig].
      split; [auto|]. split; [auto|]. split; [auto|]. eauto.
    - subst key. rewrite MK. cbn. auto.
  Qed.
  (** * Many calls *)
  Lemma trace_others : forall j h hs js, Forall2 alone js hs -> ~ In j js -> trace j (h ++ concat hs) = trace j h.
  Proof.
    intros j h hs js F. revert h. induction F as [|j' h' js hs A F IH]; intros h NI.
    - cbn [concat]. now rewrite app_nil_r.
    - cbn [concat]. rewrite app_assoc. rewrite IH by (intros X; apply NI; now right).
      unfold trace. rewrite filter_app, map_app.
      assert (E : filter (fun e => Nat.eqb (ev_call e) j) h' = []).
      { assert (NE : j' <> j) by (intros ->; apply NI; now left). clear - A NE.
        induction h' as [|x l IH]; [reflexivity|]. cbn [filter].
        pose proof (A x (or_introl eq_refl)) as EX. destruct (Nat.eqb_spec (ev_call x) j); [congruence|].
        apply IH. intros y I. apply A. now right. }
      rewrite E. cbn [map]. now rewrite app_nil_r.
  Qed.

  Lemma many_hits : forall id m0 ctx0 key t0 t1, (forall k, key = Some k -> exists sc, si_sign io (em_alg m0) k = Ok sc) ->
    t1 < two64 ->
    forall js hs, Forall2 alone js hs -> NoDup js ->
    forall h c0 c b n, exec io sha P cap jobs h c0 -> exec io sha P cap jobs (h ++ concat hs) c ->
    (forall j, In j js -> trace j h = []) -> Forall (Forall (smooth t0 t1)) hs ->
    (exists q e, live c0 id q /\ c_store c0 q = Some e /\ ce_mat e = CachedEnc m0 ctx0 key /\ ce_bytes e = b /\ ce_msgs e = n
       /\ t0 <= ce_created e <= t1 /\ (t1 < ce_expiry e \/ ce_expiry e = NO_EXPIRY)) ->
    (forall j, In j js -> exists m rq, jobs j = GenJob m rq /\ c_types m /\ known_suite (rq_alg rq)
       /\ enc_cache_id sha m rq = Ok id /\ t1 < t0 + cm_ttl m /\ b + asked_bytes jobs js <= cm_limit_bytes m
       /\ n + Nlen js <= cm_limit_msgs m) ->
    (forall j, In j js -> exists r, returns sha jobs (h ++ concat hs) j r) ->
    forall j, In j js -> ~ asked_upstream (h ++ concat hs) j /\
      exists m rq mat, jobs j = GenJob m rq
        /\ returns sha jobs (h ++ concat hs) j (JEnc (enc_ctx_clone (rq_ctx rq) ctx0) (COk mat))
        /\ match key with
           | None => mat = m0
           | Some k => exists sc, si_sign io (em_alg m0) k = Ok sc
                       /\ mat = mk_enc_mat (em_key m0) (em_trace m0) (em_edks m0) sc (em_alg m0)
           end.
  Proof.
    intros id m0 ctx0 key t0 t1 SG TW js hs F. induction F as [|j0 h0 js hs A F IH];
      intros ND h c0 c b n E0 E T SM INV REQ RET j J; [contradiction|].
    cbn [concat] in *. rewrite app_assoc in *. inversion ND as [|? ? NI ND']; subst. inversion SM as [|? ? SM0 SM']; subst.
    destruct INV as (q & e & LV & ST & MT & BY & NM & CR & EX).
    destruct (exec_prefix _ _ _ _ _ _ _ _ E) as (c1 & E1).
    destruct (exec_solo _ _ _ _ _ _ _ _ E0 (T j0 (or_introl eq_refl)) _ _ E1 A) as (p' & S & FO).
    destruct (REQ j0 (or_introl eq_refl)) as (m & rq & JJ & (TT & LB & LM) & KS & ID & TL & TB & TM).
    rewrite JJ in S. cbn [prog_of] in S.
    assert (US : usable m (ce_created e) t1) by (right; right; lia).
    assert (BJ : asked_bytes jobs (j0 :: js) = rq_psize rq + asked_bytes jobs js) by (cbn [asked_bytes]; now rewrite JJ).
    assert (NJ : Nlen (j0 :: js) = 1 + Nlen js) by (unfold Nlen; cbn [length]; lia).
    destruct (gen_used _ _ _ _ _ _ _ _ _ _ _ _ _ _ _ _ S SM0 KS ID LV ST MT EX US ltac:(lia) TT LB LM ltac:(lia) ltac:(lia) SG)
      as (NU & RT).
    destruct (RET j0 (or_introl eq_refl)) as (r & R0). pose proof R0 as R0'. unfold returns in R0'.
    rewrite (trace_others j0 (h ++ h0) hs js F NI) in R0'. pose proof (follows_fun _ _ _ FO _ R0') as Q.
    destruct (RT r Q) as (mat & RE & _ & KE & _ & MK).
    destruct J as [<-|J].
    - split.
      + unfold asked_upstream. rewrite (trace_others j0 (h ++ h0) hs js F NI). apply alone_asked; auto.
        apply T. now left.
      + exists m, rq, mat. split; [exact JJ|]. split; [now rewrite <- RE|exact MK].
    - assert (NZ : 1 <= Nlen js) by (unfold Nlen; destruct js; [contradiction|cbn [length]; lia]).
      destruct (KE ltac:(lia)) as (LV' & e' & ST' & MT' & CR' & _ & BY' & NM' & EX').
      apply (IH ND' (h ++ h0) c1 c (ce_bytes e') (ce_msgs e') E1 E); auto.
      + intros j' J'. assert (NE : j' <> j0) by (intros ->; contradiction).
        pose proof (trace_others j' h [h0] [j0]) as X. cbn [concat] in X. rewrite app_nil_r in X. rewrite X.
        * apply T. now right.
        * constructor; [exact A|constructor].
        * intros [->|[]]; contradiction.
      + exists q, e'. split; [exact LV'|]. split; [exact ST'|]. split; [congruence|]. split; [auto|]. split; [auto|].
        rewrite CR'. split; [exact CR|]. destruct EX' as [->|(-> & LT)]; [exact EX|]. left. lia.
      + intros j' J'. destruct (REQ j' (or_intror J')) as (m' & rq' & X1 & X2 & X3 & X4 & X5 & X6 & X7).
        exists m', rq'. repeat (split; [assumption|]). rewrite BY', NM'. split; lia.
      + intros j' J'. apply RET. now right.
  Qed.

  Lemma many_encryptions : forall h1 h2 hs c j0 js m0 rq0 ctx mat t0 t1,
    exec io sha P cap jobs (h1 ++ h2 ++ concat hs) c -> NoDup (j0 :: js) ->
    (forall j, In j (j0 :: js) -> trace j h1 = []) -> Forall2 alone (j0 :: js) (h2 :: hs) ->
    Forall (smooth t0 t1) h2 -> Forall (Forall (smooth t0 t1)) hs ->
    jobs j0 = GenJob m0 rq0 -> c_types m0 -> distinct_keys (rq_ctx rq0) -> distinct_keys ctx ->
    returns sha jobs (h1 ++ h2) j0 (JEnc ctx (COk mat)) -> asked_upstream (h1 ++ h2) j0 -> enc_resumes io mat ->
    t1 < two64 -> t1 < t0 + cm_ttl m0 -> rq_psize rq0 <= cm_limit_bytes m0 ->
    (forall j, In j js -> exists m rq, jobs j = GenJob m rq /\ c_types m /\ same_enc_request m0 m rq0 rq
       /\ distinct_keys (rq_ctx rq) /\ t1 < t0 + cm_ttl m /\ asked_bytes jobs (j0 :: js) <= cm_limit_bytes m
       /\ Nlen (j0 :: js) <= cm_limit_msgs m) ->
    (forall j, In j js -> exists r, returns sha jobs (h1 ++ h2 ++ concat hs) j r) ->
    forall j, In j js -> ~ asked_upstream (h1 ++ h2 ++ concat hs) j /\
      exists ctx' mat', returns sha jobs (h1 ++ h2 ++ concat hs) j (JEnc ctx' (COk mat'))
        /\ same_enc_mat io mat mat' /\ same_map ctx' ctx.
  Proof.
    intros h1 h2 hs c j0 js m0 rq0 ctx mat t0 t1 E ND T0 AL SM2 SM3 J0 (TT0 & LB0 & LM0) DK0 DC R0 UP RES
      TW TL0 PS0 REQ RETS j J.
    inversion AL as [|? ? ? ? A0 AS]; subst. inversion ND as [|? ? NI ND']; subst.
    rewrite app_assoc in *. destruct (exec_prefix _ _ _ _ _ _ _ _ E) as (c2 & E2).
    destruct (exec_prefix _ _ _ _ _ _ _ _ E2) as (c1 & E1).
    destruct (exec_solo _ _ _ _ _ _ _ _ E1 (T0 j0 (or_introl eq_refl)) _ _ E2 A0) as (p0 & S0 & FO0).
    unfold returns in R0. pose proof (follows_fun _ _ _ FO0 _ R0) as Q. subst p0. rewrite J0 in S0. cbn [prog_of] in S0.
    destruct (gen_id _ _ _ _ _ _ _ _ _ _ _ S0 SM2 PS0) as (KS & id & ID).
    assert (CE : exists key, cache_enc io mat ctx = Some (CachedEnc (mk_enc_mat (em_key mat) (em_trace mat) (em_edks mat) None (em_alg mat)) ctx key)
      /\ match em_sig mat with None => key = None | Some sc => exists k x, key = Some k /\ si_priv io sc = Ok k /\ si_sign io (em_alg mat) k = Ok x end).
    { unfold cache_enc. destruct (em_sig mat) as [sc|] eqn:SG; [|eauto]. destruct (RES sc SG) as (k & x & PK & SK). rewrite PK.
      exists (Some k). eauto 8. }
    destruct CE as (key & CE & KEY).
    destruct (gen_stores _ _ _ _ _ _ _ _ _ _ _ _ _ TW TT0 S0 SM2 PS0 ID CE) as [NU|STO].
    { exfalso. revert UP. apply alone_asked; auto. apply T0. now left. }
    destruct STO as (q & e & LV & ST & MT & BY & NM & CR & EX).
    assert (SG : forall k, key = Some k -> exists sc, si_sign io (em_alg mat) k = Ok sc).
    { intros k KE. destruct (em_sig mat) as [sc|]; [|congruence]. destruct KEY as (k' & x & KE' & _ & SK).
      assert (k' = k) by congruence. subst. eauto. }
    assert (BJ : asked_bytes jobs (j0 :: js) = rq_psize rq0 + asked_bytes jobs js) by (cbn [asked_bytes]; now rewrite J0).
    assert (NJ : Nlen (j0 :: js) = 1 + Nlen js) by (unfold Nlen; cbn [length]; lia).
    destruct (many_hits id (mk_enc_mat (em_key mat) (em_trace mat) (em_edks mat) None (em_alg mat)) ctx key t0 t1 SG TW js hs AS ND' (h1 ++ h2) c2 c (ce_bytes e) (ce_msgs e) E2 E) with (j := j)
      as (NUP & m & rq & mat' & JJ & RR & MK); auto.
    { intros j' J'. assert (NE : j' <> j0) by (intros ->; contradiction).
      pose proof (trace_others j' h1 [h2] [j0]) as X. cbn [concat] in X. rewrite app_nil_r in X. rewrite X.
      - apply T0. now right.
      - constructor; [exact A0|constructor].
      - intros [->|[]]; contradiction. }
    { exists q, e. split; [exact LV|]. split; [exact ST|]. split; [exact MT|]. split; [auto|]. split; [auto|].
      split; [exact CR|]. destruct EX as [EX|EX]; [now right|left; lia]. }
    { intros j' J'. destruct (REQ j' J') as (m & rq & X1 & X2 & X3 & X4 & X5 & X6 & X7). exists m, rq.
      pose proof (enc_id_same sha m0 m rq0 rq DK0 X4 X3) as IDS. rewrite ID in IDS.
      split; [exact X1|]. split; [exact X2|]. split. { destruct X3 as (_ & EQ & _); now rewrite <- EQ. }
      split; [now symmetry|]. split; [exact X5|]. rewrite BY, NM. split; lia. }
    split; [exact NUP|].
    exists (enc_ctx_clone (rq_ctx rq) ctx), mat'. split; [exact RR|]. cbn [em_alg em_key em_trace em_edks] in MK.
    destruct (REQ j J) as (m' & rq' & X1 & X2 & X3 & X4 & _). assert (rq' = rq) by congruence. subst rq'.
    split; [|now apply clone_spec]. unfold same_enc_mat. destruct (em_sig mat) as [sc|].
    - destruct KEY as (k & x & -> & PK & SK). destruct MK as (sc' & SK' & ->). cbn [em_alg em_key em_trace em_edks em_sig].
      split; [auto|]. split; [auto|]. split; [auto|]. split; [auto|]. eauto.
    - subst key. rewrite MK. cbn. auto.
  Qed.
  Lemma many_dec_hits : forall id m0 key t0 t1, (forall k, key = Some k -> exists sc, si_verify io (dm_alg m0) k = Ok sc) ->
    t1 < two64 ->
    forall js hs, Forall2 alone js hs -> NoDup js ->
    forall h c0 c, exec io sha P cap jobs h c0 -> exec io sha P cap jobs (h ++ concat hs) c ->
    (forall j, In j js -> trace j h = []) -> Forall (Forall (smooth t0 t1)) hs ->
    (exists q e, live c0 id q /\ c_store c0 q = Some e /\ ce_mat e = CachedDec m0 key
       /\ t0 <= ce_created e <= t1 /\ (t1 < ce_expiry e \/ ce_expiry e = NO_EXPIRY)) ->
    (forall j, In j js -> exists m rq, jobs j = DecJob m rq /\ c_types m /\ can_cache (dq_alg rq) <> None
       /\ dec_cache_id sha m rq = Ok id /\ t1 < t0 + cm_ttl m) ->
    (forall j, In j js -> exists r, returns sha jobs (h ++ concat hs) j r) ->
    forall j, In j js -> ~ asked_upstream (h ++ concat hs) j /\
      exists mat, returns sha jobs (h ++ concat hs) j (JDec (COk mat))
        /\ match key with
           | None => mat = m0
           | Some k => exists sc, si_verify io (dm_alg m0) k = Ok sc
                       /\ mat = mk_dec_mat (dm_key m0) (dm_trace m0) sc (dm_alg m0)
           end.
  Proof.
    intros id m0 key t0 t1 SG TW js hs F. induction F as [|j0 h0 js hs A F IH];
      intros ND h c0 c E0 E T SM INV REQ RET j J; [contradiction|].
    cbn [concat] in *. rewrite app_assoc in *. inversion ND as [|? ? NI ND']; subst. inversion SM as [|? ? SM0 SM']; subst.
    destruct INV as (q & e & LV & ST & MT & CR & EX).
    destruct (exec_prefix _ _ _ _ _ _ _ _ E) as (c1 & E1).
    destruct (exec_solo _ _ _ _ _ _ _ _ E0 (T j0 (or_introl eq_refl)) _ _ E1 A) as (p' & S & FO).
    destruct (REQ j0 (or_introl eq_refl)) as (m & rq & JJ & (TT & _ & _) & KS & ID & TL).
    rewrite JJ in S. cbn [prog_of] in S.
    assert (US : usable m (ce_created e) t1) by (right; right; lia).
    destruct (dec_used _ _ _ _ _ _ _ _ _ _ _ _ _ _ _ S SM0 KS ID LV ST MT EX US ltac:(lia) TT SG) as (NU & RT).
    destruct (RET j0 (or_introl eq_refl)) as (r & R0). pose proof R0 as R0'. unfold returns in R0'.
    rewrite (trace_others j0 (h ++ h0) hs js F NI) in R0'. pose proof (follows_fun _ _ _ FO _ R0') as Q.
    destruct (RT r Q) as (mat & RE & _ & KE & MK).
    destruct J as [<-|J].
    - split.
      + unfold asked_upstream. rewrite (trace_others j0 (h ++ h0) hs js F NI). apply alone_asked; auto.
        apply T. now left.
      + exists mat. split; [now rewrite <- RE|exact MK].
    - destruct KE as (LV' & e' & ST' & MT' & CR' & _ & _ & _ & EX').
      apply (IH ND' (h ++ h0) c1 c E1 E); auto.
      + intros j' J'. assert (NE : j' <> j0) by (intros ->; contradiction).
        pose proof (trace_others j' h [h0] [j0]) as X. cbn [concat] in X. rewrite app_nil_r in X. rewrite X.
        * apply T. now right.
        * constructor; [exact A|constructor].
        * intros [->|[]]; contradiction.
      + exists q, e'. split; [exact LV'|]. split; [exact ST'|]. split; [congruence|].
        rewrite CR'. split; [exact CR|]. destruct EX' as [->|(-> & LT)]; [exact EX|]. left. lia.
      + intros j' J'. apply REQ. now right.
      + intros j' J'. apply RET. now right.
  Qed.

  Lemma many_decryptions : forall h1 h2 hs c j0 js m0 rq0 mat t0 t1,
    exec io sha P cap jobs (h1 ++ h2 ++ concat hs) c -> NoDup (j0 :: js) ->
    (forall j, In j (j0 :: js) -> trace j h1 = []) -> Forall2 alone (j0 :: js) (h2 :: hs) ->
    Forall (smooth t0 t1) h2 -> Forall (Forall (smooth t0 t1)) hs ->
    jobs j0 = DecJob m0 rq0 -> c_types m0 -> distinct_keys (dq_ctx rq0) ->
    returns sha jobs (h1 ++ h2) j0 (JDec (COk mat)) -> asked_upstream (h1 ++ h2) j0 -> dec_resumes io mat ->
    t1 < two64 -> t1 < t0 + cm_ttl m0 ->
    (forall j, In j js -> exists m rq, jobs j = DecJob m rq /\ c_types m /\ same_dec_request m0 m rq0 rq
       /\ distinct_keys (dq_ctx rq) /\ t1 < t0 + cm_ttl m) ->
    (forall j, In j js -> exists r, returns sha jobs (h1 ++ h2 ++ concat hs) j r) ->
    forall j, In j js -> ~ asked_upstream (h1 ++ h2 ++ concat hs) j /\
      exists mat', returns sha jobs (h1 ++ h2 ++ concat hs) j (JDec (COk mat')) /\ same_dec_mat io mat mat'.
  Proof.
    intros h1 h2 hs c j0 js m0 rq0 mat t0 t1 E ND T0 AL SM2 SM3 J0 (TT0 & LB0 & LM0) DK0 R0 UP RES TW TL0 REQ RETS j J.
    inversion AL as [|? ? ? ? A0 AS]; subst. inversion ND as [|? ? NI ND']; subst.
    rewrite app_assoc in *. destruct (exec_prefix _ _ _ _ _ _ _ _ E) as (c2 & E2).
    destruct (exec_prefix _ _ _ _ _ _ _ _ E2) as (c1 & E1).
    destruct (exec_solo _ _ _ _ _ _ _ _ E1 (T0 j0 (or_introl eq_refl)) _ _ E2 A0) as (p0 & S0 & FO0).
    unfold returns in R0. pose proof (follows_fun _ _ _ FO0 _ R0) as Q. subst p0. rewrite J0 in S0. cbn [prog_of] in S0.
    destruct (dec_id _ _ _ _ _ _ _ _ _ _ S0 SM2) as (KS & id & ID).
    assert (CE : exists key, cache_dec io mat = Some (CachedDec (mk_dec_mat (dm_key mat) (dm_trace mat) None (dm_alg mat)) key)
      /\ match dm_sig mat with None => key = None | Some sc => exists k x, key = Some k /\ si_pub io sc = Ok k /\ si_verify io (dm_alg mat) k = Ok x end).
    { unfold cache_dec. destruct (dm_sig mat) as [sc|] eqn:SG; [|eauto]. destruct (RES sc SG) as (k & x & PK & SK). rewrite PK.
      exists (Some k). eauto 8. }
    destruct CE as (key & CE & KEY).
    destruct (dec_stores _ _ _ _ _ _ _ _ _ _ _ _ TW TT0 S0 SM2 ID CE) as [NU|STO].
    { exfalso. revert UP. apply alone_asked; auto. apply T0. now left. }
    destruct STO as (q & e & LV & ST & MT & BY & NM & CR & EX).
    assert (SG : forall k, key = Some k -> exists sc, si_verify io (dm_alg mat) k = Ok sc).
    { intros k KE. destruct (dm_sig mat) as [sc|]; [|congruence]. destruct KEY as (k' & x & KE' & _ & SK).
      assert (k' = k) by congruence. subst. eauto. }
    destruct (many_dec_hits id (mk_dec_mat (dm_key mat) (dm_trace mat) None (dm_alg mat)) key t0 t1 SG TW js hs AS ND'
      (h1 ++ h2) c2 c E2 E) with (j := j) as (NUP & mat' & RR & MK); auto.
    { intros j' J'. assert (NE : j' <> j0) by (intros ->; contradiction).
      pose proof (trace_others j' h1 [h2] [j0]) as X. cbn [concat] in X. rewrite app_nil_r in X. rewrite X.
      - apply T0. now right.
      - constructor; [exact A0|constructor].
      - intros [->|[]]; contradiction. }
    { exists q, e. split; [exact LV|]. split; [exact ST|]. split; [exact MT|].
      split; [exact CR|]. destruct EX as [EX|EX]; [now right|left; lia]. }
    { intros j' J'. destruct (REQ j' J') as (m & rq & X1 & X2 & X3 & X4 & X5). exists m, rq.
      pose proof (dec_id_same sha m0 m rq0 rq id DK0 X4 X3 ID) as IDS.
      split; [exact X1|]. split; [exact X2|]. split. { destruct X3 as (_ & EQ & _); now rewrite <- EQ. }
      split; [exact IDS|exact X5]. }
    split; [exact NUP|]. exists mat'. split; [exact RR|]. cbn [dm_alg dm_key dm_trace] in MK.
    unfold same_dec_mat. destruct (dm_sig mat) as [sc|].
    - destruct KEY as (k & x & -> & PK & SK). destruct MK as (sc' & SK' & ->). cbn [dm_alg dm_key dm_trace dm_sig].
      split; [auto|]. split; [auto|]. split; [auto|]. eauto.
    - subst key. rewrite MK. cbn. auto.
  Qed.
End Hit.

(** * The cache alone, over all histories *)

Lemma leaves_lemma : forall io P cap h c o ch c' r id p e,
  runs io P (new_cache cap) h c -> legal (h ++ [(o, r)]) ->
  cstep io ch o c = Some (c', r) -> live c id p -> c_store c p = Some e -> ~ live c' id p ->
  may_remove o ch c id p e.
Proof.
  intros io P cap h c o ch c' r id p e R L E LV ST NL.
  apply (removed_for_a_reason io c (outstanding h) ch o c' r id p e); auto.
  - eapply runs_cok; eauto using legal_prefix.
  - intros q U. pose proof (legal_last _ _ _ L q U) as H. unfold held, outstanding in *. lia.
Qed.

Lemma lookup_lemma : forall io P cap h c ch id p e,
  runs io P (new_cache cap) h c -> legal h -> live c id p -> c_store c p = Some e ->
  ch_lock ch = true -> (forall now, ch_clock ch = Some now -> now < ce_expiry e \/ ce_expiry e = NO_EXPIRY) ->
  exists c', cstep io ch (KFind id) c = Some (c', RFound (Some (p, is_enc (ce_mat e)))) /\ live c' id p.
Proof.
  intros io P cap h c ch id p e R L LV ST LK FR.
  destruct (find_live io c _ ch id p e (runs_cok _ _ _ _ _ R L) LV ST LK FR) as (c' & E & _ & LV'). eauto.
Qed.

Lemma put_lemma : forall io P cap h c ch o id mat now,
  runs io P (new_cache cap) h c -> legal h ->
  match o with
  | KPutEnc m b n ctx i => id = i /\ cache_enc io m ctx = Some mat
  | KPutDec m i => id = i /\ cache_dec io m = Some mat
  | _ => False
  end ->
  ch_lock ch = true -> ch_mem ch = true -> ch_insert ch = true -> ch_clock ch = Some now ->
  exists c' p e, cstep io ch o c = Some (c', RPut (Some p)) /\ live c' id p /\ c_store c' p = Some e
    /\ ce_mat e = mat /\ ce_created e = now /\ ce_expiry e = NO_EXPIRY
    /\ match o with KPutEnc _ b n _ _ => ce_bytes e = b /\ ce_msgs e = n | _ => True end.
Proof.
  intros io P cap h c ch o id mat now R L PO LK MM IN CK. pose proof (runs_cok _ _ _ _ _ R L) as OK.
  destruct o as [| m b n ctx i|m i| | | | | | | | | |]; try contradiction; destruct PO as (-> & CE); cbn [cstep]; rewrite CE.
  - destruct (put_entry_live ch mat b n i c _ now OK LK MM IN CK) as (c' & E & LV & ST). rewrite E.
    eexists _, _, _. split; [reflexivity|]. split; [exact LV|]. split; [exact ST|]. cbn. auto 10.
  - destruct (put_entry_live ch mat 0 0 i c _ now OK LK MM IN CK) as (c' & E & LV & ST). rewrite E.
    eexists _, _, _. split; [reflexivity|]. split; [exact LV|]. split; [exact ST|]. cbn. auto 10.
Qed.

Lemma clear_lemma : forall io P cap h c ch,
  runs io P (new_cache cap) h c -> legal h -> ch_lock ch = true ->
  exists c', cstep io ch KClear c = Some (c', RUnit) /\ (forall id p, ~ live c' id p) /\ c_lru c' = [] /\ c_heap c' = []
    /\ forall ch', ch_lock ch' = true -> cstep io ch' KCount c' = Some (c', RNum 0).
Proof.
  intros io P cap h c ch R L LK. destruct (clear_empties io c _ ch (runs_cok _ _ _ _ _ R L) LK) as (c' & E & M & LR & HP).
  exists c'. split; [exact E|]. split; [intros id p; unfold live; rewrite M; intros []|]. split; [auto|]. split; [auto|].
  intros ch' LK'. cbn [cstep]. rewrite LK', M. reflexivity.
Qed.
