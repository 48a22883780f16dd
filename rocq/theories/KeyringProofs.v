(** Proofs of the properties of keyrings, lists and the default CMM. *)
From Verif Require Import Base AlgModel EncCtxModel HdrModel FrameModel CryptoModel SessionModel KeyringModel
  BaseProofs WireSpec SessionSpec StreamSpec KeyringSpec EncCtxProofs.
From Coq Require Import Permutation ZArith ZifyBool ZifyNat ZifyN.
Import List.
Open Scope list_scope.
Open Scope N_scope.

(** ** Lists *)
Lemma transfer_loop_ok : forall A grow (todo dest dest' : list A), transfer_loop grow dest todo = (dest', true) -> dest' = dest ++ todo.
Proof.
  induction todo as [|x todo IH]; cbn; intros dest dest' H; [injection H as <-; now rewrite app_nil_r|].
  unfold push_back in H. destruct (grow (List.length dest)); [|discriminate].
  apply IH in H. now rewrite <- app_assoc in H.
Qed.
Lemma transfer_loop_can : forall A grow (todo dest : list A), can_append grow (List.length dest) todo ->
  transfer_loop grow dest todo = (dest ++ todo, true).
Proof.
  induction todo as [|x todo IH]; cbn; intros dest H; [now rewrite app_nil_r|].
  unfold push_back. rewrite H by (cbn; lia). rewrite IH.
  - now rewrite <- app_assoc.
  - intros i I. apply H. rewrite app_length in I. cbn in *. lia.
Qed.
Lemma transfer_loop_fail : forall A grow (todo dest dest' : list A), transfer_loop grow dest todo = (dest', false) ->
  exists pre, prefix pre todo /\ dest' = dest ++ pre.
Proof.
  induction todo as [|x todo IH]; cbn; intros dest dest' H; [discriminate|].
  unfold push_back in H. destruct (grow (List.length dest)).
  - apply IH in H as (pre & [z Z] & ->). exists (x :: pre). split; [exists z; cbn; congruence|now rewrite <- app_assoc].
  - injection H as <-. exists []. split; [now exists (x :: todo)|now rewrite app_nil_r].
Qed.

Lemma C51_transfer_lemma : forall A (grow : nat -> bool) (dest src dest' src' : list A) ok,
  transfer_list grow dest src = (dest', src', ok) ->
  (ok = true -> dest' = dest ++ src /\ src' = []) /\
  (can_append grow (List.length dest) src -> ok = true).
Proof.
  intros A grow dest src dest' src' ok H. unfold transfer_list in H.
  destruct (transfer_loop grow dest src) as [d o] eqn:T. split.
  - intros ->. destruct o; [|discriminate]. injection H as <- <-. split; auto. eapply transfer_loop_ok; eauto.
  - intros C. rewrite transfer_loop_can in T by auto. injection T as <- <-. now injection H.
Qed.

Lemma copy_loop_spec : forall A grow clone (todo dest : list A) i dest' r,
  (forall j x y, clone j x = Ok y -> y = x) -> copy_loop grow clone i dest todo = (dest', r) ->
  exists pre, dest' = dest ++ pre /\ prefix pre todo /\ (r = Ok tt -> pre = todo).
Proof.
  induction todo as [|x todo IH]; cbn; intros dest i dest' r CL H.
  - injection H as <- <-. exists []. rewrite app_nil_r. repeat split; auto. now exists [].
  - destruct (clone i x) as [y|e] eqn:C.
    + apply CL in C as ->. unfold push_back in H. destruct (grow (List.length dest)).
      * apply IH in H as (pre & -> & [z Z] & R); auto. exists (x :: pre). rewrite <- app_assoc. repeat split.
        -- exists z. cbn. congruence.
        -- intros E. f_equal. auto.
      * injection H as <- <-. exists []. rewrite app_nil_r. repeat split; [now exists (x :: todo)|discriminate].
    + injection H as <- <-. exists []. rewrite app_nil_r. repeat split; [now exists (x :: todo)|discriminate].
Qed.
Lemma pop_while_app : forall A (pre dest : list A) fuel, (List.length pre <= fuel)%nat ->
  pop_while fuel (List.length dest) (dest ++ pre) = dest.
Proof.
  induction pre as [|x pre IH] using rev_ind; intros dest fuel F.
  - rewrite app_nil_r. destruct fuel; cbn [pop_while]; auto. now rewrite Nat.ltb_irrefl.
  - rewrite app_length in F. cbn in F. destruct fuel; [lia|]. cbn [pop_while].
    rewrite app_assoc. rewrite removelast_last. rewrite !app_length. cbn [List.length].
    destruct (Nat.ltb_spec (List.length dest) (List.length dest + List.length pre + 1)); [|lia]. apply IH. lia.
Qed.
Lemma list_copy_all_spec : forall A tmp grow clone (dest src dest' : list A) r,
  (forall j x y, clone j x = Ok y -> y = x) -> list_copy_all tmp grow clone dest src = (dest', r) ->
  match r with Ok _ => dest' = dest ++ src | Err _ => dest' = dest end.
Proof.
  intros A tmp grow clone dest src dest' r CL H. unfold list_copy_all in H.
  destruct tmp; cbn [negb] in H; [|injection H as <- <-; reflexivity].
  destruct (copy_loop grow clone 0 dest src) as [d x] eqn:L.
  destruct (copy_loop_spec _ _ _ _ _ _ _ _ CL L) as (pre & -> & P & R).
  destruct x as [[]|e]; injection H as <- <-; [now rewrite R|].
  apply pop_while_app. rewrite app_length. lia.
Qed.
Lemma copy_loop_can : forall A grow clone (todo dest : list A) i,
  (forall j x, clone j x = Ok x) -> can_append grow (List.length dest) todo -> snd (copy_loop grow clone i dest todo) = Ok tt.
Proof.
  induction todo as [|x todo IH]; cbn; intros dest i C G; auto.
  rewrite C. unfold push_back. rewrite G by (cbn; lia). apply IH; auto.
  intros j J. apply G. rewrite app_length in J. cbn in *. lia.
Qed.
Lemma edk_clone_ok : forall fail j x y, edk_clone fail j x = Ok y -> y = x.
Proof. intros fail j [a b c] y. unfold edk_clone. repeat (destruct (fail _); [discriminate|]). cbn. congruence. Qed.
Lemma trace_clone_ok : forall fail j x y, trace_clone fail j x = Ok y -> y = x.
Proof. intros fail j [a b c] y. unfold trace_clone. repeat (destruct (fail _); [discriminate|]). cbn. congruence. Qed.

Lemma C51_copy_edks_lemma : forall tmp grow fail dest src dest' r,
  edk_list_copy_all tmp grow fail dest src = (dest', r) ->
  match r with Ok _ => dest' = dest ++ src | Err _ => dest' = dest end /\
  (tmp = true -> (forall i, fail i = None) -> can_append grow (List.length dest) src -> r = Ok tt).
Proof.
  intros tmp grow fail dest src dest' r H. split; [exact (list_copy_all_spec _ _ _ _ _ _ _ _ (edk_clone_ok fail) H)|].
  intros -> F G. unfold edk_list_copy_all, list_copy_all in H. cbn [negb] in H.
  assert (C : snd (copy_loop grow (edk_clone fail) 0 dest src) = Ok tt).
  { apply copy_loop_can; auto. intros j [a b c]. unfold edk_clone. now rewrite !F. }
  destruct (copy_loop grow (edk_clone fail) 0 dest src) as [d x]. cbn in C. subst x. congruence.
Qed.
Lemma C51_copy_trace_lemma : forall tmp grow fail dest src dest' r,
  trace_copy_all tmp grow fail dest src = (dest', r) ->
  match r with Ok _ => dest' = dest ++ src | Err _ => dest' = dest end /\
  (tmp = true -> (forall i, fail i = None) -> can_append grow (List.length dest) src -> r = Ok tt).
Proof.
  intros tmp grow fail dest src dest' r H. split; [exact (list_copy_all_spec _ _ _ _ _ _ _ _ (trace_clone_ok fail) H)|].
  intros -> F G. unfold trace_copy_all, list_copy_all in H. cbn [negb] in H.
  assert (C : snd (copy_loop grow (trace_clone fail) 0 dest src) = Ok tt).
  { apply copy_loop_can; auto. intros j [a b c]. unfold trace_clone. now rewrite !F. }
  destruct (copy_loop grow (trace_clone fail) 0 dest src) as [d x]. cbn in C. subst x. congruence.
Qed.

(** ** Suites *)
Lemma suite_lookup : forall alg p, alg_lookup alg = Some p -> suite alg /\ ap_data_key_len p = suite_key_len alg /\
  (ap_sig_len p = 0 <-> ~ In alg signed_suites).
Proof.
  intros alg p. unfold alg_lookup.
  repeat (match goal with |- context [if ?x =? ?y then _ else _] => destruct (N.eqb_spec x y) end;
    [subst; intros E; injection E as <-; (split; [vm_compute; tauto|split; [reflexivity|]]); vm_compute;
     split; [intros H X; repeat destruct X as [X|X]; try discriminate; contradiction
            |intros H; try reflexivity; exfalso; apply H; tauto]|]).
  discriminate.
Qed.
Lemma lookup_suite : forall alg, suite alg -> exists p, alg_lookup alg = Some p.
Proof.
  intros alg H. unfold suite in H. cbn in H.
  repeat match goal with H : _ \/ _ |- _ => destruct H | H : False |- _ => destruct H end; subst; eexists; reflexivity.
Qed.
Lemma key_len_ok_spec : forall alg b, key_len_ok alg b = true <-> suite alg /\ Nlen (kb_bytes b) = suite_key_len alg.
Proof.
  intros alg b. unfold key_len_ok. destruct (alg_lookup alg) as [p|] eqn:L.
  - destruct (suite_lookup _ _ L) as (S & K & _). rewrite N.eqb_eq, K. tauto.
  - split; [discriminate|]. intros (S & _). apply lookup_suite in S as (p & S). congruence.
Qed.

(** ** The keyring interface *)
Lemma on_encrypt_guard : forall k ctx alg a, ka_key a = None -> ka_edks a <> [] -> keyring_on_encrypt k ctx alg a = (a, KrErr E_BAD_STATE).
Proof. intros k ctx alg a K E. unfold keyring_on_encrypt. rewrite K. destruct (ka_edks a); congruence. Qed.

Lemma on_encrypt_inv : forall k ctx alg a a' rc, keyring_on_encrypt k ctx alg a = (a', rc) ->
  (ka_key a = None -> ka_edks a <> [] -> a' = a /\ rc = KrErr E_BAD_STATE) /\
  (rc = KrOk -> (exists f, kr_encrypt k = Some f /\ f ctx alg a = (a', KrOk)) /\
     (ka_key a = None -> ka_edks a = []) /\
     (forall b, ka_key a = None -> ka_key a' = Some b -> suite alg /\ Nlen (kb_bytes b) = suite_key_len alg) /\
     (forall b, ka_key a = Some b -> exists b', ka_key a' = Some b' /\ kb_meta b' = kb_meta b /\ Nlen (kb_bytes b') = Nlen (kb_bytes b))).
Proof.
  intros k ctx alg a a' rc H. split.
  { intros K E. rewrite on_encrypt_guard in H by auto. split; congruence. }
  intros ->. unfold keyring_on_encrypt in H.
  assert (G : ka_key a = None -> ka_edks a = []).
  { intros K. destruct (ka_edks a) eqn:E; auto. rewrite K in H. discriminate. }
  assert (H' : match kr_encrypt k with
    | None => (a, KrErr E_UNIMPLEMENTED)
    | Some f =>
      let (a', rc) := f ctx alg a in
      match rc with
      | KrUB => (a', KrUB)
      | _ =>
        match ka_key a, ka_key a' with
        | None, None => (a', rc)
        | None, Some b => if key_len_ok alg b then (a', rc) else (a', KrErr E_BAD_STATE)
        | Some b0, Some b => if same_buf b0 b then (a', rc) else (a', KrErr E_BAD_STATE)
        | Some _, None => (a', KrErr E_BAD_STATE)
        end
      end
    end = (a', KrOk)).
  { destruct (ka_key a) eqn:K; [exact H|]. rewrite (G eq_refl) in H. exact H. }
  clear H. destruct (kr_encrypt k) as [f|]; [|discriminate].
  destruct (f ctx alg a) as [a2 rc2] eqn:F.
  destruct rc2; [| |discriminate].
  - destruct (ka_key a) as [b0|] eqn:K; destruct (ka_key a2) as [b|] eqn:K2.
    + destruct (same_buf b0 b) eqn:SB; [|discriminate]. injection H' as <-.
      repeat split; eauto; try congruence; try discriminate.
      intros b1 X. injection X as <-. exists b. unfold same_buf in SB. apply andb_prop in SB as [S1 S2].
      apply N.eqb_eq in S1, S2. auto.
    + discriminate.
    + destruct (key_len_ok alg b) eqn:KL; [|discriminate]. injection H' as <-.
      apply key_len_ok_spec in KL as [S L].
      split; [eauto|]. split; [auto|]. split; [|discriminate]. intros b1 _ X. rewrite K2 in X. injection X as <-. auto.
    + injection H' as <-. split; [eauto|]. split; [auto|]. split; [|discriminate]. intros b1 _ X. congruence.
  - destruct (ka_key a) as [b0|] eqn:K; destruct (ka_key a2) as [b|] eqn:K2; try discriminate.
    + destruct (same_buf b0 b); discriminate.
    + destruct (key_len_ok alg b); discriminate.
Qed.

Lemma on_decrypt_inv : forall k edks ctx alg a a' rc, keyring_on_decrypt k edks ctx alg a = (a', rc) ->
  (da_key a <> None -> a' = a /\ rc = KrErr E_BAD_STATE) /\
  (rc = KrOk -> da_key a = None /\ (exists f, kr_decrypt k = Some f /\ f edks ctx alg a = (a', KrOk)) /\
     (forall b, da_key a' = Some b -> suite alg /\ Nlen (kb_bytes b) = suite_key_len alg)).
Proof.
  intros k edks ctx alg a a' rc H. unfold keyring_on_decrypt in H.
  destruct (da_key a) eqn:K; [split; [intros _|]; injection H as <- <-; [auto|discriminate]|].
  split; [congruence|]. intros ->.
  destruct (kr_decrypt k) as [f|]; [|discriminate]. destruct (f edks ctx alg a) as [a2 rc2] eqn:F.
  split; [auto|].
  destruct rc2; [| |discriminate]; destruct (da_key a2) as [b|] eqn:K2; try discriminate.
  - destruct (key_len_ok alg b) eqn:KL; [|discriminate]. injection H as <-.
    apply key_len_ok_spec in KL as [S L].
    split; [eauto|]. intros b1 X. rewrite K2 in X. injection X as <-. auto.
  - injection H as <-. split; [eauto|]. intros b1 X. congruence.
  - destruct (key_len_ok alg b); discriminate.
Qed.

Lemma C41_encrypt_lemma : forall k ctx alg a a' rc, keyring_on_encrypt k ctx alg a = (a', rc) ->
  (ka_key a = None -> ka_edks a <> [] -> a' = a /\ rc = KrErr E_BAD_STATE) /\
  (rc = KrOk ->
     (forall b, ka_key a = None -> ka_key a' = Some b -> suite alg /\ Nlen (kb_bytes b) = suite_key_len alg) /\
     (forall b, ka_key a = Some b -> exists b', ka_key a' = Some b' /\ kb_meta b' = kb_meta b /\ Nlen (kb_bytes b') = Nlen (kb_bytes b))).
Proof. intros k ctx alg a a' rc H. apply on_encrypt_inv in H as [H1 H2]. split; auto. intros E. destruct (H2 E) as (_ & _ & A & B). auto. Qed.
Lemma C41_decrypt_lemma : forall k edks ctx alg a a' rc, keyring_on_decrypt k edks ctx alg a = (a', rc) ->
  (da_key a <> None -> a' = a /\ rc = KrErr E_BAD_STATE) /\
  (forall b, rc = KrOk -> da_key a' = Some b -> suite alg /\ Nlen (kb_bytes b) = suite_key_len alg).
Proof. intros k edks ctx alg a a' rc H. apply on_decrypt_inv in H as [H1 H2]. split; auto. intros b E. destruct (H2 E) as (_ & _ & A). auto. Qed.

(** ** Multi-keyring *)
Lemma called_list : forall ctx alg ks a a', Forall appends ks -> encrypt_on_list ks ctx alg a = (a', KrOk) ->
  exists es ts, called ctx alg ks a es ts a'.
Proof.
  induction ks as [|k ks IH]; cbn; intros a a' F H.
  - injection H as <-. exists [], []. constructor.
  - inversion F as [|? ? F1 F2]; subst. destruct (keyring_on_encrypt k ctx alg a) as [a1 rc] eqn:K.
    destruct rc; try discriminate. destruct (F1 _ _ _ _ K) as (e & t & E & T).
    destruct (IH _ _ F2 H) as (es & ts & C). exists (e :: es), (t :: ts). econstructor; eauto.
Qed.
Lemma called_lists : forall ctx alg ks a es ts a', called ctx alg ks a es ts a' ->
  ka_edks a' = ka_edks a ++ concat es /\ ka_trace a' = ka_trace a ++ concat ts.
Proof.
  induction 1 as [|k ks a a1 e t es ts a' K E T C [IH1 IH2]]; cbn; [now rewrite !app_nil_r|].
  rewrite IH1, IH2, E, T, <- !app_assoc. auto.
Qed.

Lemma C39_success_lemma : forall m mem ctx alg a a', Forall appends (members m) ->
  multi_on_encrypt m mem ctx alg a = (a', KrOk) ->
  exists es ts my, called ctx alg (members m) (mk_kargs (ka_key a) [] []) es ts my /\
    ka_key a' = ka_key my /\ ka_key a' <> None /\
    ka_edks a' = ka_edks a ++ concat es /\
    (can_append (mm_trace mem) (List.length (ka_trace a)) (concat ts) -> ka_trace a' = ka_trace a ++ concat ts).
Proof.
  intros m mem ctx alg a a' F H. unfold multi_on_encrypt in H.
  destruct (mm_init mem); [discriminate|]. cbv zeta in H.
  set (my := mk_kargs (ka_key a) [] []) in *.
  destruct (match m_generator m with None => (my, KrOk) | Some g => keyring_on_encrypt g ctx alg my end) as [my1 rc1] eqn:G.
  destruct rc1; try discriminate. destruct (ka_key my1) as [b|] eqn:K1; [|discriminate].
  destruct (encrypt_on_list (m_children m) ctx alg my1) as [my2 rc2] eqn:C. destruct rc2; try discriminate.
  assert (M : exists es ts, called ctx alg (members m) my es ts my2).
  { unfold members in *. destruct (m_generator m) as [g|]; cbn [app] in *.
    - inversion F as [|? ? F1 F2]; subst. destruct (F1 _ _ _ _ G) as (e & t & E & T).
      destruct (called_list _ _ _ _ _ F2 C) as (es & ts & CC). exists (e :: es), (t :: ts). econstructor; eauto.
    - injection G as <-. eapply called_list; eauto. }
  destruct M as (es & ts & M). exists es, ts, my2.
  destruct (called_lists _ _ _ _ _ _ _ M) as [E T]. cbn in E, T.
  destruct (transfer_list (mm_edks mem) (ka_edks a) (ka_edks my2)) as [[edks src] ok] eqn:TE.
  destruct ok; [|discriminate].
  destruct (transfer_list (mm_trace mem) (ka_trace a) (ka_trace my2)) as [[tr srct] okt] eqn:TT.
  injection H as <-. cbn.
  apply C51_transfer_lemma in TE as [TE _], TT as [TT1 TT2]. destruct (TE eq_refl) as [-> _].
  split; [exact M|]. split; [reflexivity|]. split.
  - assert (X : forall ks a0 a1 es0 ts0, called ctx alg ks a0 es0 ts0 a1 -> ka_key a0 <> None -> ka_key a1 <> None).
    { induction 1 as [|k ks a0 a1 e0 t0 es0 ts0 a2 KK E0 T0 CC IH]; auto. intros N. apply IH.
      apply on_encrypt_inv in KK as [_ KK]. destruct (KK eq_refl) as (_ & _ & _ & KK'). destruct (ka_key a0) as [b0|]; [|contradiction].
      destruct (KK' _ eq_refl) as (b' & -> & _). discriminate. }
    assert (Y : forall ks a0 a1, encrypt_on_list ks ctx alg a0 = (a1, KrOk) -> ka_key a0 <> None -> ka_key a1 <> None).
    { induction ks as [|k ks IH]; cbn; intros a0 a1 HH N; [injection HH as <-; auto|].
      destruct (keyring_on_encrypt k ctx alg a0) as [a2 rc] eqn:KK. destruct rc; try discriminate. apply (IH _ _ HH).
      apply on_encrypt_inv in KK as [_ KK]. destruct (KK eq_refl) as (_ & _ & _ & KK'). destruct (ka_key a0) as [b0|]; [|contradiction].
      destruct (KK' _ eq_refl) as (b' & -> & _). discriminate. }
    apply (Y _ _ _ C). congruence.
  - split; [now rewrite E|]. intros CA. rewrite <- T in CA. now destruct (TT1 (TT2 CA)) as [-> _]; rewrite T.
Qed.

Lemma C39_failure_lemma : forall m mem ctx alg a a' e,
  multi_on_encrypt m mem ctx alg a = (a', KrErr e) ->
  (forall n, mm_edks mem n = true) -> ka_edks a' = ka_edks a /\ ka_trace a' = ka_trace a.
Proof.
  intros m mem ctx alg a a' e H G. unfold multi_on_encrypt in H.
  destruct (mm_init mem); [injection H as <- _; auto|]. cbv zeta in H.
  set (my := mk_kargs (ka_key a) [] []) in *.
  destruct (match m_generator m with None => (my, KrOk) | Some g => keyring_on_encrypt g ctx alg my end) as [my1 rc1].
  destruct rc1; [|injection H as <- _; auto|discriminate].
  destruct (ka_key my1) as [b|]; [|injection H as <- _; auto].
  destruct (encrypt_on_list (m_children m) ctx alg my1) as [my2 rc2]. destruct rc2; [|injection H as <- _; auto|discriminate].
  unfold transfer_list in H. rewrite transfer_loop_can in H by (intros i _; apply G).
  destruct (transfer_loop (mm_trace mem) (ka_trace a) (ka_trace my2)) as [tr okt]. destruct okt; discriminate.
Qed.

Lemma decrypt_on_list_none : forall edks ctx alg ks a errs a' failed, no_key_from edks ctx alg ks a errs a' ->
  decrypt_on_list ks edks ctx alg failed a = (a', match rev errs with [] => failed | e :: _ => KrErr e end).
Proof.
  intros edks ctx alg ks a errs a' failed H. revert failed.
  induction H as [a|k ks a a1 errs a' K N H IH|k ks a a1 e errs a' K N H IH]; intros failed; cbn [decrypt_on_list].
  - reflexivity.
  - rewrite K, N. apply IH.
  - rewrite K, N. rewrite IH. cbn [rev]. destruct (rev errs); reflexivity.
Qed.
Lemma decrypt_on_list_first : forall edks ctx alg l1 k l2 a errs a1 a2 rc b failed,
  no_key_from edks ctx alg l1 a errs a1 -> keyring_on_decrypt k edks ctx alg a1 = (a2, rc) -> rc <> KrUB -> da_key a2 = Some b ->
  decrypt_on_list (l1 ++ k :: l2) edks ctx alg failed a = (a2, KrOk).
Proof.
  intros edks ctx alg l1 k l2 a errs a1 a2 rc b failed H K U B. revert failed.
  induction H as [a|k1 ks a a1 errs a' K1 N H IH|k1 ks a a1 e errs a' K1 N H IH]; intros failed; cbn [decrypt_on_list app].
  - rewrite K, B. destruct rc; congruence.
  - rewrite K1, N. now apply IH.
  - rewrite K1, N. now apply IH.
Qed.
Lemma decrypt_on_list_ub : forall edks ctx alg l1 k l2 a errs a1 a2 failed,
  no_key_from edks ctx alg l1 a errs a1 -> keyring_on_decrypt k edks ctx alg a1 = (a2, KrUB) ->
  decrypt_on_list (l1 ++ k :: l2) edks ctx alg failed a = (a2, KrUB).
Proof.
  intros edks ctx alg l1 k l2 a errs a1 a2 failed H K. revert failed.
  induction H as [a|k1 ks a a1 errs a' K1 N H IH|k1 ks a a1 e errs a' K1 N H IH]; intros failed; cbn [decrypt_on_list app].
  - now rewrite K.
  - rewrite K1, N. now apply IH.
  - rewrite K1, N. now apply IH.
Qed.
Lemma decrypt_cases : forall edks ctx alg ks a,
  (exists errs a', no_key_from edks ctx alg ks a errs a') \/
  (exists l1 k l2 errs a1 a2 rc, ks = l1 ++ k :: l2 /\ no_key_from edks ctx alg l1 a errs a1 /\
     keyring_on_decrypt k edks ctx alg a1 = (a2, rc) /\ (rc = KrUB \/ da_key a2 <> None)).
Proof.
  induction ks as [|k ks IH]; intros a; [left; exists [], a; constructor|].
  destruct (keyring_on_decrypt k edks ctx alg a) as [a2 rc] eqn:K.
  destruct (da_key a2) as [b|] eqn:B.
  { right. exists [], k, ks, [], a, a2, rc. split; [auto|]. split; [constructor|]. split; auto. right. congruence. }
  destruct rc as [|e|].
  - destruct (IH a2) as [(errs & a' & H)|(l1 & k' & l2 & errs & a1 & a3 & rc & E & H & K' & X)].
    + left. exists errs, a'. eapply no_key_ok; eauto.
    + right. exists (k :: l1), k', l2, errs, a1, a3, rc. split; [cbn; congruence|]. split; [eapply no_key_ok; eauto|auto].
  - destruct (IH a2) as [(errs & a' & H)|(l1 & k' & l2 & errs & a1 & a3 & rc & E & H & K' & X)].
    + left. exists (e :: errs), a'. eapply no_key_err; eauto.
    + right. exists (k :: l1), k', l2, (e :: errs), a1, a3, rc. split; [cbn; congruence|]. split; [eapply no_key_err; eauto|auto].
  - right. exists [], k, ks, [], a, a2, KrUB. split; [auto|]. split; [constructor|]. auto.
Qed.

Lemma members_decrypt : forall m edks ctx alg a,
  multi_on_decrypt m edks ctx alg a = decrypt_on_list (members m) edks ctx alg KrOk a.
Proof. intros. unfold multi_on_decrypt, members. now destruct (m_generator m). Qed.

Lemma C40_lemma : forall m edks ctx alg a a' rc, multi_on_decrypt m edks ctx alg a = (a', rc) -> rc <> KrUB ->
  (exists l1 k l2 errs a1 rck b, members m = l1 ++ k :: l2 /\ no_key_from edks ctx alg l1 a errs a1 /\
     keyring_on_decrypt k edks ctx alg a1 = (a', rck) /\ da_key a' = Some b /\ rc = KrOk) \/
  (exists errs, no_key_from edks ctx alg (members m) a errs a' /\
     (errs = [] -> rc = KrOk) /\ (forall es e, errs = es ++ [e] -> rc = KrErr e)).
Proof.
  intros m edks ctx alg a a' rc H U. rewrite members_decrypt in H.
  destruct (decrypt_cases edks ctx alg (members m) a) as [(errs & a1 & N)|(l1 & k & l2 & errs & a1 & a2 & rc2 & E & N & K & X)].
  - right. rewrite (decrypt_on_list_none _ _ _ _ _ _ _ _ N) in H. injection H as <- <-.
    exists errs. split; [exact N|]. split; [intros ->; reflexivity|]. intros es e ->. now rewrite rev_unit.
  - left. destruct (da_key a2) as [b|] eqn:B.
    + destruct rc2 as [|e|] eqn:R.
      * rewrite E in H. rewrite (decrypt_on_list_first _ _ _ _ _ _ _ _ _ _ _ _ _ N K ltac:(discriminate) B) in H. injection H as <- <-.
        exists l1, k, l2, errs, a1, KrOk, b. auto.
      * rewrite E in H. rewrite (decrypt_on_list_first _ _ _ _ _ _ _ _ _ _ _ _ _ N K ltac:(discriminate) B) in H. injection H as <- <-.
        exists l1, k, l2, errs, a1, (KrErr e), b. auto.
      * exfalso. apply U. rewrite E in H. clear - N K H. 
        rewrite (decrypt_on_list_ub _ _ _ _ _ l2 _ _ _ _ KrOk N K) in H. congruence.
    + destruct X as [->|X]; [|congruence]. exfalso. apply U. rewrite E in H. clear - N K H.
      rewrite (decrypt_on_list_ub _ _ _ _ _ l2 _ _ _ _ KrOk N K) in H. congruence.
Qed.
