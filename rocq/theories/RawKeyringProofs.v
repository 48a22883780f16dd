(** Proofs of the properties of the raw keyrings and the default CMM. *)
From Verif Require Import Base AlgModel EncCtxModel HdrModel FrameModel CryptoModel SessionModel KeyringModel
  BaseProofs WireSpec SessionSpec StreamSpec KeyringSpec EncCtxProofs HdrProofs KeyringProofs.
From Coq Require Import Permutation ZArith ZifyBool ZifyNat ZifyN.
Import List.
Open Scope list_scope.
Open Scope N_scope.

(** ** Raw AES: additional data and provider info *)
Lemma aad_spec : forall alloc ctx aad, serialize_aad_init alloc ctx = Ok aad <->
  alloc = None /\ ctx_fits ctx /\ aad = wire_ctx (ctx_sort ctx).
Proof.
  intros alloc ctx aad. unfold serialize_aad_init, bind.
  destruct (enc_ctx_size ctx) as [n|e] eqn:Z.
  - apply enc_ctx_size_ok in Z as [-> F]. destruct alloc; [split; [discriminate|intros (X & _); discriminate]|].
    rewrite serialize_spec. unfold ctx_fits in F.
    destruct (N.ltb_spec 65535 (Nlen (wire_ctx ctx))); [lia|].
    rewrite N.add_0_l, N.leb_refl, orb_true_r. split; [intros E; injection E as <-; auto|intros (_ & _ & ->); auto].
  - split; [discriminate|]. intros (_ & F & _).
    assert (X : enc_ctx_size ctx = Ok (Nlen (wire_ctx ctx))) by (apply enc_ctx_size_ok; auto). congruence.
Qed.
Lemma sort_aad : forall ctx, distinct_keys ctx -> ctx_fits ctx -> ctx_aad ctx (wire_ctx (ctx_sort ctx)).
Proof.
  intros ctx D F. exists (ctx_sort ctx). split; [apply ctx_sort_perm|]. split; [now apply ctx_sort_sorted|].
  split; auto. unfold ctx_fits in *. rewrite (Nlen_wire_ctx_perm _ _ (ctx_sort_perm ctx)). auto.
Qed.
Lemma aad_sort : forall ctx aad, distinct_keys ctx -> ctx_aad ctx aad -> ctx_fits ctx /\ aad = wire_ctx (ctx_sort ctx).
Proof.
  intros ctx aad D (s & P & S & F & ->). split.
  - unfold ctx_fits in *. now rewrite <- (Nlen_wire_ctx_perm _ _ P).
  - f_equal. apply sorted_perm_eq; auto using ctx_sort_sorted.
    transitivity ctx; auto. symmetry. apply ctx_sort_perm.
Qed.
Lemma aad_perm : forall c d aad, Permutation c d -> ctx_aad c aad -> ctx_aad d aad.
Proof. intros c d aad P (s & Q & R). exists s. split; [now transitivity c|exact R]. Qed.
Lemma aad_inj : forall c d aad, distinct_keys c -> distinct_keys d -> ctx_aad c aad -> ctx_aad d aad -> Permutation c d.
Proof.
  intros c d aad C D (s & P & _ & F & ->) (s' & P' & _ & F' & E).
  assert (DS : distinct_keys s) by (eapply distinct_perm; [symmetry; exact P|auto]).
  assert (DS' : distinct_keys s') by (eapply distinct_perm; [symmetry; exact P'|auto]).
  destruct (ctx_fits_pairs _ F) as [X1 X2]. destruct (ctx_fits_pairs _ F') as [Y1 Y2].
  assert (s = s').
  { pose proof (Nlen_wire_ctx s) as L1. pose proof (Nlen_wire_ctx s') as L2. rewrite E in L1.
    destruct s as [|x s]; destruct s' as [|x' s']; auto; try lia.
    destruct (wire_ctx_inj_ok (x :: s) (x' :: s') [] []) as [X _]; auto; try (unfold count_fits; rewrite Nlen_cons in *; lia).
    now rewrite E. }
  subst s'. transitivity s; [now symmetry|auto].
Qed.

Lemma info_spec : forall name iv, Nlen iv = 12 -> serialize_provider_info name iv = aes_info name iv.
Proof. intros name iv L. unfold serialize_provider_info, aes_info, RAW_AES_KR_TAG_LEN, RAW_AES_KR_IV_LEN. reflexivity. Qed.
Lemma parse_info : forall name iv, Nlen iv = 12 -> parse_provider_info name (aes_info name iv) = Some iv.
Proof.
  intros name iv L. unfold parse_provider_info, aes_info.
  rewrite !Nlen_app, Nlen_u32, Nlen_u32, L.
  replace (Nlen name + RAW_AES_KR_IV_LEN + 8 =? Nlen name + (4 + (4 + 12))) with true
    by (symmetry; apply N.eqb_eq; unfold RAW_AES_KR_IV_LEN; lia).
  cbn [negb]. rewrite read_bytes_app, bytes_eqb_refl. cbn [negb].
  rewrite read_u32 by lia. unfold RAW_AES_KR_TAG_LEN. cbn [N.mul]. change (128 =? 16 * 8) with true. cbn [negb].
  rewrite read_u32 by lia. unfold RAW_AES_KR_IV_LEN. reflexivity.
Qed.
Lemma parse_info_inv : forall name info iv, bytes_ok info -> parse_provider_info name info = Some iv ->
  info = aes_info name iv /\ Nlen iv = 12.
Proof.
  intros name info iv B H. unfold parse_provider_info in H.
  destruct (N.eqb_spec (Nlen name + RAW_AES_KR_IV_LEN + 8) (Nlen info)) as [E|]; [|discriminate]. cbn [negb] in H.
  destruct (read_bytes (Nlen name) info) as [[mk cur]|] eqn:R1; [|discriminate].
  destruct (read_bytes_inv_ok _ _ _ _ B R1) as (E1 & L1 & B2).
  destruct (bytes_eqb name mk) eqn:Q; [|discriminate]. cbn [negb] in H. apply bytes_eqb_spec in Q. subst mk.
  destruct (read_be 4 cur) as [[tl cur2]|] eqn:R2; [|discriminate].
  destruct (N.eqb_spec tl (RAW_AES_KR_TAG_LEN * 8)) as [->|]; [|discriminate]. cbn [negb] in H.
  destruct (read_u32_inv _ _ _ B2 R2) as (E2 & _ & B3).
  destruct (read_be 4 cur2) as [[il cur3]|] eqn:R3; [|discriminate].
  destruct (N.eqb_spec il RAW_AES_KR_IV_LEN) as [->|]; [|discriminate]. cbn [negb] in H. injection H as <-.
  destruct (read_u32_inv _ _ _ B3 R3) as (E3 & _ & B4).
  subst. split; [reflexivity|]. rewrite !Nlen_app, !Nlen_u32 in E. unfold RAW_AES_KR_IV_LEN in *. lia.
Qed.

Lemma app_inv_length : forall A (a b c d : list A), a ++ b = c ++ d -> List.length a = List.length c -> a = c /\ b = d.
Proof. induction a as [|x a IH]; intros b [|y c] d E L; cbn in *; try discriminate; auto. injection E as -> E. injection L as L. destruct (IH _ _ _ E L) as [-> ->]. auto. Qed.

(** ** Raw AES: decryption *)
Definition edk_bytes (e : edk) : Prop := bytes_ok (edk_provider_info e).

Lemma key_ok_b : forall k, raw_aes_ok k -> aes_key_len_ok (ra_key k) = true.
Proof. intros k (_ & H). unfold aes_key_len_ok. destruct H as [->|[->| ->]]; reflexivity. Qed.

Lemma aes_try_spec : forall cr k ctx alg e dk, raw_aes_ok k -> distinct_keys ctx -> ctx_fits ctx -> edk_bytes e -> 
  (aes_try_edk cr k (suite_key_len alg) (wire_ctx (ctx_sort ctx)) e = Some dk <-> aes_opens cr k ctx alg e dk).
Proof.
  intros cr k ctx alg e dk KO D F B. unfold aes_try_edk, aes_opens. split.
  - destruct (_ || _) eqn:Z; [discriminate|].
    destruct (bytes_eqb (ra_ns k) (edk_provider_id e)) eqn:Q; [|discriminate]. cbn [negb]. apply bytes_eqb_spec in Q.
    destruct (parse_provider_info (ra_name k) (edk_provider_info e)) as [iv|] eqn:P; [|discriminate].
    destruct (N.eqb_spec (suite_key_len alg + RAW_AES_KR_TAG_LEN) (Nlen (edk_ciphertext e))) as [L|]; [|discriminate]. cbn [negb].
    unfold aes_gcm_decrypt. rewrite key_ok_b by auto. cbn [negb orb].
    destruct (parse_info_inv _ _ _ B P) as [I IL]. rewrite IL. change (negb (12 =? 12)) with false. cbn [orb].
    match goal with |- context [if ?x then Err E_INVALID_BUFFER_SIZE else _] => destruct x; [discriminate|] end.
    destruct (cr_dec _ _ _ _ _ _) as [p| |] eqn:O; try discriminate. intros E. assert (p = dk) by congruence. subst p.
    exists iv, (wire_ctx (ctx_sort ctx)), (firstn (N.to_nat (suite_key_len alg)) (edk_ciphertext e)),
      (skipn (N.to_nat (suite_key_len alg)) (edk_ciphertext e)).
    unfold RAW_AES_KR_TAG_LEN in L.
    split; [congruence|]. split; [exact I|]. split; [exact IL|]. split; [now rewrite firstn_skipn|].
    split; [apply Nlen_firstn; lia|]. split; [rewrite Nlen_skipn; lia|]. split; [now apply sort_aad|exact O].
  - intros (iv & aad & c & t & Q & I & IL & CT & CL & TL & A & O).
    destruct (aad_sort _ _ D A) as [_ ->]. destruct KO as [NS KL].
    rewrite Q, I, CT, !Nlen_app. unfold aes_info. rewrite !Nlen_app, !Nlen_u32, IL, CL, TL.
    destruct (N.eqb_spec (Nlen (ra_ns k)) 0) as [Z|_]; [apply Nlen_0 in Z; contradiction|].
    destruct (N.eqb_spec (Nlen (ra_name k) + (4 + (4 + 12))) 0); [lia|].
    destruct (N.eqb_spec (suite_key_len alg + 16) 0); [lia|]. cbn [orb].
    rewrite bytes_eqb_refl. cbn [negb]. fold (aes_info (ra_name k) iv). rewrite parse_info by auto.
    unfold RAW_AES_KR_TAG_LEN. rewrite N.eqb_refl. cbn [negb].
    replace (firstn (N.to_nat (suite_key_len alg)) (c ++ t)) with c.
    2:{ rewrite <- CL, firstn_app. unfold Nlen. rewrite Nat2N.id, firstn_all, Nat.sub_diag. cbn. now rewrite app_nil_r. }
    replace (skipn (N.to_nat (suite_key_len alg)) (c ++ t)) with t.
    2:{ rewrite <- CL, skipn_app. unfold Nlen. rewrite Nat2N.id, skipn_all, Nat.sub_diag. reflexivity. }
    unfold aes_gcm_decrypt. rewrite key_ok_b by (split; auto). rewrite IL, TL, CL. 
    destruct (N.ltb_spec (suite_key_len alg) (suite_key_len alg)); [lia|]. change (12 =? 12) with true. change (16 =? 16) with true. cbn [negb orb].
    rewrite O. reflexivity.
Qed.

Lemma aes_first_spec : forall cr k ctx alg edks, raw_aes_ok k -> distinct_keys ctx -> ctx_fits ctx -> Forall edk_bytes edks ->
  match aes_first_edk cr k (suite_key_len alg) (wire_ctx (ctx_sort ctx)) edks with
  | None => forall e dk, In e edks -> ~ aes_opens cr k ctx alg e dk
  | Some dk => exists l1 e l2, edks = l1 ++ e :: l2 /\ aes_opens cr k ctx alg e dk /\
                 forall e' dk', In e' l1 -> ~ aes_opens cr k ctx alg e' dk'
  end.
Proof.
  intros cr k ctx alg edks KO D F. induction edks as [|e edks IH]; intros B; [intros ? ? []|].
  inversion B as [|? ? B1 B2]; subst. cbn [aes_first_edk].
  destruct (aes_try_edk cr k (suite_key_len alg) (wire_ctx (ctx_sort ctx)) e) as [dk|] eqn:T.
  - apply aes_try_spec in T; auto. exists [], e, edks. split; [auto|]. split; [auto|]. intros ? ? [].
  - assert (NO : forall dk, ~ aes_opens cr k ctx alg e dk).
    { intros dk O. apply aes_try_spec in O; auto. congruence. }
    specialize (IH B2). destruct (aes_first_edk _ _ _ _ edks) as [dk|].
    + destruct IH as (l1 & e1 & l2 & -> & O & N). exists (e :: l1), e1, l2. split; [auto|]. split; [auto|].
      intros e' dk' [->|I]; [apply NO|now apply N].
    + intros e' dk' [->|I]; [apply NO|now apply IH].
Qed.

Lemma C43_search_lemma : forall cr k ke edks ctx alg d, raw_aes_ok k -> suite alg -> distinct_keys ctx -> ctx_fits ctx ->
  Forall (fun e => bytes_ok (edk_provider_info e)) edks -> ke_fail ke 0 = None -> ke_fail ke 1 = None -> crypto_sizes cr -> da_key d = None ->
  exists d', keyring_on_decrypt (raw_aes_keyring cr k ke) edks ctx alg d = (d', KrOk) /\
  match da_key d' with
  | None => da_trace d' = da_trace d /\ forall e dk, In e edks -> ~ aes_opens cr k ctx alg e dk
  | Some b => (ke_fail ke 2 = None -> da_trace d' = da_trace d ++ [mk_trace_rec (ra_ns k) (ra_name k) 20]) /\
      exists l1 e l2, edks = l1 ++ e :: l2 /\ aes_opens cr k ctx alg e (kb_bytes b) /\
              forall e' dk', In e' l1 -> ~ aes_opens cr k ctx alg e' dk'
  end.
Proof.
  intros cr k ke edks ctx alg d KO SU D F B M0 M1 SZ DK. unfold keyring_on_decrypt. rewrite DK. cbn [kr_decrypt raw_aes_keyring].
  unfold raw_aes_on_decrypt.
  assert (A : serialize_aad_init (ke_fail ke 0) ctx = Ok (wire_ctx (ctx_sort ctx))) by (apply aad_spec; auto).
  rewrite A. destruct (lookup_suite _ SU) as (p & L). rewrite L, M1. destruct (suite_lookup _ _ L) as (_ & -> & _).
  pose proof (aes_first_spec cr k ctx alg edks KO D F B) as S.
  destruct (aes_first_edk _ _ _ _ edks) as [dk|]; cbn [da_key da_trace].
  - assert (KL : key_len_ok alg (mk_kbuf (ke_meta ke) dk) = true).
    { apply key_len_ok_spec. split; auto. cbn. destruct S as (l1 & e & l2 & _ & (iv & aad & c & t & _ & _ & _ & _ & CL & _ & _ & O) & _).
      destruct SZ as (_ & SZ & _). rewrite (SZ _ _ _ _ _ _ O). auto. }
    rewrite KL. eexists. split; [reflexivity|]. cbn. split; [|exact S]. intros ->. reflexivity.
  - eexists. split; [reflexivity|]. cbn. auto.
Qed.

(** ** Raw AES: encryption *)
Lemma aes_wrap_inv : forall cr k ke dk dlen edks ctx iv edks' r, aes_wrap cr k ke dk dlen edks ctx iv = (edks', r) ->
  match r with
  | Err _ => edks' = edks
  | Ok _ => exists c t, cr_enc cr (ra_key k) iv (wire_ctx (ctx_sort ctx)) dk = Some (c, t) /\ ctx_fits ctx /\
       Nlen dk <= dlen /\ aes_key_len_ok (ra_key k) = true /\ Nlen iv = 12 /\
       edks' = edks ++ [mk_edk (ra_ns k) (serialize_provider_info (ra_name k) iv) (c ++ ke_junk ke (dlen - Nlen c) ++ t)]
  end.
Proof.
  intros cr k ke dk dlen edks ctx iv edks' r H. unfold aes_wrap in H.
  destruct (serialize_aad_init (ke_fail ke 3) ctx) as [aad|e] eqn:A; [|injection H as <- <-; auto].
  apply aad_spec in A as (_ & F & ->).
  destruct (ke_fail ke 4); [injection H as <- <-; auto|].
  unfold aes_gcm_encrypt in H. destruct (_ || _) eqn:Z; [injection H as <- <-; auto|].
  destruct (cr_enc _ _ _ _ _) as [[c t]|] eqn:E; [|injection H as <- <-; auto].
  repeat (destruct (ke_fail ke _); [injection H as <- <-; auto|]). injection H as <- <-.
  exists c, t. apply orb_false_elim in Z as [Z1 Z3]. apply orb_false_elim in Z1 as [Z1 Z2].
  apply negb_false_iff in Z1, Z2. apply N.eqb_eq in Z2. apply N.ltb_ge in Z3. auto 10.
Qed.

Definition random_key (w : wrap_call) := wc_data_key w.

Lemma aes_encrypt_inv : forall cr k ke ctx alg a a', raw_aes_on_encrypt cr k ke ctx alg a = (a', KrOk) -> suite alg /\
  exists b c t, ka_key a' = Some b /\ (forall b0, ka_key a = Some b0 -> b = b0) /\
    (ka_key a = None -> kb_bytes b = ke_rand ke 2 (suite_key_len alg)) /\
    cr_enc cr (ra_key k) (ke_rand ke 0 12) (wire_ctx (ctx_sort ctx)) (kb_bytes b) = Some (c, t) /\ ctx_fits ctx /\
    Nlen (kb_bytes b) <= suite_key_len alg /\ aes_key_len_ok (ra_key k) = true /\ Nlen (ke_rand ke 0 12) = 12 /\
    ka_edks a' = ka_edks a ++ [mk_edk (ra_ns k) (serialize_provider_info (ra_name k) (ke_rand ke 0 12))
                                 (c ++ ke_junk ke (suite_key_len alg - Nlen c) ++ t)] /\
    (ke_fail ke 8 = None -> ka_trace a' = ka_trace a ++ [mk_trace_rec (ra_ns k) (ra_name k) (match ka_key a with None => 11 | Some _ => 10 end)]).
Proof.
  intros cr k ke ctx alg a a' H. unfold raw_aes_on_encrypt in H.
  destruct (alg_lookup alg) as [p|] eqn:L; [|discriminate]. destruct (suite_lookup _ _ L) as (S & DL & _). split; [exact S|].
  rewrite DL in H. cbv zeta in H. unfold genrandom in H. destruct (ke_fail ke 0); [discriminate|].
  change RAW_AES_KR_IV_LEN with 12 in H.
  destruct (ka_key a) as [b0|] eqn:K.
  - destruct (aes_wrap _ _ _ _ _ _ _ _) as [edks r] eqn:W. destruct r; [|discriminate].
    apply aes_wrap_inv in W as (c & t & E & F & LE & KL & IL & ->). injection H as <-. cbn [ka_key ka_edks ka_trace].
    exists b0, c, t. repeat (split; [first [assumption|reflexivity|congruence]|]).
    intros ->. reflexivity.
  - destruct (ke_fail ke 1); [discriminate|]. destruct (ke_fail ke 2); [discriminate|].
    destruct (aes_wrap _ _ _ _ _ _ _ _) as [edks r] eqn:W. destruct r; [|discriminate].
    apply aes_wrap_inv in W as (c & t & E & F & LE & KL & IL & ->). injection H as <-. cbn [ka_key ka_edks ka_trace].
    eexists _, c, t. split; [reflexivity|]. cbn [kb_bytes]. split; [discriminate|].
    repeat (split; [first [assumption|reflexivity|congruence]|]).
    intros ->. reflexivity.
Qed.

Lemma bytes_ok_u32 : forall n, n < 4294967296 -> bytes_ok (u32 n).
Proof. intros n H. rewrite <- be4 by auto. apply be_bytes_ok. Qed.

Lemma C43_lemma : forall cr k ke ctx alg a a', crypto_sizes cr -> dec_inverts cr -> random_sizes ke -> raw_aes_ok k -> distinct_keys ctx ->
  (forall b, ka_key a = Some b -> Nlen (kb_bytes b) = suite_key_len alg) ->
  keyring_on_encrypt (raw_aes_keyring cr k ke) ctx alg a = (a', KrOk) ->
  exists b e, ka_key a' = Some b /\ (forall b0, ka_key a = Some b0 -> b = b0) /\ ka_edks a' = ka_edks a ++ [e] /\
    Nlen (kb_bytes b) = suite_key_len alg /\
    (ke_fail ke 8 = None -> ka_trace a' = ka_trace a ++ [mk_trace_rec (ra_ns k) (ra_name k) (match ka_key a with None => 11 | Some _ => 10 end)]) /\
    forall ke2 ctx2 l1 l2 d, ke_fail ke2 0 = None -> ke_fail ke2 1 = None -> da_key d = None -> Permutation ctx2 ctx ->
      bytes_ok (ra_name k) -> bytes_ok (ke_rand ke 0 12) -> Forall (fun e => bytes_ok (edk_provider_info e)) (l1 ++ l2) ->
      (forall e' dk', In e' l1 -> ~ aes_opens cr k ctx alg e' dk') ->
      exists d' b', keyring_on_decrypt (raw_aes_keyring cr k ke2) (l1 ++ e :: l2) ctx2 alg d = (d', KrOk) /\
        da_key d' = Some b' /\ kb_bytes b' = kb_bytes b.
Proof.
  intros cr k ke ctx alg a a' SZ DI [RS J] KO D PRE H.
  apply on_encrypt_inv in H as [_ H]. destruct (H eq_refl) as ((f & Ef & H') & _ & _ & _). cbn in Ef. injection Ef as <-. clear H.
  destruct (aes_encrypt_inv _ _ _ _ _ _ _ H') as (SU & b & c & t & K & SAME & GEN & E & F & LE & KL & IL & ED & TRC).
  assert (BL : Nlen (kb_bytes b) = suite_key_len alg).
  { destruct (ka_key a) as [b0|] eqn:K0; [rewrite (SAME _ eq_refl); auto|rewrite GEN by auto; apply RS]. }
  destruct SZ as (SZ1 & SZ2 & SZ3). destruct (SZ1 _ _ _ _ _ _ E) as [CL TL].
  rewrite CL, BL, N.sub_diag in ED.
  rewrite (Nlen_0 _ _ (J 0)) in ED. cbn [app] in ED. rewrite info_spec in ED by auto.
  eexists b, _. split; [exact K|]. split; [exact SAME|]. split; [exact ED|]. split; [exact BL|]. split; [exact TRC|].
  intros ke2 ctx2 l1 l2 d M0 M1 DK P BN BI BL12 NO.
  set (e := mk_edk _ _ _) in *.
  assert (D2 : distinct_keys ctx2) by (eapply distinct_perm; [symmetry; exact P|auto]).
  assert (F2 : ctx_fits ctx2) by (unfold ctx_fits in *; now rewrite (Nlen_wire_ctx_perm _ _ P)).
  assert (BE : bytes_ok (edk_provider_info e)).
  { unfold e, aes_info. cbn [edk_provider_info]. rewrite !bytes_ok_app. split; [exact BN|].
    split; [apply bytes_ok_u32; lia|]. split; [apply bytes_ok_u32; lia|exact BI]. }
  apply Forall_app in BL12 as [B1 B2].
  assert (BA : Forall (fun e => bytes_ok (edk_provider_info e)) (l1 ++ e :: l2)) by (apply Forall_app; split; auto).
  assert (O : aes_opens cr k ctx alg e (kb_bytes b)).
  { exists (ke_rand ke 0 12), (wire_ctx (ctx_sort ctx)), c, t. unfold e. cbn [edk_provider_id edk_provider_info edk_ciphertext].
    repeat (split; [first [assumption|reflexivity|congruence]|]). split; [now apply sort_aad|]. now apply DI. }
  assert (OP : forall e dk, aes_opens cr k ctx2 alg e dk -> aes_opens cr k ctx alg e dk).
  { intros e0 dk0 (iv & aad & c0 & t0 & Q1 & Q2 & Q3 & Q4 & Q5 & Q6 & Q7 & Q8). exists iv, aad, c0, t0.
    repeat (split; [assumption|]). split; [eapply aad_perm; eauto|auto]. }
  assert (OP' : forall e dk, aes_opens cr k ctx alg e dk -> aes_opens cr k ctx2 alg e dk).
  { intros e0 dk0 (iv & aad & c0 & t0 & Q1 & Q2 & Q3 & Q4 & Q5 & Q6 & Q7 & Q8). exists iv, aad, c0, t0.
    repeat (split; [assumption|]). split; [eapply aad_perm; [symmetry; exact P|eauto]|auto]. }
  destruct (C43_search_lemma cr k ke2 (l1 ++ e :: l2) ctx2 alg d KO SU D2 F2 BA M0 M1 (conj SZ1 (conj SZ2 SZ3)) DK) as (d' & R & S).
  exists d'. destruct (da_key d') as [b'|] eqn:DB.
  - exists b'. split; [exact R|]. split; [reflexivity|]. destruct S as (_ & m1 & e1 & m2 & EQ & O1 & N1).
    assert (X : l1 = m1 /\ e :: l2 = e1 :: m2).
    { clear - EQ NO N1 O O1 OP OP'. revert l1 NO EQ N1. induction m1 as [|x m1 IH]; intros l1 NO EQ N1.
      - destruct l1 as [|y l1]; [auto|]. cbn in EQ. injection EQ as -> _. exfalso. apply (NO e1 (kb_bytes b')); [now left|auto].
      - destruct l1 as [|y l1]; cbn in EQ.
        + injection EQ as -> _. exfalso. apply (N1 x (kb_bytes b)); [now left|auto].
        + injection EQ as -> EQ. destruct (IH l1) as [-> ->]; auto.
          * intros e' dk' I. apply NO. now right.
          * intros e' dk' I. apply N1. now right. }
    destruct X as [<- X]. injection X as <- <-.
    apply OP in O1. destruct O as (iv & aad & c0 & t0 & Q1 & Q2 & Q3 & Q4 & Q5 & Q6 & Q7 & Q8).
    destruct O1 as (iv1 & aad1 & c1 & t1 & P1 & P2 & P3 & P4 & P5 & P6 & P7 & P8).
    rewrite Q2 in P2. unfold aes_info in P2. apply app_inv_head in P2. apply app_inv_head in P2. apply app_inv_head in P2. subst iv1.
    destruct (aad_sort _ _ D Q7) as [_ ->]. destruct (aad_sort _ _ D P7) as [_ ->].
    rewrite Q4 in P4. 
    assert (Y : c0 = c1 /\ t0 = t1).
    { apply app_inv_length; auto. unfold Nlen in *. lia. }
    destruct Y as [<- <-]. congruence.
  - exfalso. destruct S as [_ S]. apply (S e (kb_bytes b)); [apply in_or_app; right; now left|auto].
Qed.

(** ** Raw AES: binding to the context *)
Lemma C44_lemma : forall cr k ke edks ctx alg d d' b calls, raw_aes_ok k -> distinct_keys ctx ->
  Forall (fun w => distinct_keys (wc_ctx w)) calls -> Forall (fun e => bytes_ok (edk_provider_info e)) edks ->
  (forall iv aad c t p, cr_dec cr (ra_key k) iv aad c t = OpenOk p -> exists w, In w calls /\ wc_seals w iv aad p) ->
  keyring_on_decrypt (raw_aes_keyring cr k ke) edks ctx alg d = (d', KrOk) -> da_key d' = Some b ->
  exists w, In w calls /\ same_map (wc_ctx w) ctx /\ kb_bytes b = wc_data_key w.
Proof.
  intros cr k ke edks ctx alg d d' b calls KO D DC B IDEAL H K.
  apply on_decrypt_inv in H as [_ H]. destruct (H eq_refl) as (DK & (f & Ef & H') & _). cbn in Ef. injection Ef as <-. clear H.
  unfold raw_aes_on_decrypt in H'. destruct (serialize_aad_init (ke_fail ke 0) ctx) as [aad|] eqn:A; [|discriminate].
  apply aad_spec in A as (_ & F & ->). destruct (alg_lookup alg) as [p|] eqn:L; [|discriminate].
  destruct (suite_lookup _ _ L) as (_ & DL & _). rewrite DL in H'.
  destruct (ke_fail ke 1); [discriminate|].
  pose proof (aes_first_spec cr k ctx alg edks KO D F B) as S.
  destruct (aes_first_edk _ _ _ _ edks) as [dk|]; injection H' as <-; cbn in K; [|discriminate].
  injection K as <-. cbn. destruct S as (l1 & e & l2 & _ & (iv & aad & c & t & _ & _ & _ & _ & _ & _ & AD & O) & _).
  destruct (IDEAL _ _ _ _ _ O) as (w & I & _ & AW & ->). exists w. split; [auto|]. split; [|auto].
  rewrite Forall_forall in DC. specialize (DC w I).
  apply same_map_perm; auto. eapply aad_inj; eauto.
Qed.

Lemma C44_seals_lemma : forall cr cr' k ke ctx alg a, distinct_keys ctx ->
  (forall iv aad p, wc_seals (mk_wrap_call ke ctx alg (ka_key a)) iv aad p ->
     cr_enc cr (ra_key k) iv aad p = cr_enc cr' (ra_key k) iv aad p) ->
  raw_aes_on_encrypt cr k ke ctx alg a = raw_aes_on_encrypt cr' k ke ctx alg a.
Proof.
  intros cr cr' k ke ctx alg a D H. unfold raw_aes_on_encrypt.
  destruct (alg_lookup alg) as [p|] eqn:L; auto. destruct (suite_lookup _ _ L) as (_ & DL & _). rewrite DL.
  unfold genrandom. destruct (ke_fail ke 0); auto. change RAW_AES_KR_IV_LEN with 12.
  assert (W : forall b edks, kb_bytes b = wc_data_key (mk_wrap_call ke ctx alg (ka_key a)) ->
    aes_wrap cr k ke (kb_bytes b) (suite_key_len alg) edks ctx (ke_rand ke 0 12) =
    aes_wrap cr' k ke (kb_bytes b) (suite_key_len alg) edks ctx (ke_rand ke 0 12)).
  { intros b edks E. unfold aes_wrap. destruct (serialize_aad_init (ke_fail ke 3) ctx) as [aad|] eqn:A; auto.
    apply aad_spec in A as (_ & F & ->). unfold aes_gcm_encrypt.
    rewrite (H (ke_rand ke 0 12) (wire_ctx (ctx_sort ctx)) (kb_bytes b)); auto.
    split; [reflexivity|]. split; [now apply sort_aad|auto]. }
  destruct (ka_key a) as [b0|] eqn:K.
  - rewrite W by reflexivity. reflexivity.
  - destruct (ke_fail ke 1); auto. destruct (ke_fail ke 2); auto. rewrite W by reflexivity. reflexivity.
Qed.
Lemma C44_data_key_lemma : forall cr k ke ctx alg a a', raw_aes_on_encrypt cr k ke ctx alg a = (a', KrOk) ->
  exists b, ka_key a' = Some b /\ kb_bytes b = wc_data_key (mk_wrap_call ke ctx alg (ka_key a)).
Proof.
  intros cr k ke ctx alg a a' H. destruct (aes_encrypt_inv _ _ _ _ _ _ _ H) as (_ & b & c & t & K & S & G & _).
  exists b. split; auto. unfold wc_data_key. cbn. destruct (ka_key a); [now rewrite (S _ eq_refl)|auto].
Qed.

(** ** Raw RSA *)
Lemma rsa_pad_ok : forall k, raw_rsa_ok k -> pad_ok (rr_pad k) = true.
Proof. intros k (_ & _ & [->|[->| ->]]); reflexivity. Qed.
Lemma rsa_try_spec : forall rs k priv e dk, raw_rsa_ok k -> (rsa_try_edk rs k priv e = Some dk <-> rsa_opens rs k priv e dk).
Proof.
  intros rs k priv e dk KO. unfold rsa_try_edk, rsa_opens, rsa_decrypt. rewrite rsa_pad_ok by auto. cbn [negb].
  destruct KO as (NS & NM & _). split.
  - destruct (_ || _) eqn:Z; [discriminate|]. apply orb_false_elim in Z as [_ Z]. apply N.eqb_neq in Z.
    destruct (bytes_eqb (rr_ns k) (edk_provider_id e)) eqn:Q; [|discriminate]. apply bytes_eqb_spec in Q.
    destruct (bytes_eqb (rr_name k) (edk_provider_info e)) eqn:Q2; [|discriminate]. apply bytes_eqb_spec in Q2. cbn [negb].
    destruct (rs_dec rs (rr_pad k) priv (edk_ciphertext e)) eqn:O; [|discriminate]. intros E. 
    split; [congruence|]. split; [congruence|]. split; [|congruence]. intros X. rewrite X in Z. now apply Z.
  - intros (-> & -> & C & O). rewrite O, !bytes_eqb_refl.
    destruct (N.eqb_spec (Nlen (rr_ns k)) 0) as [Z|_]; [apply Nlen_0 in Z; contradiction|].
    destruct (N.eqb_spec (Nlen (rr_name k)) 0) as [Z|_]; [apply Nlen_0 in Z; contradiction|].
    destruct (N.eqb_spec (Nlen (edk_ciphertext e)) 0) as [Z|_]; [apply Nlen_0 in Z; contradiction|]. reflexivity.
Qed.
Lemma rsa_first_spec : forall rs k priv edks, raw_rsa_ok k ->
  match rsa_first_edk rs k priv edks with
  | None => forall e dk, In e edks -> ~ rsa_opens rs k priv e dk
  | Some dk => exists l1 e l2, edks = l1 ++ e :: l2 /\ rsa_opens rs k priv e dk /\
                 forall e' dk', In e' l1 -> ~ rsa_opens rs k priv e' dk'
  end.
Proof.
  intros rs k priv edks KO. induction edks as [|e edks IH]; [intros ? ? []|]. cbn [rsa_first_edk].
  destruct (rsa_try_edk rs k priv e) as [dk|] eqn:T.
  - apply rsa_try_spec in T; auto. exists [], e, edks. split; [auto|]. split; [auto|]. intros ? ? [].
  - assert (NO : forall dk, ~ rsa_opens rs k priv e dk) by (intros dk O; apply rsa_try_spec in O; [congruence|auto]).
    destruct (rsa_first_edk rs k priv edks) as [dk|].
    + destruct IH as (l1 & e1 & l2 & -> & O & N). exists (e :: l1), e1, l2. split; [auto|]. split; [auto|].
      intros e' dk' [->|I]; [apply NO|now apply N].
    + intros e' dk' [->|I]; [apply NO|now apply IH].
Qed.

Lemma C45_search_lemma : forall rs k ke priv edks ctx alg d, raw_rsa_ok k -> rr_priv k = Some priv -> suite alg -> da_key d = None ->
  exists d' rc, keyring_on_decrypt (raw_rsa_keyring rs k ke) edks ctx alg d = (d', rc) /\
  match da_key d' with
  | None => rc = KrOk /\ d' = d /\ forall e dk, In e edks -> ~ rsa_opens rs k priv e dk
  | Some b => rc = (if Nlen (kb_bytes b) =? suite_key_len alg then KrOk else KrErr E_BAD_CIPHERTEXT) /\
      (ke_fail ke 0 = None -> da_trace d' = da_trace d ++ [mk_trace_rec (rr_ns k) (rr_name k) 4]) /\
      exists l1 e l2, edks = l1 ++ e :: l2 /\ rsa_opens rs k priv e (kb_bytes b) /\
              forall e' dk', In e' l1 -> ~ rsa_opens rs k priv e' dk'
  end.
Proof.
  intros rs k ke priv edks ctx alg d KO PR SU DK. unfold keyring_on_decrypt. rewrite DK. cbn [kr_decrypt raw_rsa_keyring].
  unfold raw_rsa_on_decrypt. rewrite PR, DK. pose proof (rsa_first_spec rs k priv edks KO) as S.
  destruct (rsa_first_edk rs k priv edks) as [dk|]; cbn [da_key].
  - exists (mk_dargs (Some (mk_kbuf (ke_meta ke) dk))
              (add_record (no_failure (ke_fail ke 0)) (da_trace d) (rr_ns k) (rr_name k) FLAG_DECRYPTED)).
    exists (if Nlen dk =? suite_key_len alg then KrOk else KrErr E_BAD_CIPHERTEXT). cbn [da_key da_trace kb_bytes]. split.
    + unfold key_len_ok. destruct (lookup_suite _ SU) as (p & L). rewrite L. destruct (suite_lookup _ _ L) as (_ & -> & _). cbn [kb_bytes].
      now destruct (Nlen dk =? suite_key_len alg).
    + split; [reflexivity|]. split; [|exact S]. intros ->. reflexivity.
  - rewrite DK. exists d, KrOk. rewrite DK. auto.
Qed.

Lemma rsa_encrypt_inv : forall rs k ke ctx alg a a', raw_rsa_on_encrypt rs k ke ctx alg a = (a', KrOk) ->
  exists pub b c, rr_pub k = Some pub /\ ka_key a' = Some b /\ (forall b0, ka_key a = Some b0 -> b = b0) /\
    (ka_key a = None -> kb_bytes b = ke_rand ke 1 (suite_key_len alg)) /\
    rs_enc rs (rr_pad k) pub (ke_seed ke) (kb_bytes b) = Some c /\ ka_edks a' = ka_edks a ++ [mk_edk (rr_ns k) (rr_name k) c] /\
    (ke_fail ke 5 = None -> ka_trace a' = ka_trace a ++ [mk_trace_rec (rr_ns k) (rr_name k) (match ka_key a with None => 3 | Some _ => 2 end)]).
Proof.
  intros rs k ke ctx alg a a' H. unfold raw_rsa_on_encrypt in H.
  destruct (rr_pub k) as [pub|]; [|discriminate]. cbv zeta in H.
  assert (W : forall dk edks edks' r, rsa_wrap rs k ke pub dk edks = (edks', r) -> r = Ok tt ->
    exists c, rs_enc rs (rr_pad k) pub (ke_seed ke) dk = Some c /\ edks' = edks ++ [mk_edk (rr_ns k) (rr_name k) c]).
  { intros dk edks edks' r W ->. unfold rsa_wrap, rsa_encrypt in W. destruct (negb (pad_ok (rr_pad k))); [discriminate|].
    destruct (rs_enc _ _ _ _ _) as [c|]; [|discriminate].
    destruct (ke_fail ke 2); [discriminate|]. destruct (ke_fail ke 3); [discriminate|]. destruct (ke_fail ke 4); [discriminate|].
    injection W as <-. exists c. auto. }
  destruct (ka_key a) as [b0|] eqn:K.
  - destruct (rsa_wrap _ _ _ _ _ _) as [edks r] eqn:R. destruct r as [[]|]; [|discriminate].
    destruct (W _ _ _ _ R eq_refl) as (c & E & ->). injection H as <-. cbn [ka_key ka_edks ka_trace].
    exists pub, b0, c. repeat (split; [first [assumption|reflexivity|congruence]|]). intros ->. reflexivity.
  - destruct (alg_lookup alg) as [p|] eqn:L; [|discriminate]. destruct (suite_lookup _ _ L) as (_ & DL & _). rewrite DL in H.
    destruct (ke_fail ke 0); [discriminate|]. unfold genrandom in H. destruct (ke_fail ke 1); [discriminate|].
    destruct (rsa_wrap _ _ _ _ _ _) as [edks r] eqn:R. destruct r as [[]|]; [|discriminate].
    destruct (W _ _ _ _ R eq_refl) as (c & E & ->). injection H as <-. cbn [ka_key ka_edks ka_trace].
    eexists pub, _, c. split; [reflexivity|]. split; [reflexivity|]. cbn [kb_bytes]. split; [discriminate|].
    repeat (split; [first [assumption|reflexivity|congruence]|]). intros ->. reflexivity.
Qed.

Lemma C45_lemma : forall rs k ke ctx alg a a' k2 pub priv, random_sizes ke -> raw_rsa_ok k -> suite alg -> rsa_pair rs pub priv ->
  rr_pub k = Some pub -> rr_priv k2 = Some priv -> rr_ns k2 = rr_ns k -> rr_name k2 = rr_name k -> rr_pad k2 = rr_pad k ->
  (forall b, ka_key a = Some b -> Nlen (kb_bytes b) = suite_key_len alg) ->
  keyring_on_encrypt (raw_rsa_keyring rs k ke) ctx alg a = (a', KrOk) ->
  exists b e, ka_key a' = Some b /\ (forall b0, ka_key a = Some b0 -> b = b0) /\ ka_edks a' = ka_edks a ++ [e] /\
    Nlen (kb_bytes b) = suite_key_len alg /\
    (ke_fail ke 5 = None -> ka_trace a' = ka_trace a ++ [mk_trace_rec (rr_ns k) (rr_name k) (match ka_key a with None => 3 | Some _ => 2 end)]) /\
    forall ke2 ctx2 l1 l2 d, da_key d = None -> (forall e' dk', In e' l1 -> ~ rsa_opens rs k2 priv e' dk') ->
      exists d' b', keyring_on_decrypt (raw_rsa_keyring rs k2 ke2) (l1 ++ e :: l2) ctx2 alg d = (d', KrOk) /\
        da_key d' = Some b' /\ kb_bytes b' = kb_bytes b.
Proof.
  intros rs k ke ctx alg a a' k2 pub priv RS KO SU PAIR PU PR E1 E2 E3 PRE H.
  apply on_encrypt_inv in H as [_ H]. destruct (H eq_refl) as ((f & Ef & H') & _ & _ & _). cbn in Ef. injection Ef as <-. clear H.
  destruct (rsa_encrypt_inv _ _ _ _ _ _ _ H') as (pub' & b & c & PU' & K & SAME & GEN & E & ED & TRC).
  assert (pub' = pub) by congruence. subst pub'.
  assert (BL : Nlen (kb_bytes b) = suite_key_len alg).
  { destruct (ka_key a) as [b0|] eqn:K0; [rewrite (SAME _ eq_refl); auto|rewrite GEN by auto; apply RS]. }
  eexists b, _. split; [exact K|]. split; [exact SAME|]. split; [exact ED|]. split; [exact BL|]. split; [exact TRC|].
  intros ke2 ctx2 l1 l2 d DK NO. set (e := mk_edk _ _ _).
  destruct (PAIR _ _ _ _ E) as [CN CD].
  assert (O : rsa_opens rs k2 priv e (kb_bytes b)).
  { unfold rsa_opens, e. cbn. rewrite E3. repeat split; auto. }
  assert (KO2 : raw_rsa_ok k2) by (unfold raw_rsa_ok in *; now rewrite E1, E2, E3).
  destruct (C45_search_lemma rs k2 ke2 priv (l1 ++ e :: l2) ctx2 alg d KO2 PR SU DK) as (d' & rc & R & S).
  exists d'. destruct (da_key d') as [b'|] eqn:DB.
  - exists b'. destruct S as (RC & _ & m1 & e1 & m2 & EQ & O1 & N1).
    assert (X : l1 = m1 /\ e :: l2 = e1 :: m2).
    { clear - EQ NO N1 O O1. revert l1 NO EQ N1. induction m1 as [|x m1 IH]; intros l1 NO EQ N1.
      - destruct l1 as [|y l1]; [auto|]. cbn in EQ. injection EQ as -> _. exfalso. apply (NO e1 (kb_bytes b')); [now left|auto].
      - destruct l1 as [|y l1]; cbn in EQ.
        + injection EQ as -> _. exfalso. apply (N1 x (kb_bytes b)); [now left|auto].
        + injection EQ as -> EQ. destruct (IH l1) as [-> ->]; auto.
          * intros e' dk' I. apply NO. now right.
          * intros e' dk' I. apply N1. now right. }
    destruct X as [<- X]. injection X as <- <-.
    assert (EB : kb_bytes b' = kb_bytes b).
    { destruct O as (_ & _ & _ & O), O1 as (_ & _ & _ & O1). congruence. }
    rewrite EB, BL, N.eqb_refl in RC. subst rc. auto.
  - exfalso. destruct S as (_ & _ & S). apply (S e (kb_bytes b)); [apply in_or_app; right; now left|auto].
Qed.

Lemma C45_missing_lemma : forall rs k ke,
  (rr_pub k = None -> forall ctx alg a, keyring_on_encrypt (raw_rsa_keyring rs k ke) ctx alg a = (a, KrErr E_BAD_STATE)) /\
  (rr_priv k = None -> forall edks ctx alg d, keyring_on_decrypt (raw_rsa_keyring rs k ke) edks ctx alg d = (d, KrErr E_BAD_STATE)).
Proof.
  intros rs k ke. split.
  - intros N ctx alg a. unfold keyring_on_encrypt. cbn [kr_encrypt raw_rsa_keyring].
    unfold raw_rsa_on_encrypt. rewrite N. destruct (ka_key a) as [b|]; destruct (ka_edks a); auto;
    unfold same_buf; now rewrite !N.eqb_refl.
  - intros N edks ctx alg d. unfold keyring_on_decrypt. cbn [kr_decrypt raw_rsa_keyring].
    unfold raw_rsa_on_decrypt. rewrite N. destruct (da_key d); auto.
Qed.

(** ** Default CMM *)
Lemma choice_spec : forall c rq, suite_choice c rq (default_alg_choice c (rq_alg rq) (rq_policy rq)).
Proof.
  intros c rq. unfold default_alg_choice. destruct (N.eqb_spec (rq_alg rq) 0) as [Z|Z]; [|now constructor].
  destruct (dc_alg c) as [a|] eqn:D; [now constructor|].
  destruct (rq_policy rq) eqn:P; cbn [must_include_commitment].
  all: first [apply choice_committing; auto; rewrite P; auto; fail | apply choice_not_committing; auto; rewrite P; discriminate].
Qed.
Lemma choice_unique : forall c rq x y, suite_choice c rq x -> suite_choice c rq y -> x = y.
Proof. intros c rq x y H1 H2. inversion H1; inversion H2; try congruence; intuition congruence. Qed.

Lemma reserved_eq : EC_PUBLIC_KEY_FIELD = reserved_key.
Proof. reflexivity. Qed.

Lemma C42_generate_lemma : forall ec new put c rq alg, suite_choice c rq alg ->
  (In reserved_key (map fst (rq_ctx rq)) -> default_cmm_generate ec new put c rq = (rq_ctx rq, CErr E_RESERVED_NAME)) /\
  (forall ctx m, default_cmm_generate ec new put c rq = (ctx, COk m) ->
     suite alg /\ km_alg m = alg /\
     (exists a, keyring_on_encrypt (dc_keyring c) ctx alg (mk_kargs None [] []) = (a, KrOk) /\
        km_key m = ka_key a /\ km_trace m = ka_trace a /\ km_edks m = ka_edks a) /\
     (In alg signed_suites -> exists sc pub, ec_keygen ec alg = Ok (sc, pub) /\ km_sig m = Some sc /\
        ctx = rq_ctx rq ++ [(reserved_key, pub)] /\ ~ In reserved_key (map fst (rq_ctx rq))) /\
     (~ In alg signed_suites -> km_sig m = None /\ ctx = rq_ctx rq /\ ~ In reserved_key (map fst ctx))).
Proof.
  intros ec new put c rq alg CH. unfold default_cmm_generate. rewrite reserved_eq.
  rewrite (choice_unique _ _ _ _ (choice_spec c rq) CH). clear CH.
  destruct (ctx_find reserved_key (rq_ctx rq)) as [v|] eqn:F.
  { split; [auto|]. intros ctx m H. discriminate. }
  apply ctx_find_none in F. split; [contradiction|]. intros ctx m H.
  destruct (alg_lookup alg) as [p|] eqn:L; [|discriminate]. destruct (suite_lookup _ _ L) as (S & _ & SG).
  split; [exact S|]. destruct new; [discriminate|]. cbv zeta in H.
  destruct (N.eqb_spec (ap_sig_len p) 0) as [Z|Z].
  - destruct (keyring_on_encrypt (dc_keyring c) (rq_ctx rq) alg (mk_kargs None [] [])) as [a rc] eqn:K.
    destruct rc; try discriminate. injection H as <- <-. cbn. split; [reflexivity|]. split; [exists a; auto|].
    apply SG in Z. split; [contradiction|auto].
  - destruct (ec_keygen ec alg) as [[sc pub]|] eqn:G; [|discriminate]. destruct put; [discriminate|].
    destruct (ctx_put_created reserved_key pub (rq_ctx rq)) as [[P _]|[_ X]]; [|contradiction]. rewrite P in H. cbn [fst] in H.
    destruct (keyring_on_encrypt (dc_keyring c) (rq_ctx rq ++ [(reserved_key, pub)]) alg (mk_kargs None [] [])) as [a rc] eqn:K.
    destruct rc; try discriminate. injection H as <- <-. cbn [km_alg km_key km_trace km_edks km_sig]. split; [reflexivity|]. split; [exists a; auto|].
    split; [intros _; exists sc, pub; auto|]. intros N. apply SG in N. contradiction.
Qed.

Lemma C42_decrypt_lemma : forall ec new c rq a rc, suite (dq_alg rq) -> new = None ->
  keyring_on_decrypt (dc_keyring c) (dq_edks rq) (dq_ctx rq) (dq_alg rq) (mk_dargs None []) = (a, rc) -> rc <> KrUB ->
  let signed := In (dq_alg rq) signed_suites in let held := In reserved_key (map fst (dq_ctx rq)) in
  (forall m, default_cmm_decrypt ec new c rq = COk m -> rc = KrOk /\ da_key a = Some (kd_mat_key m) /\ kd_mat_trace m = da_trace a /\
     kd_mat_alg m = dq_alg rq /\ Nlen (kb_bytes (kd_mat_key m)) = suite_key_len (dq_alg rq) /\ (signed <-> held) /\
     (signed -> exists pub sc, ctx_find reserved_key (dq_ctx rq) = Some pub /\ ec_verify_start ec (dq_alg rq) pub = Ok sc /\ kd_mat_sig m = Some sc) /\
     (~ signed -> kd_mat_sig m = None)) /\
  (forall e, rc = KrErr e -> default_cmm_decrypt ec new c rq = CErr e) /\
  (rc = KrOk -> da_key a = None -> default_cmm_decrypt ec new c rq = CErr E_CANNOT_DECRYPT) /\
  (rc = KrOk -> da_key a <> None -> ~ (signed <-> held) -> default_cmm_decrypt ec new c rq = CErr E_BAD_CIPHERTEXT).
Proof.
  intros ec new c rq a rc SU -> K U signed held. unfold default_cmm_decrypt. rewrite K, reserved_eq.
  destruct (lookup_suite _ SU) as (p & L). rewrite L. destruct (suite_lookup _ _ L) as (_ & _ & SG).
  assert (HELD : held <-> ctx_find reserved_key (dq_ctx rq) <> None).
  { unfold held. destruct (ctx_find reserved_key (dq_ctx rq)) eqn:F.
    - apply ctx_find_some_key in F. split; [discriminate|auto].
    - apply ctx_find_none in F. split; congruence. }
  destruct rc as [|e|]; [|split; [discriminate|]; split; [congruence|]; split; discriminate|contradiction].
  pose proof (proj2 (on_decrypt_inv _ _ _ _ _ _ _ K) eq_refl) as (_ & _ & LEN).
  destruct (da_key a) as [b|] eqn:B.
  2:{ split; [discriminate|]. split; [discriminate|]. split; [auto|]. congruence. }
  destruct (N.eqb_spec (ap_sig_len p) 0) as [Z|Z]; destruct (ctx_find reserved_key (dq_ctx rq)) as [pub|] eqn:F.
  - apply SG in Z. split; [discriminate|]. split; [discriminate|]. split; [discriminate|]. auto.
  - apply SG in Z. assert (NS : ~ signed) by exact Z. assert (NH : ~ held) by (rewrite HELD; congruence).
    split; [|split; [discriminate|split; [discriminate|tauto]]].
    intros m E. injection E as <-. cbn [kd_mat_key kd_mat_trace kd_mat_alg kd_mat_sig]. clearbody signed held. destruct (LEN _ eq_refl). repeat split; auto; try tauto.
  - assert (S : signed). { destruct (in_dec N.eq_dec (dq_alg rq) signed_suites) as [|N]; auto. apply SG in N. contradiction. }
    assert (H : held) by (rewrite HELD; discriminate).
    destruct (ec_verify_start ec (dq_alg rq) pub) as [sc|e] eqn:V.
    + split; [|split; [discriminate|split; [discriminate|tauto]]].
      intros m E. injection E as <-. cbn [kd_mat_key kd_mat_trace kd_mat_alg kd_mat_sig]. clearbody signed held. destruct (LEN _ eq_refl). repeat split; auto; try tauto. intros _. exists pub, sc. auto.
    + split; [discriminate|]. split; [discriminate|]. split; [discriminate|]. tauto.
  - split; [discriminate|]. split; [discriminate|]. split; [discriminate|]. auto.
Qed.

(** ** Failed encryptions *)
Lemma C43_failure_lemma : forall cr k ke ctx alg a a' e, random_sizes ke ->
  keyring_on_encrypt (raw_aes_keyring cr k ke) ctx alg a = (a', KrErr e) -> a' = a.
Proof.
  intros cr k ke ctx alg [key tr es] a' e [RS _] H. unfold keyring_on_encrypt in H. cbn [ka_key ka_edks raw_aes_keyring kr_encrypt] in H.
  assert (W : forall dk n l c iv l' x, aes_wrap cr k ke dk n l c iv = (l', Err x) -> l' = l).
  { intros dk n l c iv l' x W. unfold aes_wrap in W. destruct (serialize_aad_init _ _); [|congruence]. destruct (ke_fail ke 4); [congruence|].
    destruct (aes_gcm_encrypt _ _ _ _ _ _) as [[? ?]|]; [|congruence]. destruct (ke_fail ke 5); [congruence|]. destruct (ke_fail ke 6); [congruence|].
    destruct (ke_fail ke 7); congruence. }
  assert (F : forall a1 rc, raw_aes_on_encrypt cr k ke ctx alg (mk_kargs key tr es) = (a1, rc) -> rc <> KrUB ->
    (a1 = mk_kargs key tr es /\ exists x, rc = KrErr x) \/
    (rc = KrOk /\ (forall b, key = Some b -> ka_key a1 = Some b) /\ (key = None -> exists b, ka_key a1 = Some b /\ key_len_ok alg b = true))).
  { intros a1 rc R NU. unfold raw_aes_on_encrypt in R. destruct (alg_lookup alg) as [p|] eqn:L; [|congruence]. cbv zeta in R.
    destruct (genrandom ke 0 _) as [iv|x]; [|left; split; [congruence|exists x; congruence]]. cbn [ka_key ka_edks ka_trace] in R.
    destruct key as [b|].
    - destruct (aes_wrap _ _ _ _ _ _ _ _) as [l' [[]|x]] eqn:Q.
      + right. injection R as <- <-. split; [reflexivity|]. split; [auto|discriminate].
      + left. apply W in Q. subst l'. try change (0 =? 0) with true in R; try change (FLAG_GENERATED =? 0) with false in R; cbv iota in R. split; [congruence|exists x; congruence].
    - destruct (ke_fail ke 1) as [x|]; [left; split; [congruence|exists x; congruence]|].
      unfold genrandom in R. destruct (ke_fail ke 2) as [x|]; [left; split; [congruence|exists x; congruence]|].
      destruct (aes_wrap _ _ _ _ _ _ _ _) as [l' [[]|x]] eqn:Q.
      + right. injection R as <- <-. split; [reflexivity|]. split; [discriminate|]. intros _. eexists. split; [reflexivity|].
        unfold key_len_ok. rewrite L. cbn [kb_bytes]. rewrite RS. apply N.eqb_refl.
      + left. apply W in Q. subst l'. try change (0 =? 0) with true in R; try change (FLAG_GENERATED =? 0) with false in R; cbv iota in R. split; [congruence|exists x; congruence]. }
  destruct (raw_aes_on_encrypt cr k ke ctx alg (mk_kargs key tr es)) as [a1 rc] eqn:R. specialize (F a1 rc eq_refl).
  assert (SB : forall b, same_buf b b = true) by (intros b; unfold same_buf; now rewrite !N.eqb_refl).
  destruct key as [b|].
  - destruct rc as [|x|]; [..|congruence].
    + destruct F as [[_ [x X]]|[_ [K _]]]; [discriminate| discriminate |]. rewrite (K _ eq_refl), SB in H. congruence.
    + destruct F as [[-> _]|[X _]]; [discriminate| |discriminate]. cbn [ka_key] in H. rewrite SB in H. congruence.
  - destruct es as [|e0 es]; [|congruence]. destruct rc as [|x|]; [..|congruence].
    + destruct F as [[_ [x X]]|[_ [_ K]]]; [discriminate|discriminate|]. destruct (K eq_refl) as [b [KB KL]]. rewrite KB, KL in H. congruence.
    + destruct F as [[-> _]|[X _]]; [discriminate| |discriminate]. cbn [ka_key] in H. congruence.
Qed.
Lemma C45_failure_lemma : forall rs k ke ctx alg a a' e, random_sizes ke ->
  keyring_on_encrypt (raw_rsa_keyring rs k ke) ctx alg a = (a', KrErr e) -> a' = a.
Proof.
  intros rs k ke ctx alg [key tr es] a' e [RS _] H. unfold keyring_on_encrypt in H. cbn [ka_key ka_edks raw_rsa_keyring kr_encrypt] in H.
  assert (W : forall pub dk l l' x, rsa_wrap rs k ke pub dk l = (l', Err x) -> l' = l).
  { intros pub dk l l' x W. unfold rsa_wrap in W. destruct (rsa_encrypt _ _ _ _ _); [|congruence]. destruct (ke_fail ke 2); [congruence|].
    destruct (ke_fail ke 3); [congruence|]. destruct (ke_fail ke 4); congruence. }
  assert (F : forall a1 rc, raw_rsa_on_encrypt rs k ke ctx alg (mk_kargs key tr es) = (a1, rc) -> rc <> KrUB ->
    (a1 = mk_kargs key tr es /\ exists x, rc = KrErr x) \/
    (rc = KrOk /\ (forall b, key = Some b -> ka_key a1 = Some b) /\ (key = None -> exists b, ka_key a1 = Some b /\ key_len_ok alg b = true))).
  { intros a1 rc R NU. unfold raw_rsa_on_encrypt in R. destruct (rr_pub k) as [pub|]; [|left; split; [congruence|exists E_BAD_STATE; congruence]]. cbv zeta in R.
    cbn [ka_key ka_edks ka_trace] in R. destruct key as [b|].
    - destruct (rsa_wrap _ _ _ _ _ _) as [l' [[]|x]] eqn:Q.
      + right. injection R as <- <-. split; [reflexivity|]. split; [auto|discriminate].
      + left. apply W in Q. subst l'. try change (0 =? 0) with true in R; try change (FLAG_GENERATED =? 0) with false in R; cbv iota in R. split; [congruence|exists x; congruence].
    - destruct (alg_lookup alg) as [p|] eqn:L; [|congruence].
      destruct (ke_fail ke 0) as [x|]; [left; split; [congruence|exists x; congruence]|].
      unfold genrandom in R. destruct (ke_fail ke 1) as [x|]; [left; split; [congruence|exists x; congruence]|].
      destruct (rsa_wrap _ _ _ _ _ _) as [l' [[]|x]] eqn:Q.
      + right. injection R as <- <-. split; [reflexivity|]. split; [discriminate|]. intros _. eexists. split; [reflexivity|].
        unfold key_len_ok. rewrite L. cbn [kb_bytes]. rewrite RS. apply N.eqb_refl.
      + left. apply W in Q. subst l'. try change (0 =? 0) with true in R; try change (FLAG_GENERATED =? 0) with false in R; cbv iota in R. split; [congruence|exists x; congruence]. }
  destruct (raw_rsa_on_encrypt rs k ke ctx alg (mk_kargs key tr es)) as [a1 rc] eqn:R. specialize (F a1 rc eq_refl).
  assert (SB : forall b, same_buf b b = true) by (intros b; unfold same_buf; now rewrite !N.eqb_refl).
  destruct key as [b|].
  - destruct rc as [|x|]; [..|congruence].
    + destruct F as [[_ [x X]]|[_ [K _]]]; [discriminate| discriminate |]. rewrite (K _ eq_refl), SB in H. congruence.
    + destruct F as [[-> _]|[X _]]; [discriminate| |discriminate]. cbn [ka_key] in H. rewrite SB in H. congruence.
  - destruct es as [|e0 es]; [|congruence]. destruct rc as [|x|]; [..|congruence].
    + destruct F as [[_ [x X]]|[_ [_ K]]]; [discriminate|discriminate|]. destruct (K eq_refl) as [b [KB KL]]. rewrite KB, KL in H. congruence.
    + destruct F as [[-> _]|[X _]]; [discriminate| |discriminate]. cbn [ka_key] in H. congruence.
Qed.

(** The configured suite *)
Lemma C42_configured_lemma : forall c alg c' r, default_cmm_set_alg_id c alg = (c', r) ->
  dc_keyring c' = dc_keyring c /\
  (suite alg -> r = Ok tt /\ dc_alg c' = Some alg) /\ (~ suite alg -> r = Err E_UNSUPPORTED_FORMAT /\ c' = c).
Proof.
  intros c alg c' r H. unfold default_cmm_set_alg_id in H.
  assert (K : alg_is_known alg = true <-> suite alg).
  { rewrite alg_known_lookup. split; [intros [p L]; exact (proj1 (suite_lookup _ _ L))|apply lookup_suite]. }
  destruct (alg_is_known alg); injection H as <- <-; cbn [dc_keyring dc_alg]; (split; [reflexivity|]); split; intros S; auto.
  - exfalso. apply S, K. reflexivity.
  - apply K in S. discriminate.
Qed.
