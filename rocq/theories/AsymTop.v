(** Round trips, agreement with the other models, and long inputs, for AsymModel. *)
From Verif Require Import Base BaseProofs AlgModel CryptoModel KeyringModel HkdfModel HkdfSpec HkdfProofs CipherModel CipherSpec CipherProofs CipherTop AsymModel AsymSpec AsymProofs.
From Coq Require Import ZArith ZifyBool ZifyNat ZifyN.
Import List.
Open Scope list_scope.
Open Scope N_scope.

Lemma rsa_round_trip a f1 f2 pub priv mode seed t s1 s2 s1' b : asym_wf a -> Nlen pub < 2 ^ 31 -> Nlen priv < 2 ^ 31 -> ~ faulty f2 ->
  (forall k p c, a_pub a pub = Some k -> a_rsa a k = true -> a_enc a k p seed t = Some c -> exists k', a_priv a priv = Some k' /\ a_rsa a k' = true /\ a_dec a k' p c = Some t) ->
  AsymModel.rsa_encrypt a f1 None t pub mode seed s1 = inr (Ok tt, b, s1') ->
  exists c s2' b', b = Some (c, Nlen c) /\ AsymModel.rsa_decrypt a f2 None c priv mode s2 = inr (Ok tt, b', s2') /\ holds b' t.
Proof.
  intros W L1 L2 NF PAIR E. destruct (rsa_encrypt_ok a f1 W None t pub mode seed s1 L1) as (r & s' & gone & X & _ & _ & _ & Y). rewrite E in X. injection X as <- <-.
  cbn [fst snd] in Y. destruct Y as ((_ & _ & c & (k & p & K1 & K2 & K3 & K4) & ->) & _). exists c. destruct (rsa_decrypt_ok a f2 W None c priv mode s2 L2) as (r & s'' & g2 & X & _ & _ & _ & Y1 & Y2).
  destruct (PAIR _ _ _ K1 K2 K4) as (k' & P1 & P2 & P3). assert (U : rsa_unwraps a priv mode c t) by (exists k', p; auto).
  specialize (Y2 NF eq_refl (ex_intro _ t U)). destruct r as [rc b']. cbn [fst snd] in *. subst rc. destruct Y1 as (_ & _ & t' & (k2 & p2 & Q1 & _ & Q3 & Q4) & H).
  exists s'', b'. split; [reflexivity|]. split; [exact X|]. rewrite P1 in Q1. injection Q1 as <-. rewrite (scheme_fun _ _ _ Q3 K3) in Q4. congruence.
Qed.

(** ** Other models *)
Definition scheme_of (mode : N) : option padding :=
  if mode =? 0 then Some PadPkcs1 else if mode =? 1 then Some (PadOaep H_SHA1 H_SHA1) else if mode =? 2 then Some (PadOaep H_SHA256 H_SHA256) else None.
Lemma scheme_of_iff mode p : scheme_of mode = Some p <-> rsa_scheme (Z.of_N mode) p.
Proof.
  unfold scheme_of, rsa_scheme. destruct (N.eqb_spec mode 0) as [->|N0]; [split; [intro H; injection H as <-; auto|intros [[_ ->]|[[H _]|[H _]]]; [reflexivity|discriminate..]]|].
  destruct (N.eqb_spec mode 1) as [->|N1]; [split; [intro H; injection H as <-; auto|intros [[H _]|[[_ ->]|[H _]]]; [discriminate|reflexivity|discriminate]]|].
  destruct (N.eqb_spec mode 2) as [->|N2]; [split; [intro H; injection H as <-; auto|intros [[H _]|[[H _]|[_ ->]]]; [discriminate|discriminate|reflexivity]]|].
  split; [discriminate|]. intros [[H _]|[[H _]|[H _]]]; lia.
Qed.
Definition rsa_of (a : asym) : rsa := mk_rsa
  (fun mode pem seed t => match a_pub a pem, scheme_of mode with Some k, Some p => if a_rsa a k then a_enc a k p seed t else None | _, _ => None end)
  (fun mode pem c => match a_priv a pem, scheme_of mode with Some k, Some p => if a_rsa a k then a_dec a k p c else None | _, _ => None end).
Lemma rsa_of_for a : rsa_for a (rsa_of a).
Proof.
  split.
  - intros mode pem seed t c. cbn. split.
    + destruct (a_pub a pem) as [k|] eqn:K; [|discriminate]. destruct (scheme_of mode) as [p|] eqn:S; [|discriminate]. destruct (a_rsa a k) eqn:R; [|discriminate].
      intro E. apply scheme_of_iff in S. exists k, p. auto.
    + intros (k & p & -> & R & S & E). apply scheme_of_iff in S. rewrite S, R. exact E.
  - intros mode pem c t. cbn. split.
    + destruct (a_priv a pem) as [k|] eqn:K; [|discriminate]. destruct (scheme_of mode) as [p|] eqn:S; [|discriminate]. destruct (a_rsa a k) eqn:R; [|discriminate].
      intro E. apply scheme_of_iff in S. exists k, p. auto.
    + intros (k & p & -> & R & S & E). apply scheme_of_iff in S. rewrite S, R. exact E.
Qed.
Lemma pad_ok_iff mode : pad_ok mode = true <-> exists p, rsa_scheme (Z.of_N mode) p.
Proof.
  unfold pad_ok. split.
  - intro H. assert (C : mode = 0 \/ mode = 1 \/ mode = 2) by lia. destruct C as [->|[->| ->]]; eexists; [left|right; left|right; right]; split; reflexivity.
  - intros (p & [[H _]|[[H _]|[H _]]]); lia.
Qed.

Lemma refines_rsa_encrypt a rs fault plain pem mode seed s : asym_wf a -> rsa_for a rs -> Nlen pem < 2 ^ 31 ->
  ends_clean (AsymModel.rsa_encrypt a fault None plain pem (Z.of_N mode) seed) s (fun r _ =>
    (fst r = Err E_CRYPTO_UNKNOWN /\ faulty fault) \/
    match KeyringModel.rsa_encrypt rs mode pem seed plain with Ok c => r = (Ok tt, Some (c, Nlen c)) | Err e => r = (Err e, None) end).
Proof.
  intros W [RE _] L. destruct (rsa_encrypt_ok a fault W None plain pem (Z.of_N mode) seed s L) as (r & s' & g & E & O & F & Z & Y). exists r, s', g.
  repeat (split; [assumption|]). destruct Y as [Y1 Y2]. destruct r as [rc b]. cbn [fst snd] in *. unfold KeyringModel.rsa_encrypt. destruct rc as [[]|e].
  - right. destruct Y1 as (_ & _ & c & X & ->). pose proof (proj2 (RE _ _ _ _ _) X) as ->. destruct X as (k & p & _ & _ & X & _).
    rewrite (proj2 (pad_ok_iff mode)) by eauto. reflexivity.
  - destruct Y1 as [(_ & C & _)|(_ & -> & [[-> NS]|(-> & _ & [FT|NW])])]; [congruence| |left; auto|right].
    + right. destruct (pad_ok mode) eqn:P; [apply pad_ok_iff in P; contradiction|]. reflexivity.
    + destruct (pad_ok mode) eqn:P; cbn [negb].
      * destruct (rs_enc rs mode pem seed plain) as [c|] eqn:R; [|reflexivity]. exfalso. apply NW. exists c. apply RE, R.
      * (* an unknown mode is found out first *) exfalso. destruct (Z.ltb_spec (openssl_padding (Z.of_N mode)) 0) as [Q|Q].
        -- unfold AsymModel.rsa_encrypt in E. cbv zeta in E. destruct (Z.ltb_spec (openssl_padding (Z.of_N mode)) 0); [|lia]. unfold done in E. discriminate.
        -- assert (C : pad_ok mode = true); [|congruence]. apply pad_ok_iff. unfold openssl_padding in Q. unfold rsa_scheme.
           destruct (Z.eqb_spec (Z.of_N mode) 0); [eauto|]. destruct (Z.eqb_spec (Z.of_N mode) 1); [eauto|]. destruct (Z.eqb_spec (Z.of_N mode) 2); [eauto|]. lia.
Qed.
Lemma refines_rsa_decrypt a rs fault cipher pem mode s : asym_wf a -> rsa_for a rs -> Nlen pem < 2 ^ 31 ->
  ends_clean (AsymModel.rsa_decrypt a fault None cipher pem (Z.of_N mode)) s (fun r _ =>
    (exists e, fst r = Err e /\ faulty fault) \/
    match KeyringModel.rsa_decrypt rs mode pem cipher with Ok t => fst r = Ok tt /\ holds (snd r) t | Err _ => exists e, r = (Err e, None) end).
Proof.
  intros W [_ RD] L. destruct (rsa_decrypt_ok a fault W None cipher pem (Z.of_N mode) s L) as (r & s' & g & E & O & F & Z & Y). exists r, s', g.
  repeat (split; [assumption|]). destruct Y as [Y1 Y2]. destruct r as [rc b]. cbn [fst snd] in *. unfold KeyringModel.rsa_decrypt. destruct rc as [[]|e].
  - right. destruct Y1 as (_ & _ & t & X & H). pose proof (proj2 (RD _ _ _ _) X) as ->. destruct X as (k & p & _ & _ & X & _).
    rewrite (proj2 (pad_ok_iff mode)) by eauto. split; [reflexivity|exact H].
  - destruct Y1 as [(_ & C & _)|(_ & -> & Y)]; [congruence|].
    destruct Y as [[-> NS]|[(-> & _ & [FT|NK])|(-> & _ & _ & [FT|NU])]]; [right|left; eauto|right|left; eauto|right].
    + destruct (pad_ok mode) eqn:P; [apply pad_ok_iff in P; contradiction|]. cbn [negb]. eauto.
    + destruct (pad_ok mode); cbn [negb]; [|eauto]. destruct (rs_dec rs mode pem cipher) as [t|] eqn:R; [|eauto]. exfalso. apply RD in R. destruct R as (k & p & K1 & K2 & _). apply NK. exists k. auto.
    + destruct (pad_ok mode); cbn [negb]; [|eauto]. destruct (rs_dec rs mode pem cipher) as [t|] eqn:R; [|eauto]. exfalso. apply NU. exists t. apply RD, R.
Qed.

(** ** HKDF *)
Definition derivableb (sha : sha_version) (ikm info : list N) (len : N) : bool :=
  negb (Nat.eqb (digest_len sha) 0) && negb (match ikm with [] => true | _ => false end) && (Nlen info <=? 1024) && (len <=? 255 * N.of_nat (digest_len sha)).
Lemma derivableb_iff sha ikm info len : derivableb sha ikm info len = true <-> derivable sha ikm info len.
Proof.
  unfold derivableb, derivable. rewrite !Bool.andb_true_iff, !Bool.negb_true_iff, Nat.eqb_neq, !N.leb_le. split.
  - intros (((A & B) & C) & D). split; [intros ->; apply A; reflexivity|]. split; [intros ->; discriminate|auto].
  - intros (A & B & C & D). split; [split; [split|]|]; auto; [destruct sha; cbn; congruence|destruct ikm; congruence].
Qed.
Definition hkdf_crypto (a : asym) (cr0 : crypto) : crypto :=
  mk_crypto (cr_enc cr0) (cr_dec cr0) (fun sha salt ikm info len => if derivableb sha ikm info len then Some (a_hkdf a sha salt ikm info len) else None) (cr_upd_ok cr0) (cr_verify cr0).
Lemma hkdf_crypto_for a cr0 : hkdf_for a (hkdf_crypto a cr0).
Proof.
  intros sha salt ikm info len okm. cbn. destruct (derivableb sha ikm info len) eqn:D.
  - apply derivableb_iff in D. split; [intro H; injection H as <-; auto|intros [_ ->]; reflexivity].
  - split; [discriminate|]. intros [H _]. apply derivableb_iff in H. congruence.
Qed.
Lemma refines_hkdf a cr fault sha salt ikm info mem s : asym_wf a -> hkdf_for a cr -> Nlen salt < 2 ^ 31 -> Nlen ikm < 2 ^ 31 -> Nlen info < 2 ^ 31 ->
  ends_clean (openssl_hkdf a fault (mk_buf mem (Nlen mem)) sha salt ikm info) s (fun r _ =>
    (fst r = Err E_CRYPTO_UNKNOWN /\ faulty fault) \/
    match CryptoModel.hkdf cr sha salt ikm info (Nlen mem) with inl okm => r = (Ok tt, mk_buf okm (Nlen mem)) | inr e => fst r = Err e end).
Proof.
  intros W HF L1 L2 L3. destruct (hkdf_ok a fault W (mk_buf mem (Nlen mem)) sha salt ikm info s L1 L2 L3) as (r & s' & g & E & O & F & Z & Y1 & Y2); [unfold b_cap; cbn; lia|].
  exists r, s', g. repeat (split; [assumption|]). cbn [b_len b_mem] in *. unfold hkdf_post in Y1. cbn [b_len b_mem] in Y1. destruct r as [rc b]. cbn [fst snd] in *.
  assert (H : forall okm, cr_hkdf cr sha (real_salt sha salt) ikm info (Nlen mem) = Some okm <-> derivable sha ikm info (Nlen mem) /\ okm = a_hkdf a sha (real_salt sha salt) ikm info (Nlen mem)) by (intro; apply HF).
  assert (HK : sha <> NOSHA -> CryptoModel.hkdf cr sha salt ikm info (Nlen mem) = match cr_hkdf cr sha (real_salt sha salt) ikm info (Nlen mem) with Some okm => inl okm | None => inr E_CRYPTO_UNKNOWN end).
  { intro N. unfold CryptoModel.hkdf, real_salt. destruct sha; [congruence|..]; destruct salt; reflexivity. }
  destruct rc as [[]|e].
  - right. destruct Y1 as [D ->]. rewrite HK by apply D. rewrite (proj2 (H _) (conj D eq_refl)). unfold Nlen. rewrite Nat2N.id, skipn_all, app_nil_r. reflexivity.
  - destruct Y1 as [(-> & -> & _)|(-> & N & X & _)]; [right; reflexivity|]. destruct X as [X|X]; [left; auto|right]. rewrite HK by exact N.
    destruct (cr_hkdf cr sha (real_salt sha salt) ikm info (Nlen mem)) as [okm|] eqn:C; [|reflexivity]. exfalso. apply X. apply (H okm). reflexivity.
Qed.

Lemma rfc_salt hmac h salt ikm : (0 < h)%nat -> rfc_extract hmac h salt ikm = rfc_extract hmac h (match salt with [] => repeat 0 h | _ => salt end) ikm.
Proof. intro H. unfold rfc_extract. destruct salt as [|x l]; [|reflexivity]. destruct h; [lia|]. reflexivity. Qed.
Lemma rfc_fun hmac h salt ikm info L o1 o2 : (0 < h)%nat -> rfc_hkdf hmac h salt ikm info L o1 -> rfc_hkdf hmac h salt ikm info L o2 -> o1 = o2.
Proof.
  intros H (n1 & B1 & _ & E1) (n2 & B2 & _ & E2). assert (N : n1 = n2).
  { destruct (Nat.lt_trichotomy n1 n2) as [C|[C|C]]; [exfalso|exact C|exfalso]; nia. }
  subst. reflexivity.
Qed.
Lemma derive_rfc a hmac fault okm sha salt ikm info s b s' : asym_wf a -> hkdf_is_rfc a hmac -> Nlen salt < 2 ^ 31 -> Nlen ikm < 2 ^ 31 -> Nlen info < 2 ^ 31 -> b_len okm <= b_cap okm ->
  openssl_hkdf a fault okm sha salt ikm info s = inr (Ok tt, b, s') ->
  rfc_hkdf (hmac sha) (digest_len sha) salt ikm info (N.to_nat (b_len okm)) (firstn (N.to_nat (b_len okm)) (b_mem b)) /\
  skipn (N.to_nat (b_len okm)) (b_mem b) = skipn (N.to_nat (b_len okm)) (b_mem okm) /\ b_len b = b_len okm.
Proof.
  intros W R L1 L2 L3 LC E. destruct (hkdf_ok a fault W okm sha salt ikm info s L1 L2 L3 LC) as (r & s'' & g & X & _ & _ & _ & Y & _). rewrite E in X. injection X as <- <-.
  unfold hkdf_post in Y. cbn [fst snd] in Y. destruct Y as [(N & _ & _ & D) ->]. cbn [b_mem b_len]. pose proof W as (_ & _ & _ & _ & WH).
  assert (DL : (0 < digest_len sha)%nat) by (destruct sha; cbn; congruence || lia).
  assert (SN : real_salt sha salt <> []).
  { unfold real_salt. destruct salt; [|discriminate]. destruct (digest_len sha); [lia|discriminate]. }
  pose proof (R sha (real_salt sha salt) ikm info (b_len okm) N SN D) as Q.
  set (x := a_hkdf a sha (real_salt sha salt) ikm info (b_len okm)) in *. assert (LX : length x = N.to_nat (b_len okm)) by (unfold x; pose proof (WH sha (real_salt sha salt) ikm info (b_len okm)) as Z; unfold Nlen in Z; lia).
  rewrite firstn_app, skipn_app, LX, Nat.sub_diag, skipn_O, firstn_O, app_nil_r, <- LX, firstn_all, skipn_all. rewrite LX. split; [|split; reflexivity].
  unfold rfc_hkdf in *. rewrite (rfc_salt _ _ salt) by exact DL. fold (real_salt sha salt). exact Q.
Qed.
Lemma versions_agree a m fault sha salt ikm info okm0 okm1 s b s' : asym_wf a -> hkdf_is_rfc a (mac_fn m) -> hmac_sane (mac_fn m) -> sha <> NOSHA ->
  Nlen salt < 2 ^ 31 -> Nlen ikm < 2 ^ 31 -> Nlen info < 2 ^ 31 -> Nlen okm0 + 64 <= two64 ->
  own_hkdf m sha salt ikm info okm0 = HRet (Ok tt) okm1 ->
  openssl_hkdf a fault (mk_buf okm0 (Nlen okm0)) sha salt ikm info s = inr (Ok tt, b, s') -> b_mem b = okm1.
Proof.
  intros W R HS N L1 L2 L3 L4 E1 E2. pose proof (rfc_lemma _ _ _ _ _ _ _ HS N L4 E1) as Q1.
  destruct (derive_rfc _ _ _ _ _ _ _ _ _ _ _ W R L1 L2 L3 (N.le_refl _ : b_len (mk_buf okm0 (Nlen okm0)) <= b_cap (mk_buf okm0 (Nlen okm0))) E2) as (Q2 & Q3 & _). cbn [b_len b_mem] in *.
  unfold Nlen in Q2, Q3. rewrite Nat2N.id in Q2, Q3. rewrite skipn_all in Q3.
  rewrite <- (firstn_skipn (length okm0) (b_mem b)), Q3, app_nil_r. symmetry. eapply rfc_fun; [|exact Q1|exact Q2]. destruct sha; cbn; congruence || lia.
Qed.

(** ** Long inputs *)
Lemma long_int (t : list N) : Nlen t = 2 ^ 32 -> forall b, to_int (Nlen (b :: t)) = 1%Z.
Proof. intros H b. unfold to_int, two32. replace (Nlen (b :: t)) with (2 ^ 32 + 1) by (unfold Nlen in *; cbn [length]; lia). reflexivity. Qed.
Lemma long_pems (b : N) : exists p0 p1, p0 <> p1 /\ Nlen p0 = 2 ^ 32 + 1 /\ Nlen p1 = 2 ^ 32 + 1 /\
  forall a fault buf t mode seed s, AsymModel.rsa_encrypt a fault buf t p0 mode seed s = AsymModel.rsa_encrypt a fault buf t p1 mode seed s /\
                                    AsymModel.rsa_decrypt a fault buf t p0 mode s = AsymModel.rsa_decrypt a fault buf t p1 mode s.
Proof.
  destruct long_tails as (t0 & t1 & N & L0 & L1). exists (b :: t0), (b :: t1). split; [congruence|].
  split; [unfold Nlen in *; cbn [length]; lia|]. split; [unfold Nlen in *; cbn [length]; lia|]. intros.
  assert (B : forall fault, bio_new fault (b :: t0) (Nlen (b :: t0)) = bio_new fault (b :: t1) (Nlen (b :: t1))).
  { intro f. unfold bio_new. rewrite !long_int by assumption. reflexivity. }
  unfold AsymModel.rsa_encrypt, AsymModel.rsa_decrypt. rewrite B. auto.
Qed.
Lemma attempt_ext {A B} (m : P (option A)) (bad : P B) (k1 k2 : A -> P B) s : (forall x s', k1 x s' = k2 x s') -> attempt m bad k1 s = attempt m bad k2 s.
Proof. intro H. unfold attempt, pbind. destruct (m s) as [|[[x|] s']]; [reflexivity|apply H|reflexivity]. Qed.
Lemma long_salts (b : N) : exists p0 p1, p0 <> p1 /\ Nlen p0 = 2 ^ 32 + 1 /\ Nlen p1 = 2 ^ 32 + 1 /\
  forall a fault okm sha ikm info s, openssl_hkdf a fault okm sha p0 ikm info s = openssl_hkdf a fault okm sha p1 ikm info s.
Proof.
  destruct long_tails as (t0 & t1 & N & L0 & L1). exists (b :: t0), (b :: t1). split; [congruence|].
  split; [unfold Nlen in *; cbn [length]; lia|]. split; [unfold Nlen in *; cbn [length]; lia|]. intros.
  assert (B : forall fault h, set1_hkdf_salt fault h (b :: t0) (Nlen (b :: t0)) = set1_hkdf_salt fault h (b :: t1) (Nlen (b :: t1))).
  { intros f h. unfold set1_hkdf_salt. rewrite !long_int by assumption. reflexivity. }
  assert (Z : forall t, Nlen t = 2 ^ 32 -> (Nlen (b :: t) =? 0) = false) by (intros t T; apply N.eqb_neq; unfold Nlen in *; cbn [length]; lia).
  unfold openssl_hkdf. rewrite !Z by assumption. cbn [negb].
  destruct sha; [reflexivity|..]; (apply attempt_ext; intros h s1; apply attempt_ext; intros _ s2; apply attempt_ext; intros _ s3; rewrite B; reflexivity).
Qed.
