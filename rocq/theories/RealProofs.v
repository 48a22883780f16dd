(** The algorithms of RealCrypto meet the hypotheses about the oracles. *)
From Verif Require Import Base AlgModel CryptoModel SessionSpec StreamSpec LiveSpec StackSpec HkdfModel HkdfSpec CipherModel CipherSpec
  BaseProofs HkdfProofs CipherTop HkdfExamples RealCrypto.
From Coq Require Import ZArith ZifyBool ZifyNat ZifyN.
Import List.
Open Scope list_scope.
Open Scope N_scope.

Lemma real_wf : gcm_wf real_gcm.
Proof. intros k iv a c. cbn [g_tag real_gcm]. unfold real_tag. cbv zeta. unfold Nlen. now rewrite be_bytes_length. Qed.
Lemma real_gcm_bytes : gcm_bytes real_gcm.
Proof.
  split.
  - intros k iv n. cbn [g_stream real_gcm]. unfold real_stream. cbv zeta. apply N.mod_lt. discriminate.
  - intros k iv a c. cbn [g_tag real_gcm]. unfold real_tag. cbv zeta. apply be_bytes_ok.
Qed.

(** ** SHA-384 and SHA-512 *)
Lemma round5_len : forall l st, length st = 8%nat -> length (fold_left sha5_round l st) = 8%nat.
Proof.
  induction l as [|x l IH]; intros st L; cbn [fold_left]; [exact L|]. apply IH.
  do 9 (destruct st as [|? st]; try discriminate L). reflexivity.
Qed.
Lemma blocks5_len : forall l st, length st = 8%nat -> length (fold_left sha5_block l st) = 8%nat.
Proof.
  induction l as [|x l IH]; intros st L; cbn [fold_left]; [exact L|]. apply IH. unfold sha5_block. cbv zeta.
  rewrite map_length, combine_length, L, round5_len; [reflexivity|exact L].
Qed.
Lemma concat_be : forall n l, length (concat (map (be_bytes n) l)) = (n * length l)%nat /\ bytes_ok (concat (map (be_bytes n) l)).
Proof.
  intros n. induction l as [|x l [IH1 IH2]]; cbn [map concat length]; [split; [lia|constructor]|]. split.
  - rewrite app_length, be_bytes_length, IH1. lia.
  - apply bytes_ok_app. split; [apply be_bytes_ok|exact IH2].
Qed.
Lemma sha5_out : forall h0 msg, length h0 = 8%nat -> length (sha5 h0 msg) = 64%nat /\ bytes_ok (sha5 h0 msg).
Proof.
  intros h0 msg L. unfold sha5. cbv zeta. destruct (concat_be 8 (fold_left sha5_block (chunks (length (sha5_pad msg) / 128) 128 (sha5_pad msg)) h0)) as [A B].
  split; [|exact B]. rewrite A, blocks5_len by exact L. reflexivity.
Qed.
Lemma sha512_out : forall msg, length (sha512 msg) = 64%nat /\ bytes_ok (sha512 msg).
Proof. intros msg. now apply sha5_out. Qed.
Lemma sha384_out : forall msg, length (sha384 msg) = 48%nat /\ bytes_ok (sha384 msg).
Proof.
  intros msg. unfold sha384. destruct (sha5_out sha3_h0 msg eq_refl) as [A B]. split; [|now apply bytes_ok_firstn].
  rewrite firstn_length, A. reflexivity.
Qed.
Lemma sha256_out : forall msg, length (sha256 msg) = 32%nat /\ bytes_ok (sha256 msg).
Proof. intros msg. split; [apply sha256_len|]. unfold sha256. cbv zeta. apply concat_be. Qed.

Lemma real_hmac_out : forall sha k d, sha <> NOSHA -> length (real_hmac sha k d) = digest_len sha /\ bytes_ok (real_hmac sha k d).
Proof.
  intros [] k d H; [contradiction| | |]; unfold real_hmac, hmac_with; cbv zeta; [apply sha256_out|apply sha384_out|apply sha512_out].
Qed.
Lemma real_hmac_sane : hmac_sane real_hmac.
Proof. intros sha k d H. now apply real_hmac_out. Qed.

(** ** Key derivation writes what HMAC returns *)
Lemma round_bytes : forall m c sha prk t info idx t', (forall k d, bytes_ok (mac_fn m sha k d)) ->
  hkdf_round m c sha prk t info idx = Some t' -> bytes_ok t'.
Proof.
  intros m c sha prk t info idx t' B. unfold hkdf_round, hm_init, hm_update, hm_final.
  destruct (mac_fails m c); [discriminate|]. destruct (if negb _ then _ else _); [|discriminate].
  destruct (mac_fails m (c + 2)); [discriminate|]. destruct (mac_fails m (c + 3)); [discriminate|].
  destruct (mac_fails m (c + 4)); [discriminate|]. intros E. injection E as <-. apply B.
Qed.
Lemma loop_bytes : forall m sha prk info, (forall k d, bytes_ok (mac_fn m sha k d)) -> forall k idx c t okm rem okm', bytes_ok okm ->
  hkdf_loop m sha prk info k idx c t okm rem = HRet (Ok tt) okm' -> bytes_ok okm'.
Proof.
  intros m sha prk info B. induction k as [|k IH]; intros idx c t okm rem okm' O E; cbn [hkdf_loop] in E.
  - destruct (rem =? 0); [|discriminate]. now injection E as <-.
  - destruct (hkdf_round _ _ _ _ _ _ _) as [t'|] eqn:R; [|discriminate]. destruct (negb _); [discriminate|].
    destruct (blit _ _ _) as [b|] eqn:L; [|discriminate]. apply IH in E; [exact E|].
    unfold blit in L. destruct (_ <? _) in L; [discriminate|]. injection L as <-.
    apply bytes_ok_app. split; [now apply bytes_ok_firstn|]. apply bytes_ok_app. split; [|now apply bytes_ok_skipn].
    apply bytes_ok_firstn. exact (round_bytes _ _ _ _ _ _ _ _ B R).
Qed.
Lemma own_bytes : forall m sha salt ikm info okm okm', (sha <> NOSHA -> forall k d, bytes_ok (mac_fn m sha k d)) -> bytes_ok okm ->
  own_hkdf m sha salt ikm info okm = HRet (Ok tt) okm' -> bytes_ok okm'.
Proof.
  intros m sha salt ikm info okm okm' B O E. unfold own_hkdf in E. destruct (hkdf_extract m sha salt ikm); [|discriminate].
  unfold hkdf_expand in E. destruct sha; [discriminate| | |];
    (destruct (_ || _)%bool; [discriminate|]; cbv zeta in E; destruct (255 <? _); [discriminate|];
     refine (loop_bytes _ _ _ _ (B _) _ _ _ _ _ _ _ O E); discriminate).
Qed.

(** ** The oracles *)
Lemma real_for : forall verify, crypto_for real_gcm (real_cr verify).
Proof. intros verify. exact (crypto_of_for real_gcm _). Qed.
Lemma real_sizes : forall verify, crypto_sizes (real_cr verify).
Proof.
  intros verify. apply with_own_sizes. destruct (crypto_for_sizes real_gcm _ real_wf (crypto_of_for real_gcm
    (mk_crypto (fun _ _ _ _ => None) (fun _ _ _ _ _ => OpenFail) (fun _ _ _ _ _ => None) (fun _ _ => true) verify))) as (A & B & _).
  split; [exact A|]. split; [exact B|]. intros h s i f n k E. discriminate E.
Qed.
Lemma real_inverts : forall verify, dec_inverts (real_cr verify).
Proof. intros verify. apply (crypto_for_sizes real_gcm _ real_wf (real_for verify)). Qed.
Lemma real_bytes : forall verify, crypto_bytes (real_cr verify).
Proof.
  intros verify. split; [exact (proj2 (proj2 (proj2 (crypto_for_sizes real_gcm _ real_wf (real_for verify)))) real_gcm_bytes)|].
  intros h s i f n k E. cbn [real_cr with_own_hkdf cr_hkdf] in E. destruct (own_hkdf _ _ _ _ _ _) as [[[]|] okm| |] eqn:O; try discriminate.
  injection E as <-. refine (own_bytes _ _ _ _ _ _ _ _ (bytes_ok_zeros n) O). intros H k d. now apply real_hmac_out.
Qed.
Lemma real_works : forall verify, crypto_works (real_cr verify).
Proof.
  intros verify. constructor.
  - intros k iv a p E. discriminate E.
  - intros h s i f n H L E. cbn [real_cr with_own_hkdf cr_hkdf] in E.
    assert (ZL : length (zeros n) = N.to_nat n) by (unfold zeros; apply repeat_length).
    destruct (proj2 (succeeds_lemma real_mac h s i f (zeros n) real_hmac_sane (fun _ => eq_refl) H
      ltac:(unfold Nlen; rewrite ZL; change two64 with 18446744073709551616; lia))) as (okm & X).
    { rewrite ZL, digest_md. destruct h; [contradiction| | |]; cbn; lia. }
    rewrite X in E. discriminate E.
  - reflexivity.
Qed.
Lemma C82_real_lemma : forall verify,
  gcm_wf real_gcm /\ gcm_bytes real_gcm /\ hmac_sane real_hmac /\ crypto_for real_gcm (real_cr verify) /\
  crypto_sizes (real_cr verify) /\ crypto_bytes (real_cr verify) /\ dec_inverts (real_cr verify) /\ crypto_works (real_cr verify).
Proof.
  intros verify. split; [exact real_wf|]. split; [exact real_gcm_bytes|]. split; [exact real_hmac_sane|]. split; [exact (real_for verify)|].
  split; [exact (real_sizes verify)|]. split; [exact (real_bytes verify)|]. split; [exact (real_inverts verify)|exact (real_works verify)].
Qed.
