(** C68: the library's own key derivation is HKDF of RFC 5869. *)
From Verif Require Import Base AlgModel CryptoModel SessionModel WireSpec SessionSpec LiveSpec HkdfModel HkdfSpec HkdfProofs HkdfExamples SessionExamples LiveExamples.
From Coq Require Import Arith Lia.
Import List.
Open Scope list_scope.
Open Scope N_scope.

(** What it derives is the output keying material of RFC 5869, whatever the buffer held before.  (A buffer within 64 bytes of the
    whole address space is excluded: there line 88 wraps around.) *)
Theorem C68_output_is_rfc5869 : forall m sha salt ikm info okm0 okm, hmac_sane (mac_fn m) -> sha <> NOSHA -> Nlen okm0 + 64 <= two64 ->
  own_hkdf m sha salt ikm info okm0 = HRet (Ok tt) okm ->
  rfc_hkdf (mac_fn m sha) (digest_len sha) salt ikm info (length okm0) okm.
Proof. exact rfc_lemma. Qed.
Print Assumptions C68_output_is_rfc5869.

(** It never writes outside the buffer and never fails an assertion, whichever OpenSSL call fails; after an error the buffer is
    untouched or all zeros. *)
Theorem C68_no_partial_output : forall m sha salt ikm info okm0, hmac_sane (mac_fn m) -> sha <> NOSHA -> Nlen okm0 + 64 <= two64 ->
  exists rc okm, own_hkdf m sha salt ikm info okm0 = HRet rc okm /\ length okm = length okm0 /\
    (rc = Ok tt \/ (exists e, rc = Err e) /\ (okm = okm0 \/ okm = zeros (Nlen okm0))).
Proof. exact outcome_lemma. Qed.
Print Assumptions C68_no_partial_output.

(** If OpenSSL does not fail, it succeeds exactly for the lengths RFC 5869 permits, other than zero. *)
Theorem C68_succeeds_iff_permitted : forall m sha salt ikm info okm0, hmac_sane (mac_fn m) -> (forall i, mac_fails m i = false) ->
  sha <> NOSHA -> Nlen okm0 + 64 <= two64 ->
  ((exists okm, own_hkdf m sha salt ikm info okm0 = HRet (Ok tt) okm) <-> (0 < length okm0 <= 255 * digest_len sha)%nat).
Proof. exact succeeds_lemma. Qed.
Print Assumptions C68_succeeds_iff_permitted.

(** With it, the content key of every message is the one RFC 5869 gives. *)
Theorem C68_content_key : forall cr m alg mid dk k, hmac_sane (mac_fn m) -> (forall i, mac_fails m i = false) ->
  (content_key (with_own_hkdf cr m) alg mid dk k <-> rfc_key (mac_fn m) alg mid dk P_CONTENT k).
Proof. exact content_lemma. Qed.
Print Assumptions C68_content_key.

(** And so is the key commitment. *)
Theorem C68_commitment : forall cr m alg mid dk k, hmac_sane (mac_fn m) -> (forall i, mac_fails m i = false) -> In alg v2_suites ->
  (key_commitment (with_own_hkdf cr m) mid dk k <-> rfc_key (mac_fn m) alg mid dk P_COMMIT k).
Proof. exact commit_lemma. Qed.
Print Assumptions C68_commitment.

(** It meets what other theorems (C13, C16, C67, ...) assume of key derivation. *)
Theorem C68_meets_assumptions : forall cr m, hmac_sane (mac_fn m) -> (forall i, mac_fails m i = false) ->
  crypto_sizes cr -> crypto_works cr -> crypto_sizes (with_own_hkdf cr m) /\ crypto_works (with_own_hkdf cr m).
Proof. intros cr m S F A B. split; [exact (with_own_sizes cr m A)|exact (with_own_works cr m S F B)]. Qed.
Print Assumptions C68_meets_assumptions.

(** The test cases of RFC 5869 (A.1 to A.3). *)
Example C68_example_A1 : own_hkdf test_mac SHA256 (map N.of_nat (seq 0 13)) (repeat 11 22) (map N.of_nat (seq 240 10)) (repeat 77 42) = HRet (Ok tt)
  [60; 178; 95; 37; 250; 172; 213; 122; 144; 67; 79; 100; 208; 54; 47; 42; 45; 45; 10; 144; 207; 26; 90; 76; 93; 176; 45; 86; 236; 196; 197; 191; 52; 0; 114; 8; 213; 184; 135; 24; 88; 101].
Proof. vm_compute. reflexivity. Qed.
Example C68_example_A2 : own_hkdf test_mac SHA256 (map N.of_nat (seq 96 80)) (map N.of_nat (seq 0 80)) (map N.of_nat (seq 176 80)) (repeat 77 82) = HRet (Ok tt)
  [177; 30; 57; 141; 200; 3; 39; 161; 200; 231; 247; 140; 89; 106; 73; 52; 79; 1; 46; 218; 45; 78; 250; 216; 160; 80; 204; 76; 25; 175; 169; 124; 89; 4; 90; 153; 202; 199; 130; 114; 113; 203; 65; 198; 94; 89; 14; 9; 218; 50; 117; 96; 12; 47; 9; 184; 54; 119; 147; 169; 172; 163; 219; 113; 204; 48; 197; 129; 121; 236; 62; 135; 193; 76; 1; 213; 193; 243; 67; 79; 29; 135].
Proof. vm_compute. reflexivity. Qed.
Example C68_example_A3 : own_hkdf test_mac SHA256 [] (repeat 11 22) [] (repeat 77 42) = HRet (Ok tt)
  [141; 164; 231; 117; 165; 99; 193; 143; 113; 95; 128; 42; 6; 60; 90; 49; 184; 161; 31; 92; 94; 225; 135; 158; 195; 69; 78; 95; 60; 115; 141; 45; 157; 32; 19; 149; 250; 164; 182; 26; 150; 200].
Proof. vm_compute. reflexivity. Qed.

(** The hypotheses are met; a failing call; an impossible length. *)
Example C68_example_sane : hmac_sane (mac_fn test_mac) /\ (forall i, mac_fails test_mac i = false) /\ SHA384 <> NOSHA /\ Nlen (repeat 77 100) + 64 <= two64.
Proof. split; [exact toy_hmac_sane|]. split; [reflexivity|]. split; [discriminate|vm_compute; discriminate]. Qed.
Example C68_example_failure : hmac_sane (mac_fn faulty_mac) /\ own_hkdf faulty_mac SHA512 [1] [2] [3] (repeat 77 100) = HRet (Err E_CRYPTO_UNKNOWN) (repeat 0 100).
Proof. split; [exact toy_hmac_sane|vm_compute; reflexivity]. Qed.
Example C68_example_empty : own_hkdf test_mac SHA512 [1] [2] [3] [] = HRet (Err E_CRYPTO_UNKNOWN) [].
Proof. vm_compute. reflexivity. Qed.
Example C68_example_key : exists k com, content_key (with_own_hkdf toy_cr test_mac) 0x0578 (repeat 5 32) (repeat 6 32) k /\
  key_commitment (with_own_hkdf toy_cr test_mac) (repeat 5 32) (repeat 6 32) com /\ Nlen k = 32 /\ k <> com.
Proof.
  eexists. eexists. split; [apply ck_commit; [vm_compute; auto|vm_compute; reflexivity]|]. split; [vm_compute; reflexivity|].
  split; [reflexivity|discriminate].
Qed.
