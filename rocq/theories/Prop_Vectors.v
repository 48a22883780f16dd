(** C82: the oracles instantiated with the algorithms OpenSSL implements, and the model run on the test messages of /repo. *)
From Verif Require Import Base AlgModel CryptoModel SessionModel SessionSpec StreamSpec LiveSpec StackSpec HkdfSpec CipherModel CipherSpec
  KeyringModel KeyringExamples HkdfExamples RealCrypto RealProofs VectorData VectorProofs.
From Coq Require Import String.
Import List.
Open Scope list_scope.
Open Scope N_scope.

(** AES-GCM, HMAC and HKDF have the properties that the other theorems assume of the primitives, whatever [verify] is. *)
Theorem C82_real_algorithms : forall verify,
  gcm_wf real_gcm /\ gcm_bytes real_gcm /\ hmac_sane real_hmac /\ crypto_for real_gcm (real_cr verify) /\
  crypto_sizes (real_cr verify) /\ crypto_bytes (real_cr verify) /\ dec_inverts (real_cr verify) /\ crypto_works (real_cr verify).
Proof. exact C82_real_lemma. Qed.
Print Assumptions C82_real_algorithms.

(** Known answers of the standards.  AES: FIPS 197, appendix C. *)
Definition upto (n : nat) : list N := map N.of_nat (seq 0 n).
Definition fips_block : list N := map (fun i => 17 * N.of_nat i) (seq 0 16).
Example aes_128 : be_num (aes (upto 16) fips_block) = 0x69c4e0d86a7b0430d8cdb78070b4c55a.
Proof. vm_compute. reflexivity. Qed.
Example aes_192 : be_num (aes (upto 24) fips_block) = 0xdda97ca4864cdfe06eaf70a0ec0d7191.
Proof. vm_compute. reflexivity. Qed.
Example aes_256 : be_num (aes (upto 32) fips_block) = 0x8ea2b7ca516745bfeafc49904b496089.
Proof. vm_compute. reflexivity. Qed.
(** GCM: test cases 4 and 5 of the GCM specification (McGrew, Viega). *)
Definition gcm_key : list N := be_bytes 16 0xfeffe9928665731c6d6a8f9467308308.
Definition gcm_plain : list N := be_bytes 60 0xd9313225f88406e5a55909c5aff5269a86a7a9531534f7da2e4c303d8a318a721c3c0c95956809532fcf0e2449a6b525b16aedf5aa0de657ba637b39.
Definition gcm_aad : list N := be_bytes 20 0xfeedfacedeadbeeffeedfacedeadbeefabaddad2.
Definition sealed_as (iv : list N) (c t : N) : Prop :=
  match cr_enc (real_cr (fun _ _ => false)) gcm_key iv gcm_aad gcm_plain with Some (x, y) => be_num x = c /\ be_num y = t | None => False end.
Example gcm_4 : sealed_as (be_bytes 12 0xcafebabefacedbaddecaf888)
  0x42831ec2217774244b7221b784d0d49ce3aa212f2c02a4e035c17e2329aca12e21d514b25466931c7d8f6a5aac84aa051ba30b396a0aac973d58e091
  0x5bc94fbc3221a5db94fae95ae7121a47.
Proof. vm_compute. split; reflexivity. Qed.
Example gcm_5_tag : be_num (real_tag gcm_key (be_bytes 8 0xcafebabefacedbad) gcm_aad
  (xor_from (real_stream gcm_key (be_bytes 8 0xcafebabefacedbad)) 0 gcm_plain)) = 0x3612d2e79e3b0785561be14aaca2fccb.
Proof. vm_compute. reflexivity. Qed.
(** SHA-512 and SHA-384 of "abc": FIPS 180-4 examples. *)
Example sha512_abc : be_num (sha512 [97; 98; 99]) =
  0xddaf35a193617abacc417349ae20413112e6fa4e89a97ea20a9eeee64b55d39a2192992a274fc1a836ba3c23a3feebbd454d4423643ce80e2a9ac94fa54ca49f.
Proof. vm_compute. reflexivity. Qed.
Example sha384_abc : be_num (sha384 [97; 98; 99]) =
  0xcb00753f45a35e8bb5a03d699ac65007272c32ab0eded1631a8b605a43ff5bed8086072ba1e7cc2358baeca134c825a7.
Proof. vm_compute. reflexivity. Qed.
(** HMAC: RFC 4231, test case 2. *)
Example hmac_512 : be_num (real_hmac SHA512 (ascii_bytes "Jefe") (ascii_bytes "what do ya want for nothing?")) =
  0x164b7a7bfcf819e2e395fbe73b56e0a387bd64222e831fd610270cd7ea2505549758bf75c05a994a6d034f65f8f0e6fdcaeab1a34d4a6b4b636e070a38bce737.
Proof. vm_compute. reflexivity. Qed.
Example hmac_384 : be_num (real_hmac SHA384 (ascii_bytes "Jefe") (ascii_bytes "what do ya want for nothing?")) =
  0xaf45d2e376484031617f78d2b58a6b1b9c7ef464f5a01b47e42ec3736322445e8e2240ca5e69e2c78b3239ecfab21649.
Proof. vm_compute. reflexivity. Qed.

(** Decryption in one call with the default CMM over the stub keyring, as in tests/unit/t_commitment.c, does what the tests
    expect and gives the plaintext that was encrypted. *)
Theorem C82_reads_known_messages : forall verify, Forall (reads verify) plain_kats.
Proof. exact C82_plain_lemma. Qed.
Print Assumptions C82_reads_known_messages.

(** Decryption of the messages in tests/data, with the zero keyring of the tests or a raw AES keyring, as in tests/decrypt.c. *)
Theorem C82_reads_known_files : forall verify,
  Forall (fun x => let '(k, msg, cap, plain) := x in answers (kat_run verify CP_REQUIRE_ALLOW k cap msg) plain) (files verify).
Proof. exact C82_files_lemma. Qed.
Print Assumptions C82_reads_known_files.

(** Messages with a signature: everything before the signature is verified against the public key in the encryption context, and
    the plaintext is released exactly if the verification accepts. *)
Theorem C82_reads_known_signed_messages : forall other, Forall (reads_signed other) [signed_34; signed_38].
Proof. exact C82_signed_lemma. Qed.
Print Assumptions C82_reads_known_signed_messages.

(** Two data keys for one ciphertext: refused before the signature matters. *)
Theorem C82_refuses_wrong_commitment : forall verify, reads verify (kat_13, None).
Proof. exact C82_signed_refused_lemma. Qed.
Print Assumptions C82_refuses_wrong_commitment.

(** Encryption: given the data key, message id, encrypted data keys, context and plaintext of messages that the Encryption SDKs for
    JavaScript, C (unframed; signed in frames of 16 bytes), Python and Java (unframed) made, the model writes these messages,
    byte for byte. *)
Theorem C82_writes_known_messages :
  Forall (fun x => wk_run x = (true, POk, wk_message x)) [write_24; write_28; write_34; write_36; write_42].
Proof. exact C82_writes_lemma. Qed.
Print Assumptions C82_writes_known_messages.
Example known_messages_are_long : map (fun x => length (wk_message x)) [write_24; write_28; write_34; write_36; write_42] = [742; 447; 827; 396; 422]%nat.
Proof. vm_compute. reflexivity. Qed.
