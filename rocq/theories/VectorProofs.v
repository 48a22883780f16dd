(** The model run on the test messages of /repo. *)
From Verif Require Import Base AlgModel EncCtxModel HdrModel CryptoModel SessionModel KeyringModel KeyringExamples RealCrypto VectorData.
From Coq Require Import String.
Import List.
Open Scope list_scope.
Open Scope N_scope.

(** Messages without signature: the plaintext, or [None] if the message must be refused. *)
Definition plain_kats : list (kat * option (list N)) :=
  [(kat_1, Some file_good_commitment_pt); (kat_2, None); (kat_12, None); (kat_22, Some (ascii_bytes "testing12"));
   (kat_30, Some (wk_plain write_30)); (kat_40, Some (ascii_bytes "testing12"))].
(** What a run must do. *)
Definition answers (x : bool * api_rc * list N) (plain : option (list N)) : Prop :=
  match plain with
  | Some p => x = (true, POk, p)
  | None => x = (false, PErr E_BAD_CIPHERTEXT, [])
  end.
Definition reads (verify : sigctx -> list N -> bool) (x : kat * option (list N)) : Prop :=
  kt_ok (fst x) = match snd x with Some _ => true | None => false end /\
  answers (kat_run verify CP_REQUIRE_REQUIRE (stub_keyring (from_b64 (kt_key (fst x)))) (Nlen (from_b64 (kt_message (fst x)))) (from_b64 (kt_message (fst x)))) (snd x).
Lemma C82_plain_lemma : forall verify, Forall (reads verify) plain_kats.
Proof.
  intros verify. repeat (apply Forall_cons; [split; [reflexivity|]; vm_compute; reflexivity|]). constructor.
Qed.

(** tests/decrypt.c with the arguments of tests/CMakeLists.txt 106-117: keyring, message, plaintext. *)
Definition files (verify : sigctx -> list N -> bool) : list (keyring * list N * N * option (list N)) :=
  let aes := raw_aes_keyring (real_cr verify) zero_aes toy_ke in
  [(zero_keyring, file_aes128, 1, Some file_aes128_pt); (zero_keyring, file_bad_header, 1, None); (zero_keyring, file_hello, 13, Some file_hello_pt);
   (zero_keyring, file_tiny, 13, Some file_hello_pt); (aes, file_bad_commitment, 13, None); (aes, file_good_commitment, 14, Some file_good_commitment_pt)].
Lemma C82_files_lemma : forall verify, Forall (fun x => let '(k, msg, cap, plain) := x in answers (kat_run verify CP_REQUIRE_ALLOW k cap msg) plain) (files verify).
Proof.
  intros verify. repeat (apply Forall_cons; [vm_compute; reflexivity|]). constructor.
Qed.

(** Messages with a signature.  The verification says [b] for the public key, the signed part and the signature of [x]; for
    anything else it says what [other] says. *)
Definition signed_run (verify : sigctx -> list N -> bool) (x : signed_kat) : bool * api_rc * list N :=
  kat_run verify CP_REQUIRE_REQUIRE (stub_keyring (from_b64 (kt_key (sk_kat x)))) (Nlen (sk_message x)) (sk_message x).
Definition says (x : signed_kat) (b : bool) (other : sigctx -> list N -> bool) (sc : sigctx) (sg : list N) : bool :=
  if bytes_eqb (sc_key sc) (sk_public_key x) && bytes_eqb (sc_data sc) (sk_signed x) && bytes_eqb sg (sk_signature x) then b else other sc sg.
Definition reads_signed (other : sigctx -> list N -> bool) (x : signed_kat) : Prop :=
  answers (signed_run (says x true other) x) (Some (sk_plain x)) /\ answers (signed_run (says x false other) x) None.
Lemma C82_signed_lemma : forall other, Forall (reads_signed other) [signed_34; signed_38].
Proof.
  intros other. repeat (apply Forall_cons; [split; vm_compute; reflexivity|]). constructor.
Qed.
Lemma C82_signed_refused_lemma : forall verify, reads verify (kat_13, None).
Proof. intros verify. split; [reflexivity|]. vm_compute. reflexivity. Qed.

Lemma C82_writes_lemma : Forall (fun x => wk_run x = (true, POk, wk_message x)) [write_24; write_28; write_34; write_36; write_42].
Proof. repeat (apply Forall_cons; [vm_compute; reflexivity|]). constructor. Qed.
