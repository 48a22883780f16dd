(** C84: the model gives the known answers of the unit tests of /repo. *)
From Verif Require Import Base AlgModel EncCtxModel HdrModel FrameModel CryptoModel HkdfModel KeyringModel KeyringExamples RealCrypto VectorData UnitData UnitProofs.
From Coq Require Import String.
Import List.
Open Scope list_scope.
Open Scope N_scope.

(** Key derivation: content key and commitment, for each of the eleven suites. *)
Theorem C84_derives_known_keys : forall verify, Forall (derives (real_cr verify)) kdf_kats.
Proof. exact C84_kdf_lemma. Qed.
Print Assumptions C84_derives_known_keys.
Example kdf_suites : map kk_alg kdf_kats = [0x0478; 0x0578; 0x0014; 0x0046; 0x0078; 0x0114; 0x0146; 0x0178; 0x0214; 0x0346; 0x0378].
Proof. reflexivity. Qed.
Example known_suites : forall id p, alg_lookup id = Some p -> In id (map kk_alg kdf_kats).
Proof.
  intros id p. replace (map kk_alg kdf_kats) with [0x0478; 0x0578; 0x0014; 0x0046; 0x0078; 0x0114; 0x0146; 0x0178; 0x0214; 0x0346; 0x0378] by reflexivity.
  unfold alg_lookup.
  repeat (match goal with |- context [if id =? ?c then _ else _] => destruct (id =? c) eqn:?E end;
    [match goal with H : (id =? _) = true |- _ => apply N.eqb_eq in H; rewrite H end; intros _; cbn; tauto|]).
  discriminate.
Qed.

(** Frames: sealing gives the known IV, ciphertext and tag, and opening gives the plaintext. *)
Theorem C84_seals_known_frames : forall verify, Forall (seals (real_cr verify)) frame_kats.
Proof. exact C84_frames_lemma. Qed.
Print Assumptions C84_seals_known_frames.
Example frame_suites : map fk_alg frame_kats = [0x0014; 0x0046; 0x0078; 0x0114; 0x0178; 0x0146; 0x0346; 0x0214; 0x0378].
Proof. reflexivity. Qed.

(** Headers: with the content key derived from the known data key, the header verifies, and signing it gives the known tag. *)
Theorem C84_verifies_known_headers : forall verify, Forall (verifies (real_cr verify)) header_kats.
Proof. exact C84_headers_lemma. Qed.
Print Assumptions C84_verifies_known_headers.
Example header_suites : map hk_alg header_kats = [0x0014; 0x0046; 0x0078; 0x0114; 0x0378; 0x0478].
Proof. reflexivity. Qed.

(** HKDF: the vectors, and the refusal of a derivation without hash whatever the arguments are. *)
Theorem C84_hkdf_known_answers : Forall expands hkdf_kats /\
  forall salt ikm info okm, own_hkdf real_mac NOSHA salt ikm info okm = HRet (Err E_UNSUPPORTED_FORMAT) okm.
Proof. exact (conj C84_hkdf_lemma (fun _ _ _ _ => eq_refl)). Qed.
Print Assumptions C84_hkdf_known_answers.
Example hkdf_hashes : map hv_sha hkdf_kats = [SHA256; SHA256; SHA384] /\ map (fun x => Nlen (hv_okm x)) hkdf_kats = [42; 42; 42].
Proof. split; reflexivity. Qed.

(** Raw AES keyring: wrapping the known data key under the known IV gives the known EDK; the EDK unwraps to the data key, and to
    nothing with one more pair in the encryption context. *)
Theorem C84_wraps_known_keys : forall verify, Forall (wraps (real_cr verify)) aes_kats.
Proof. exact C84_aes_lemma. Qed.
Print Assumptions C84_wraps_known_keys.
Example wrapping_keys : map ak_wrap aes_kats = [32; 24; 16; 32; 32]%nat.
Proof. reflexivity. Qed.

(** The nine wrong EDKs of the tests unwrap to nothing; a good one after them is found. *)
Theorem C84_skips_wrong_keys : forall verify,
  unwraps (real_cr verify) (tv_keyring 32) wrong_edks [] 0x0178 None /\
  unwraps (real_cr verify) (tv_keyring 32) (wrong_edks ++ [good_edk]) [] 0x0178 (Some (ak_data_key (nth 0 aes_kats (mk_aes_kat 0 0 [] [] [] [])))).
Proof. exact C84_wrong_lemma. Qed.
Print Assumptions C84_skips_wrong_keys.
Example nine_wrong : length wrong_edks = 9%nat /\ NoDup wrong_edks /\ ~ In good_edk wrong_edks.
Proof.
  split; [reflexivity|].  split.
  - repeat (apply NoDup_cons; [cbn [In]; intro H; repeat (destruct H as [H|H]; [discriminate H|]); exact H|]). apply NoDup_nil.
  - cbn [wrong_edks In]. intro H. repeat (destruct H as [H|H]; [discriminate H|]). exact H.
Qed.
