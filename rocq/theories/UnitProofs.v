(** The model run on the known answers of the unit tests of /repo. *)
From Verif Require Import Base AlgModel EncCtxModel HdrModel FrameModel CryptoModel HkdfModel KeyringModel KeyringExamples RealCrypto VectorData UnitData.
From Coq Require Import String.
Import List.
Open Scope list_scope.
Open Scope N_scope.

(** test_kdf_committing and ASSERT_KDF, tests/unit/t_cipher.c 29-146 *)
Definition derives (cr : crypto) (x : kdf_kat) : Prop :=
  match alg_lookup (kk_alg x) with
  | Some p => derive_key cr p (kk_data_key x) (kk_mid x) (Nlen (kk_commit x)) (zeros 32) (zeros (Nlen (kk_commit x))) = mk_kdf KOk (kk_content_key x) (kk_commit x)
  | None => False
  end.
Lemma C84_kdf_lemma : forall verify, Forall (derives (real_cr verify)) kdf_kats.
Proof. intros verify. repeat (apply Forall_cons; [vm_compute; reflexivity|]). constructor. Qed.

(** test_frame_enc_dec, tests/unit/t_cipher.c 222-304 *)
Definition seals (cr : crypto) (x : frame_kat) : Prop :=
  match alg_lookup (fk_alg x) with
  | Some p =>
      encrypt_body cr p (Nlen (fk_pt x)) (fk_pt x) (fk_mid x) (fk_seqno x) (fk_key x) FRAME_TYPE_FRAME = SealOk (fk_iv x) (fk_ct x) (fk_tag x) /\
      decrypt_body cr p (Nlen (fk_ct x)) (fk_ct x) (fk_mid x) (fk_seqno x) (fk_iv x) (fk_key x) (fk_tag x) FRAME_TYPE_FRAME = UnsealOk (fk_pt x)
  | None => False
  end.
Lemma C84_frames_lemma : forall verify, Forall (seals (real_cr verify)) frame_kats.
Proof. intros verify. repeat (apply Forall_cons; [vm_compute; split; reflexivity|]). constructor. Qed.

(** testHeaderAuth, tests/unit/t_cipher.c 410-469 (without the flipping of bits): the content key is derived from the data key and
    the message id in the header; the header verifies.  Signing the header gives the same authentication fields. *)
Definition header_mid (p : alg_props) (h : list N) : list N :=
  if ap_version p =? HEADER_VERSION_1_0 then firstn 16 (skipn 4 h) else firstn 32 (skipn 3 h).
Definition verifies (cr : crypto) (x : header_kat) : Prop :=
  match alg_lookup (hk_alg x) with
  | Some p =>
      let r := derive_key cr p (hk_data_key x) (header_mid p (hk_header x)) (ap_commitment_len p) (zeros 32) (zeros (ap_commitment_len p)) in
      kd_rc r = KOk /\
      snd (verify_header cr p (kd_key r) (hk_auth x) (hk_header x)) = Ok tt /\
      sign_header_tag cr p (kd_key r) (hk_header x) =
        Ok (zeros 12, if ap_version p =? HEADER_VERSION_1_0 then skipn 12 (hk_auth x) else hk_auth x)
  | None => False
  end.
Lemma C84_headers_lemma : forall verify, Forall (verifies (real_cr verify)) header_kats.
Proof. intros verify. repeat (apply Forall_cons; [vm_compute; repeat split; reflexivity|]). constructor. Qed.

(** test_hkdf, tests/unit/t_hkdf.c *)
Definition expands (x : hkdf_kat) : Prop :=
  own_hkdf real_mac (hv_sha x) (hv_salt x) (hv_ikm x) (hv_info x) (zeros (Nlen (hv_okm x))) = HRet (Ok tt) (hv_okm x).
Lemma C84_hkdf_lemma : Forall expands hkdf_kats.
Proof. repeat (apply Forall_cons; [vm_compute; reflexivity|]). constructor. Qed.

(** raw_aes_keyring_encrypt_data_key_test_vectors and decrypt_data_key_test_vectors *)
Definition evil : enc_ctx := [(ascii_bytes "RFC 3514", ascii_bytes "setting the evil bit to 1")].
Definition unwraps (cr : crypto) (k : raw_aes) (edks : list edk) (ctx : enc_ctx) (alg : N) (dk : option (list N)) : Prop :=
  raw_aes_on_decrypt cr k toy_ke edks ctx alg (mk_dargs None []) =
    match dk with
    | Some d => (mk_dargs (Some (mk_kbuf (ke_meta toy_ke) d)) [mk_trace_rec (ascii_bytes "static-random") tv_name (N.lor FLAG_DECRYPTED FLAG_VERIFIED_CTX)], KrOk)
    | None => (mk_dargs None [], KrOk)
    end.
Definition wraps (cr : crypto) (x : aes_kat) : Prop :=
  let k := tv_keyring (ak_wrap x) in
  let e := tv_edk (ak_iv x) (ak_bytes x) in
  aes_wrap cr k toy_ke (ak_data_key x) (Nlen (ak_data_key x)) [] (ak_ctx x) (ak_iv x) = ([e], Ok tt) /\
  unwraps cr k [e] (ak_ctx x) (ak_alg x) (Some (ak_data_key x)) /\
  unwraps cr k [e] (ak_ctx x ++ evil) (ak_alg x) None.
Lemma C84_aes_lemma : forall verify, Forall (wraps (real_cr verify)) aes_kats.
Proof. intros verify. repeat (apply Forall_cons; [vm_compute; repeat split; reflexivity|]). constructor. Qed.
(** decrypt_data_key_multiple_edks and decrypt_data_key_no_good_edk *)
Definition good_edk : edk := tv_edk good_iv good_bytes.
Lemma C84_wrong_lemma : forall verify,
  unwraps (real_cr verify) (tv_keyring 32) wrong_edks [] 0x0178 None /\
  unwraps (real_cr verify) (tv_keyring 32) (wrong_edks ++ [good_edk]) [] 0x0178 (Some (ak_data_key (nth 0 aes_kats (mk_aes_kat 0 0 [] [] [] [])))).
Proof. intros verify. split; vm_compute; reflexivity. Qed.
