(** Key derivation, header authentication and body encryption: source/cipher.c 282-806,
    source/hkdf.c 46-181.  OpenSSL is a set of oracles ([crypto]). *)
From Verif Require Import Base AlgModel FrameModel.
From Coq Require Import String Ascii.
Import List.
Open Scope list_scope.
Open Scope N_scope.

(** struct aws_cryptosdk_sig_ctx: an opaque key handle and everything hashed so far. *)
Record sigctx := mk_sigctx { sc_key : list N; sc_data : list N }.

(** Outcome of AES-GCM decryption: plaintext, tag mismatch (EVP_DecryptFinal_ex fails with an
    empty OpenSSL error queue), or any other OpenSSL failure. *)
Inductive open_result := OpenOk (pt : list N) | OpenBadTag | OpenFail.

(** The OpenSSL primitives.  AES-GCM with a 12-byte IV and a 16-byte tag takes key, IV, additional
    data and text; the cipher (AES-128/192/256) is determined by the key length.  [cr_hkdf] takes hash,
    salt, input key, info and output length.  [cr_upd_ok] is the result of EVP_DigestUpdate,
    [cr_verify] of EVP_DigestVerifyFinal.  Simplification: whether these calls fail is a function
    of their arguments. *)
Record crypto := mk_crypto {
  cr_enc : list N -> list N -> list N -> list N -> option (list N * list N);
  cr_dec : list N -> list N -> list N -> list N -> list N -> open_result;
  cr_hkdf : sha_version -> list N -> list N -> list N -> N -> option (list N);
  cr_upd_ok : sigctx -> list N -> bool;
  cr_verify : sigctx -> list N -> bool;
}.

(** A C string literal as bytes (without terminator). *)
Fixpoint c_str (s : string) : list N :=
  match s with
  | EmptyString => []
  | String a s' => N_of_ascii a :: c_str s'
  end.

(** EVP_MD_size of aws_cryptosdk_get_evp_md, source/hkdf.c 20-37 *)
Definition md_size (sha : sha_version) : N :=
  match sha with NOSHA => 0 | SHA256 => 32 | SHA384 => 48 | SHA512 => 64 end.

(** Return code of the key derivation: success; an error code that is returned but not raised;
    AWS_OP_ERR with CRYPTO_UNKNOWN (or UNSUPPORTED_FORMAT) raised by aws_cryptosdk_hkdf. *)
Inductive kdf_rc := KOk | KCode (e : err) | KRaised (e : err).

(** aws_cryptosdk_hkdf, source/hkdf.c 124-181: an empty salt is replaced by md_size zero bytes. *)
Definition hkdf (cr : crypto) (sha : sha_version) (salt ikm info : list N) (len : N)
  : list N + err :=
  match sha with
  | NOSHA => inr E_UNSUPPORTED_FORMAT
  | _ =>
      let salt' := match salt with [] => zeros (md_size sha) | _ => salt end in
      match cr_hkdf cr sha salt' ikm info len with
      | Some okm => inl okm
      | None => inr E_CRYPTO_UNKNOWN
      end
  end.

(** Result of key derivation: return code, content key, key commitment array.
    Simplification: content_key.keybuf is always 32 bytes, zero-padded; only the first
    content_key_len bytes are ever used and only these are kept after derivation. *)
Record kdf_result := mk_kdf { kd_rc : kdf_rc; kd_key : list N; kd_commit : list N }.

(** aws_cryptosdk_private_derive_key_v1, source/cipher.c 319-350 *)
Definition derive_key_v1 (cr : crypto) (p : alg_props) (dk mid key0 commit0 : list N) : kdf_result :=
  if negb (Nlen mid =? 16) then mk_kdf (KCode E_UNSUPPORTED_FORMAT) key0 commit0
  else
    let info := be_bytes 2 (ap_id p) ++ mid in
    match which_sha (ap_id p) with
    | NOSHA => mk_kdf KOk dk commit0
    | sha =>
        match hkdf cr sha [] dk info (ap_content_key_len p) with
        | inl okm => mk_kdf KOk okm commit0
        | inr e => mk_kdf (KRaised e) (zeros 32) commit0
        end
    end.

(** aws_cryptosdk_private_derive_key_v2, source/cipher.c 352-406.  [ccap] is the capacity of the
    commitment buffer, which lies over session->key_commitment_arr. *)
Definition derive_key_v2 (cr : crypto) (p : alg_props) (dk mid : list N) (ccap : N)
  (key0 commit0 : list N) : kdf_result :=
  if ccap <? ap_commitment_len p then mk_kdf (KCode E_CRYPTO_UNKNOWN) key0 commit0
  else if negb (Nlen mid =? 32) then mk_kdf (KCode E_UNSUPPORTED_FORMAT) key0 commit0
  else
    match which_sha (ap_id p) with
    | NOSHA => mk_kdf (KCode E_UNSUPPORTED_FORMAT) (zeros 32) (zeros (ap_commitment_len p))
    | sha =>
        match hkdf cr sha mid dk (c_str "COMMITKEY") (ap_commitment_len p) with
        | inr e => mk_kdf (KRaised e) (zeros 32) (zeros (ap_commitment_len p))
        | inl com =>
            match hkdf cr sha mid dk (be_bytes 2 (ap_id p) ++ c_str "DERIVEKEY")
                    (ap_content_key_len p) with
            | inr e => mk_kdf (KRaised e) (zeros 32) com
            | inl okm => mk_kdf KOk okm com
            end
        end
    end.

(** aws_cryptosdk_private_derive_key, source/cipher.c 408-433.  [clen] is both length and capacity
    of the commitment buffer (aws_byte_buf_from_array). *)
Definition derive_key (cr : crypto) (p : alg_props) (dk mid : list N) (clen : N)
  (key0 commit0 : list N) : kdf_result :=
  if ap_version p =? HEADER_VERSION_1_0 then
    if negb (clen =? 0) then mk_kdf (KCode E_CRYPTO_UNKNOWN) key0 commit0
    else derive_key_v1 cr p dk mid key0 commit0
  else if ap_version p =? HEADER_VERSION_2_0 then derive_key_v2 cr p dk mid clen key0 commit0
  else mk_kdf (KCode E_UNSUPPORTED_FORMAT) key0 commit0.

(** aws_cryptosdk_private_commitment_eq, source/cipher.c 282-317 *)
Definition commitment_eq (a b : list N) : bool :=
  if negb (Nlen a =? Nlen b) then false
  else if Nlen a =? 0 then true
  else if negb (Nlen a =? 32) then false
  else bytes_eqb a b.

(** The key bytes read by the cipher selected by evp_gcm_cipher_init, source/cipher.c 435-454 *)
Definition cipher_key (p : alg_props) (key : list N) : list N :=
  firstn (N.to_nat (ap_content_key_len p)) key.

(** aws_cryptosdk_sign_header, source/cipher.c 504-561: the IV used and the tag. *)
Definition sign_header_tag (cr : crypto) (p : alg_props) (key to_sign : list N)
  : res (list N * list N) :=
  if (ap_version p =? HEADER_VERSION_1_0) || (ap_version p =? HEADER_VERSION_2_0) then
    let iv := zeros (ap_iv_len p) in
    match cr_enc cr (cipher_key p key) iv to_sign [] with
    | Some (_, tag) => Ok (iv, tag)
    | None => Err E_CRYPTO_UNKNOWN
    end
  else Err E_CRYPTO_UNKNOWN.

(** aws_cryptosdk_verify_header, source/cipher.c 563-613: [authtag] is IV and tag (version 1) or
    the tag alone (version 2).  The first component is the IV used. *)
Definition verify_header (cr : crypto) (p : alg_props) (key authtag header : list N)
  : list N * res unit :=
  let attempt iv tag :=
    (iv, match cr_dec cr (cipher_key p key) iv header [] tag with
         | OpenOk _ => Ok tt
         | OpenBadTag => Err E_BAD_CIPHERTEXT
         | OpenFail => Err E_CRYPTO_UNKNOWN
         end) in
  if ap_version p =? HEADER_VERSION_1_0 then
    if negb (Nlen authtag =? ap_iv_len p + ap_tag_len p) then ([], Err E_BAD_CIPHERTEXT)
    else attempt (firstn (N.to_nat (ap_iv_len p)) authtag) (skipn (N.to_nat (ap_iv_len p)) authtag)
  else if ap_version p =? HEADER_VERSION_2_0 then
    if negb (Nlen authtag =? ap_tag_len p) then ([], Err E_BAD_CIPHERTEXT)
    else attempt (zeros 12) authtag
  else ([], Err E_CRYPTO_UNKNOWN).

(** update_frame_aad, source/cipher.c 615-644: the additional data of a frame.  [seqno] is a
    uint32_t, [size] a uint64_t. *)
Definition aad_string (ty : frame_type) : list N :=
  match ty with
  | FRAME_TYPE_SINGLE => c_str "AWSKMSEncryptionClient Single Block"
  | FRAME_TYPE_FRAME => c_str "AWSKMSEncryptionClient Frame"
  | FRAME_TYPE_FINAL => c_str "AWSKMSEncryptionClient Final Frame"
  end.
Definition frame_aad (mid : list N) (ty : frame_type) (seqno size : N) : list N :=
  mid ++ aad_string ty ++ be_bytes 4 seqno ++ be_bytes 4 (size / two32) ++ be_bytes 4 (size mod two32).

(** IV of a body frame, source/cipher.c 679-693 *)
Definition frame_iv (p : alg_props) (seqno : N) : list N :=
  zeros (ap_iv_len p - 8) ++ be_bytes 8 seqno.

(** aws_cryptosdk_encrypt_body, source/cipher.c 646-744; [cap] is the capacity of the output
    buffer.  AES-GCM is assumed length-preserving (then the checks of 706-712 and 726-729 never
    fire); a longer result is the abort() of line 728. *)
Inductive seal_result := SealOk (iv ct tag : list N) | SealErr (e : err) | SealAbort.
Definition encrypt_body (cr : crypto) (p : alg_props) (cap : N) (pt mid : list N) (seqno : N)
  (key : list N) (ty : frame_type) : seal_result :=
  if negb (Nlen pt =? cap) then SealErr E_SHORT_BUFFER
  else if seqno =? 0 then SealErr E_CRYPTO_UNKNOWN
  else if ap_iv_len p <? 8 then SealErr E_CRYPTO_UNKNOWN
  else
    let iv := frame_iv p seqno in
    match cr_enc cr (cipher_key p key) iv (frame_aad mid ty seqno (Nlen pt)) pt with
    | None => SealErr E_CRYPTO_UNKNOWN
    | Some (ct, tag) => if Nlen pt <? Nlen ct then SealAbort else SealOk iv ct tag
    end.

(** aws_cryptosdk_decrypt_body, source/cipher.c 746-806; [room] is the free capacity of the
    output buffer; a longer result is the abort() of line 791. *)
Inductive unseal_result := UnsealOk (pt : list N) | UnsealErr (e : err) | UnsealAbort.
Definition decrypt_body (cr : crypto) (p : alg_props) (room : N) (ct mid : list N) (seqno : N)
  (iv key tag : list N) (ty : frame_type) : unseal_result :=
  if negb (Nlen ct =? room) then UnsealErr E_SHORT_BUFFER
  else
    match cr_dec cr (cipher_key p key) iv (frame_aad mid ty seqno (Nlen ct)) ct tag with
    | OpenOk pt => if room <? Nlen pt then UnsealAbort else UnsealOk pt
    | OpenBadTag => UnsealErr E_BAD_CIPHERTEXT
    | OpenFail => UnsealErr E_CRYPTO_UNKNOWN
    end.
