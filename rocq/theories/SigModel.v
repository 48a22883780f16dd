(** ECDSA keys and signatures: source/cipher_openssl.c 203-996.

    OpenSSL is an oracle ([ec]): encoding and decoding of points, ASN.1 integers and ECDSA signatures, key generation,
    the group orders.  The base64 codec of aws-c-common is an oracle too.  Calls that can fail only for lack of memory or
    inside OpenSSL are switches ([sig_faults]).  Points and the bytes of a private key (an ASN.1 integer) are opaque
    numbers.  Not modelled here: freeing and wiping of temporaries (wiping is in LocalModel.v), the text printed on stderr. *)
From Verif Require Import Base AlgModel.
From Coq Require Import ZArith String.
Import List.
Open Scope list_scope.
Open Scope N_scope.

(** [curve_name] of the suite, source/cipher.c 166-220; [None] is NULL. *)
Definition alg_curve (alg : N) : option string :=
  if alg =? ALG_AES128_HKDF_P256 then Some "prime256v1"%string
  else if alg =? ALG_AES192_HKDF_P384 then Some "secp384r1"%string
  else if alg =? ALG_AES256_HKDF_P384 then Some "secp384r1"%string
  else if alg =? ALG_AES256_COMMIT_P384 then Some "secp384r1"%string
  else None.

(** [ec_i2o], [ec_i2d]: the bytes written by i2o_ECPublicKey (compressed form) and i2d_ASN1_INTEGER, [None] if no buffer was
    returned.  [ec_o2i], [ec_d2i]: o2i_ECPublicKey and d2i_ASN1_INTEGER, the value and how many bytes were consumed.
    [ec_sig_d2i], [ec_sig_i2d]: d2i_ECDSA_SIG and i2d_ECDSA_SIG on the pair (r, s). *)
Record ec := mk_ec {
  ec_i2o : string -> N -> option (list N);
  ec_o2i : string -> list N -> option (N * N);
  ec_i2d : Z -> option (list N);
  ec_d2i : list N -> option (Z * N);
  ec_b64 : list N -> list N;
  ec_unb64 : list N -> option (list N);
  ec_order : string -> Z;
  ec_sig_d2i : list N -> option (Z * Z);
  ec_sig_i2d : Z * Z -> option (list N)
}.

(** [true]: the call succeeds. *)
Record sig_faults := mk_sig_faults {
  ok_group : bool;      (* group_for_props, 203-219 *)
  ok_key_new : bool;    (* EC_KEY_new *)
  ok_set_group : bool;  (* EC_KEY_set_group *)
  ok_to_asn1 : bool;    (* BN_to_ASN1_INTEGER *)
  ok_to_bn : bool;      (* ASN1_INTEGER_to_BN *)
  ok_set_priv : bool;   (* EC_KEY_set_private_key *)
  ok_string : bool;     (* aws_string_new_from_array *)
  ok_ctx : bool;        (* aws_mem_acquire of the context *)
  ok_pkey : bool;       (* EVP_PKEY_new, EVP_PKEY_set1_EC_KEY, EVP_MD_CTX_new *)
  ok_digest : bool      (* EVP_DigestInit, EVP_DigestVerifyInit *)
}.

(** struct aws_cryptosdk_sig_ctx, source/cipher_openssl.c 89-96, without the digest state.  A context for verification has no
    private key. *)
Record ec_ctx := mk_ec_ctx { ex_alg : N; ex_pub : N; ex_priv : option Z; ex_sign : bool }.

Definition MAX_PUBKEY_SIZE : N := 64.                                                      (* line 42 *)
Definition MAX_PUBKEY_SIZE_B64 : N := ((MAX_PUBKEY_SIZE + 2) * 4) / 3.                       (* line 43 *)
Definition PRIVKEY_BUF_SIZE : N := MAX_PUBKEY_SIZE * 2 + 2.                                  (* line 362 *)
(** AWS_ERROR_DEST_COPY_TOO_SMALL and the errors of the base64 codec, raised by aws-c-common. *)
Definition E_TOO_SMALL : err := E_OTHER 1.

(** sign_start, source/cipher_openssl.c 225-273 *)
Definition sign_start (f : sig_faults) (alg pub : N) (priv : Z) : res ec_ctx :=
  if negb (ok_ctx f) then Err E_OOM
  else if negb (ok_pkey f) then Err E_OOM
  else if negb (ok_digest f) then Err E_CRYPTO_UNKNOWN
  else Ok (mk_ec_ctx alg pub (Some priv) true).

(** Lines 305-309: one NUL at the end is dropped. *)
Fixpoint strip_nul (b : list N) : list N :=
  match b with
  | [] => []
  | [x] => if x =? 0 then [] else [x]
  | x :: r => x :: strip_nul r
  end.

(** serialize_pubkey, source/cipher_openssl.c 275-325 *)
Definition serialize_pubkey (o : ec) (f : sig_faults) (c : string) (pub : N) : res (list N) :=
  match ec_i2o o c pub with
  | None | Some [] => Err E_CRYPTO_UNKNOWN
  | Some b =>
      if MAX_PUBKEY_SIZE_B64 <? Nlen (ec_b64 o b) then Err E_TOO_SMALL
      else if negb (ok_string f) then Err E_OOM
      else Ok (strip_nul (ec_b64 o b))
  end.

(** aws_cryptosdk_sig_get_pubkey, source/cipher_openssl.c 327-335.  The context has a curve; [None] is unreachable then. *)
Definition sig_get_pubkey (o : ec) (f : sig_faults) (x : ec_ctx) : res (list N) :=
  match alg_curve (ex_alg x) with
  | Some c => serialize_pubkey o f c (ex_pub x)
  | None => Err E_CRYPTO_UNKNOWN
  end.

(** aws_byte_buf_append to a buffer of capacity [cap] *)
Definition buf_append (cap : N) (buf b : list N) : res (list N) :=
  if cap <? Nlen buf + Nlen b then Err E_TOO_SMALL else Ok (buf ++ b).

(** aws_cryptosdk_sig_get_privkey, source/cipher_openssl.c 337-445.  [EC_KEY_get0_private_key] of a context without private
    key is NULL: BN_to_ASN1_INTEGER is not called on it in the SDK (precondition is_sign); the model answers out of memory. *)
Definition sig_get_privkey (o : ec) (f : sig_faults) (x : ec_ctx) : res (list N) :=
  match alg_curve (ex_alg x), ex_priv x with
  | Some c, Some d =>
      if negb (ok_to_asn1 f) then Err E_OOM
      else match ec_i2d o d, ec_i2o o c (ex_pub x) with
           | Some privb, Some pubb =>
               if (255 <? Nlen privb) || (255 <? Nlen pubb) then Err E_CRYPTO_UNKNOWN
               else
                 do b <- buf_append PRIVKEY_BUF_SIZE [] (be_bytes 2 (ex_alg x));
                 let b := b ++ [Nlen pubb mod 256; Nlen privb mod 256] in
                 do b <- buf_append PRIVKEY_BUF_SIZE b pubb;
                 do b <- buf_append PRIVKEY_BUF_SIZE b privb;
                 if negb (ok_string f) then Err E_OOM else Ok b
           | _, _ => Err E_OOM
           end
  | _, _ => Err E_OOM
  end.

(** aws_cryptosdk_sig_sign_start_keygen, source/cipher_openssl.c 447-523.  [gen]: the key pair generated by
    EC_KEY_generate_key, [None] if it fails.  The result: context and public key text, [None] for NULL. *)
Definition sig_sign_start_keygen (o : ec) (f : sig_faults) (alg : N) (want_pub : bool) (gen : option (N * Z)) : res (option ec_ctx * option (list N)) :=
  match alg_curve alg with
  | None => Ok (None, None)
  | Some c =>
      if negb (ok_group f) || negb (ok_key_new f) || negb (ok_set_group f) then Err E_CRYPTO_UNKNOWN
      else match gen with
           | None => Err E_CRYPTO_UNKNOWN
           | Some (pub, d) =>
               do text <- (if want_pub then do t <- serialize_pubkey o f c pub; Ok (Some t) else Ok None);
               do x <- sign_start f alg pub d;
               Ok (Some x, text)
           end
  end.

(** A field of [n] bytes at the cursor, decoded by [dec], which has to consume all of it: source/cipher_openssl.c 614-631. *)
Definition read_field {A} (dec : list N -> option (A * N)) (n : N) (s : list N) : res (A * list N) :=
  match read_bytes n s with
  | Err _ => Err E_CRYPTO_UNKNOWN
  | Ok (field, rest) =>
      match dec field with
      | None => Err E_CRYPTO_UNKNOWN
      | Some (v, used) => if used =? Nlen field then Ok (v, rest) else Err E_CRYPTO_UNKNOWN
      end
  end.

(** A fixed-size integer at the cursor, lines 586-590. *)
Definition read_int (k : nat) (s : list N) : res (N * list N) :=
  match read_be k s with Ok p => Ok p | Err _ => Err E_CRYPTO_UNKNOWN end.

(** aws_cryptosdk_sig_sign_start, source/cipher_openssl.c 540-681 *)
Definition sig_sign_start (o : ec) (f : sig_faults) (alg : N) (want_pub : bool) (s : list N) : res (option ec_ctx * option (list N)) :=
  match alg_curve alg with
  | None => Ok (None, None)
  | Some c =>
      if Nlen s <? 5 then Err E_CRYPTO_UNKNOWN
      else
        do (id, s) <- read_int 2 s;
        do (publen, s) <- read_int 1 s;
        do (privlen, s) <- read_int 1 s;
        if negb (id =? alg) then Err E_CRYPTO_UNKNOWN
        else if negb (ok_key_new f) then Err E_OOM
        else if negb (ok_group f) then Err E_CRYPTO_UNKNOWN
        else if negb (ok_set_group f) then Err E_CRYPTO_UNKNOWN
        else
          do (pub, s) <- read_field (ec_o2i o c) publen s;
          do (d, s) <- read_field (ec_d2i o) privlen s;
          if negb (ok_to_bn f) then Err E_OOM
          else if negb (ok_set_priv f) then Err E_OOM
          else if negb (Nlen s =? 0) then Err E_CRYPTO_UNKNOWN
          else
            do text <- (if want_pub then do t <- serialize_pubkey o f c pub; Ok (Some t) else Ok None);
            do x <- sign_start f alg pub d;
            Ok (Some x, text)
  end.

(** load_pubkey, source/cipher_openssl.c 683-737.  How much of the decoded text o2i_ECPublicKey consumed is not checked. *)
Definition load_pubkey (o : ec) (f : sig_faults) (c : string) (text : list N) : res N :=
  match ec_unb64 o text with
  | None => Err E_BAD_CIPHERTEXT
  | Some b =>
      if MAX_PUBKEY_SIZE <? Nlen b then Err E_BAD_CIPHERTEXT
      else if negb (ok_group f) then Err E_CRYPTO_UNKNOWN
      else if negb (ok_key_new f) then Err E_OOM
      else if negb (ok_set_group f) then Err E_CRYPTO_UNKNOWN
      else match ec_o2i o c b with
           | None => Err E_BAD_CIPHERTEXT
           | Some (pub, _) => Ok pub
           end
  end.

(** aws_cryptosdk_sig_verify_start, source/cipher_openssl.c 739-803 *)
Definition sig_verify_start (o : ec) (f : sig_faults) (alg : N) (text : list N) : res (option ec_ctx) :=
  match alg_curve alg with
  | None => Ok None
  | Some c =>
      if negb (ok_ctx f) then Err E_OOM
      else
        do pub <- load_pubkey o f c text;
        if negb (ok_pkey f) then Err E_OOM
        else if negb (ok_digest f) then Err E_CRYPTO_UNKNOWN
        else Ok (Some (mk_ec_ctx alg pub None false))
  end.

(** One pass through the signing loop: what EVP_PKEY_sign wrote ([None]: failure) and whether BN_dup and BN_sub succeeded. *)
Record sign_try := mk_sign_try { st_sig : option (list N); st_dup : bool; st_sub : bool }.

(** [SignMore]: the given passes did not suffice.  [SignOverflow]: i2d_ECDSA_SIG wrote beyond the buffer. *)
Inductive sign_result := SignOk (sig : list N) | SignErr (e : err) | SignMore | SignOverflow.

(** The loop of aws_cryptosdk_sig_sign_finish, source/cipher_openssl.c 905-966.  [want]: signature_len; [cap]: the capacity of
    the buffer; [cur]: its contents. *)
Fixpoint sign_loop (o : ec) (c : string) (want cap : N) (cur : list N) (tries : list sign_try) : sign_result :=
  if Nlen cur =? want then SignOk cur
  else match tries with
       | [] => SignMore
       | t :: rest =>
           match st_sig t with
           | None => SignErr E_CRYPTO_UNKNOWN
           | Some b =>
               if Nlen b =? want then SignOk b
               else match ec_sig_d2i o b with
                    | None => sign_loop o c want cap b rest
                    | Some (r, s) =>
                        if negb (st_dup t) then SignErr E_OOM
                        else if negb (st_sub t) then SignErr E_CRYPTO_UNKNOWN
                        else match ec_sig_i2d o (r, (ec_order o c - s)%Z) with
                             | None => SignErr E_CRYPTO_UNKNOWN
                             | Some b' =>
                                 if cap <? Nlen b' then SignOverflow else sign_loop o c want cap b' rest
                             end
                    end
           end
       end.

(** aws_cryptosdk_sig_sign_finish, source/cipher_openssl.c 835-996.  [ready]: every call before the loop succeeded, otherwise
    the error raised; [cap]: the largest signature according to EVP_PKEY_sign. *)
Definition sig_sign_finish (o : ec) (f : sig_faults) (alg : N) (ready : res N) (tries : list sign_try) : sign_result :=
  match alg_curve alg, alg_lookup alg with
  | Some c, Some p =>
      match ready with
      | Err e => SignErr e
      | Ok cap =>
          match sign_loop o c (ap_sig_len p) cap [] tries with
          | SignOk b => if ok_string f then SignOk b else SignErr E_OOM
          | r => r
          end
      end
  | _, _ => SignErr E_CRYPTO_UNKNOWN
  end.
