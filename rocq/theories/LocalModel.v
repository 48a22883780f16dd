(** What functions that handle keys leave behind in their local arrays and temporaries: source/hkdf.c 46-120 and 162-181,
    source/session_encrypt.c 50-150, source/session_decrypt.c 67-100, source/cipher_openssl.c 337-445 and 540-681.

    Each function of this file does what the function of the same name in HkdfModel, SessionModel and SigModel does, and also
    returns the local arrays (and the temporaries it frees) that can hold key material, with their contents when the function
    returns.  [junk] stands for what a failing OpenSSL call may have written.  Not modelled: copies made by the compiler
    (registers, spilled values), memory inside OpenSSL objects other than those named here, HMAC_CTX (cleaned up by
    HMAC_CTX_cleanup on both paths), functions called (each has its own frame). *)
From Verif Require Import Base AlgModel EncCtxModel HdrModel FrameModel CryptoModel SessionModel HkdfModel SigModel.
From Coq Require Import ZArith String.
Import List.
Open Scope list_scope.
Open Scope N_scope.

(** A local array or freed block: its name in the source and its contents. *)
Definition dead : Type := string * list N.

(** aws_secure_zero(a, n) *)
Definition secure_zero (a : list N) (n : N) : list N := zeros n ++ skipn (N.to_nat n) a.
(** A write of [d] at the start of the array [a]. *)
Definition put (a d : list N) : list N := d ++ skipn (length d) a.

Definition EVP_MAX_MD_SIZE : N := 64.        (* openssl/evp.h *)
Definition MAX_DATA_KEY_SIZE : N := 32.      (* include/aws/cryptosdk/private/cipher.h 37 *)

(** ** HKDF, the library's own *)

(** aws_cryptosdk_hkdf_extract, source/hkdf.c 48-74: prk_len and the contents of prk. *)
Definition extract_mem (m : mac) (junk : nat -> list N -> list N) (sha : sha_version) (salt ikm prk : list N) : res N * list N :=
  match sha with
  | NOSHA => (Err E_UNSUPPORTED_FORMAT, prk)
  | _ =>
      let mysalt := match salt with [] => zeros (md_size sha) | _ => salt end in
      let d := mac_fn m sha mysalt ikm in
      if mac_fails m 0 then (Err E_CRYPTO_UNKNOWN, secure_zero (junk 0%nat prk) EVP_MAX_MD_SIZE)     (* 69-71 *)
      else if Nlen d =? 0 then (Err E_CRYPTO_UNKNOWN, secure_zero (put prk d) EVP_MAX_MD_SIZE)
      else (Ok (Nlen d), put prk d)
  end.

(** The loop of aws_cryptosdk_hkdf_expand and what follows it, source/hkdf.c 95-119; [t]: the whole array. *)
Fixpoint loop_mem (m : mac) (junk : nat -> list N -> list N) (sha : sha_version) (prk info : list N) (k : nat) (idx : N) (c : nat)
  (t okm : list N) (remaining : N) : hkdf_out * list dead :=
  match k with
  | O => if remaining =? 0 then (HRet (Ok tt) okm, [("t"%string, secure_zero t EVP_MAX_MD_SIZE)])     (* 110-113 *)
         else (HAssert, [("t"%string, t)])
  | S k' =>
      match hkdf_round m c sha prk t info idx with
      | None => (HRet (Err E_CRYPTO_UNKNOWN) (zeros (Nlen okm)),
                 [("t"%string, secure_zero (junk c t) EVP_MAX_MD_SIZE)])                              (* 115-119 *)
      | Some d =>
          let t := put t d in
          if negb (Nlen d =? md_size sha) then (HAssert, [("t"%string, t)])
          else
            let w := if remaining <? md_size sha then remaining else md_size sha in
            match blit okm ((idx - 1) * md_size sha) (firstn (N.to_nat w) t) with
            | None => (HOutside, [("t"%string, t)])
            | Some okm' => loop_mem m junk sha prk info k' (idx + 1) (c + 5) t okm' (remaining - w)
            end
      end
  end.

(** aws_cryptosdk_hkdf_expand, source/hkdf.c 76-120; [t] is uninitialised. *)
Definition expand_mem (m : mac) (junk : nat -> list N -> list N) (sha : sha_version) (prk info okm t : list N) : hkdf_out * list dead :=
  match sha with
  | NOSHA => (HRet (Err E_UNSUPPORTED_FORMAT) okm, [])
  | _ =>
      let err := (HRet (Err E_CRYPTO_UNKNOWN) (zeros (Nlen okm)), [("t"%string, secure_zero t EVP_MAX_MD_SIZE)]) in
      if (Nlen okm =? 0) || (Nlen prk =? 0) then err
      else
        let n := sub64 (add64 (Nlen okm) (md_size sha)) 1 / md_size sha in
        if 255 <? n then err
        else loop_mem m junk sha prk info (N.to_nat n) 1 1 t okm (Nlen okm)
  end.

(** aws_cryptosdk_hkdf, source/hkdf.c 162-177.  After a failed assertion or a write outside a buffer nothing is wiped. *)
Definition hkdf_mem (m : mac) (junk : nat -> list N -> list N) (sha : sha_version) (salt ikm info okm prk t : list N)
  : hkdf_out * list dead :=
  match extract_mem m junk sha salt ikm prk with
  | (Err e, prk) => (HRet (Err e) okm, [("prk"%string, secure_zero prk EVP_MAX_MD_SIZE)])             (* 175-177 *)
  | (Ok prk_len, prk) =>
      match expand_mem m junk sha (firstn (N.to_nat prk_len) prk) info okm t with
      | (HRet rc okm', d) => (HRet rc okm', d ++ [("prk"%string, secure_zero prk EVP_MAX_MD_SIZE)])   (* 173, 176 *)
      | (r, d) => (r, d ++ [("prk"%string, prk)])
      end
  end.

(** ** Sessions *)

(** The labels out, rethrow and cleanup of aws_cryptosdk_priv_try_gen_key, source/session_encrypt.c 136-149: the one way out.
    A failed assertion or abort() ends the program before it. *)
Definition gen_exit (data_key : list N) (r : stepres) : stepres * list dead :=
  match sr_rc r with
  | RAssert | RAbort => (r, [("data_key"%string, data_key)])
  | _ => (r, [("data_key"%string, secure_zero data_key MAX_DATA_KEY_SIZE)])
  end.

(** aws_cryptosdk_priv_try_gen_key, source/session_encrypt.c 50-150; [data_key] is uninitialised. *)
Definition gen_key_mem (cr : crypto) (e : env) (s : session) (input : list N) (data_key : list N) : stepres * list dead :=
  let fail d s e log := gen_exit d (mk_step s input [] (RFail e) log) in
  let rq := mk_enc_request (h_enc_ctx (s_hdr s)) 0 (if s_known s then s_precise s else s_bound s)
              (s_policy s) in
  let '(ctx', r) := e_gen e rq in
  let s := set_hdr (set_hdr_ctx ctx' (s_hdr s)) s in
  match r with
  | Err x => fail data_key s x []
  | Ok m =>
      let log := [EvGen rq ctx' m] in
      let s := set_alg (alg_lookup (em_alg m)) s in
      match alg_lookup (em_alg m) with
      | None => fail data_key s E_CRYPTO_UNKNOWN log
      | Some p =>
          if negb (Nlen (em_key m) =? ap_data_key_len p) then fail data_key s E_CRYPTO_UNKNOWN log
          else if Nlen (em_edks m) =? 0 then fail data_key s E_CRYPTO_UNKNOWN log
          else if negb (s_max s =? 0) && (s_max s <? Nlen (em_edks m))
          then fail data_key s E_LIMIT_EXCEEDED log
          else if negb (Bool.eqb (negb (ap_sig_len p =? 0)) (has_sig (em_sig m)))
          then fail data_key s E_CRYPTO_UNKNOWN log
          else if e_debug e && negb (policy_is_valid (s_policy s)) then gen_exit data_key (mk_step s input [] RAssert log)
          else if negb (allowed_for_encrypt (em_alg m) (s_policy s))
          then fail data_key s E_COMMITMENT_POLICY_VIOLATION log
          else
            let data_key := put data_key (em_key m) in                                                 (* 97 *)
            let s := set_cmm_ok true (set_trace (s_trace s ++ em_trace m) (set_sig (em_sig m) s)) in
            match e_rand e (message_id_len p) with
            | None => fail data_key s E_CRYPTO_UNKNOWN log
            | Some mid =>
                let log := log ++ [EvRand mid] in
                let s := set_hdr (set_hdr_mid mid (s_hdr s)) s in
                let clen := if must_include_commitment (s_policy s) then ap_commitment_len p
                            else Nlen (h_alg_suite_data (s_hdr s)) in
                let k := derive_key cr p (firstn (N.to_nat (ap_data_key_len p)) data_key) mid clen (s_key s) (s_commit s) in
                let s := set_commit (kd_commit k) (set_key (kd_key k) s) in
                let s := if must_include_commitment (s_policy s)
                         then set_hdr (set_hdr_suite (firstn (N.to_nat clen) (kd_commit k)) (s_hdr s)) s
                         else s in
                match kd_rc k with
                | KCode _ => fail data_key s E_STALE log
                | KRaised x => fail data_key s x log
                | KOk =>
                    match build_header s p m with
                    | None => gen_exit data_key (mk_step s input [] RAssert log)
                    | Some (Err x) => fail data_key s x log
                    | Some (Ok s) => gen_exit data_key (sign_header cr s p input log)
                    end
                end
            end
      end
  end.

(** derive_data_key, source/session_decrypt.c 67-100.  The array is declared in line 80, after the first checks; no statement
    wipes it. *)
Definition derive_data_key_mem (cr : crypto) (e : env) (s : session) (p : alg_props) (m : dec_mat)
  : (session * outcome) * list dead :=
  if negb (Nlen (dm_key m) =? ap_data_key_len p) then ((s, RFail E_CRYPTO_UNKNOWN), [])
  else if e_debug e && negb (policy_is_valid (s_policy s)) then ((s, RAssert), [])
  else if negb (allowed_for_decrypt (ap_id p) (s_policy s)) then ((s, RFail E_COMMITMENT_POLICY_VIOLATION), [])
  else
    let data_key := put (zeros MAX_DATA_KEY_SIZE) (dm_key m) in                                        (* 80-81 *)
    let k := derive_key cr p (firstn (N.to_nat (ap_data_key_len p)) data_key) (h_message_id (s_hdr s)) (ap_commitment_len p)
               (s_key s) (s_commit s) in
    let s := set_commit (kd_commit k) (set_key (kd_key k) s) in
    let ret o := ((s, o), [("data_key"%string, data_key)]) in
    match kd_rc k with
    | KCode x => ret (RFail x)
    | KRaised _ => ret (RFail (E_OTHER UINT32_MAX))
    | KOk =>
        if commitment_eq (firstn (N.to_nat (ap_commitment_len p)) (s_commit s)) (h_alg_suite_data (s_hdr s))
        then ret RGo else ret (RFail E_BAD_CIPHERTEXT)
    end.

(** ** Private keys for signing *)

(** A buffer allocated by OpenSSL, wiped over the length OpenSSL reported and freed: source/cipher_openssl.c 430-437.  NULL: nothing. *)
Definition free_buf (name : string) (b : option (list N)) (n : N) : list dead :=
  match b with Some b => [(name, secure_zero b n)] | None => [] end.

(** The length reported with a buffer; 0 or negative without one. *)
Definition buf_len (b : option (list N)) : N := match b with Some b => Nlen b | None => 0 end.

(** The label err of aws_cryptosdk_sig_get_privkey, source/cipher_openssl.c 428-444; [written]: what has been written to tmparr. *)
Definition privkey_exit (r : res (list N)) (written : list N) (priv pub : option (list N)) : res (list N) * list dead :=
  (r, ("tmparr"%string, secure_zero (put (zeros PRIVKEY_BUF_SIZE) written) PRIVKEY_BUF_SIZE) ::
      free_buf "privkey_buf" priv (buf_len priv) ++ free_buf "pubkey_buf" pub (buf_len pub)).

(** aws_cryptosdk_sig_get_privkey, source/cipher_openssl.c 337-445.  The ASN.1 integer is released by ASN1_STRING_clear_free
    right after its use (385). *)
Definition get_privkey_mem (o : ec) (f : sig_faults) (x : ec_ctx) : res (list N) * list dead :=
  match alg_curve (ex_alg x), ex_priv x with
  | Some c, Some d =>
      if negb (ok_to_asn1 f) then privkey_exit (Err E_OOM) [] None None
      else
        let priv := ec_i2d o d in
        let pub := ec_i2o o c (ex_pub x) in
        match priv, pub with
        | Some privb, Some pubb =>
            if (255 <? Nlen privb) || (255 <? Nlen pubb) then privkey_exit (Err E_CRYPTO_UNKNOWN) [] priv pub
            else
              match buf_append PRIVKEY_BUF_SIZE [] (be_bytes 2 (ex_alg x)) with
              | Err e => privkey_exit (Err e) [] priv pub
              | Ok b =>
                  let b := b ++ [Nlen pubb mod 256; Nlen privb mod 256] in
                  match buf_append PRIVKEY_BUF_SIZE b pubb with
                  | Err e => privkey_exit (Err e) b priv pub
                  | Ok b =>
                      match buf_append PRIVKEY_BUF_SIZE b privb with
                      | Err e => privkey_exit (Err e) b priv pub
                      | Ok b => if negb (ok_string f) then privkey_exit (Err E_OOM) b priv pub else privkey_exit (Ok b) b priv pub
                      end
                  end
              end
        | _, _ => privkey_exit (Err E_OOM) [] priv pub
        end
  | _, _ => privkey_exit (Err E_OOM) [] None None
  end.

(** A temporary OpenSSL number after its release: its name and what is left of the value.  ASN1_STRING_clear_free and
    BN_clear_free overwrite it. *)
Definition number : Type := string * option Z.
Definition clear_free (name : string) (v : Z) : number := (name, None).

(** Lines 624-651 of aws_cryptosdk_sig_sign_start: the numbers released while the private key is read and stored in the key
    pair, with the value or the error. *)
Definition read_private (o : ec) (f : sig_faults) (n : N) (s : list N) : res (Z * list N) * list number :=
  match read_bytes n s with
  | Err _ => (Err E_CRYPTO_UNKNOWN, [])                                                                (* clear_free(NULL), 631 *)
  | Ok (field, rest) =>
      match ec_d2i o field with
      | None => (Err E_CRYPTO_UNKNOWN, [])
      | Some (v, used) =>
          if negb (used =? Nlen field) then (Err E_CRYPTO_UNKNOWN, [clear_free "priv_key_asn1" v])     (* 631 *)
          else if negb (ok_to_bn f) then (Err E_OOM, [clear_free "priv_key_asn1" v])                   (* 639 *)
          else
            let freed := [clear_free "priv_key_asn1" v; clear_free "priv_key_bn" v] in                 (* 639, 646 *)
            if negb (ok_set_priv f) then (Err E_OOM, freed) else (Ok (v, rest), freed)
      end
  end.

(** aws_cryptosdk_sig_sign_start, source/cipher_openssl.c 540-681 *)
Definition sign_start_mem (o : ec) (f : sig_faults) (alg : N) (want_pub : bool) (s : list N)
  : res (option ec_ctx * option (list N)) * list number :=
  match alg_curve alg with
  | None => (Ok (None, None), [])
  | Some c =>
      if Nlen s <? 5 then (Err E_CRYPTO_UNKNOWN, [])
      else
        match (do (id, s) <- read_int 2 s; do (publen, s) <- read_int 1 s; do (privlen, s) <- read_int 1 s;
               if negb (id =? alg) then Err E_CRYPTO_UNKNOWN
               else if negb (ok_key_new f) then Err E_OOM
               else if negb (ok_group f) then Err E_CRYPTO_UNKNOWN
               else if negb (ok_set_group f) then Err E_CRYPTO_UNKNOWN
               else do (pub, s) <- read_field (ec_o2i o c) publen s; Ok (pub, privlen, s)) with
        | Err e => (Err e, [])
        | Ok (pub, privlen, s) =>
            let '(r, freed) := read_private o f privlen s in
            (do (d, s) <- r;
             if negb (Nlen s =? 0) then Err E_CRYPTO_UNKNOWN
             else
               do text <- (if want_pub then do t <- serialize_pubkey o f c pub; Ok (Some t) else Ok None);
               do x <- sign_start f alg pub d;
               Ok (Some x, text), freed)
        end
  end.
