(** How source/cipher.c drives OpenSSL: the sequences of EVP calls behind header authentication, body encryption, wrapping with
    AES-GCM and random bytes (cipher.c 435-948), with every call allowed to fail.

    OpenSSL is not part of /repo.  Its AES-GCM is modelled from the documented behaviour of the EVP interface: a context takes a
    cipher, an IV length, a key and an IV, then additional data, then text in any number of pieces; decryption compares tags in
    EVP_DecryptFinal_ex, which fails without an error code if they differ.  The key stream and the tag function are oracles.
    Simplifications: a failed call leaves its output buffer alone; the error queue is unbounded; a NULL input pointer is not
    distinguished from an empty input. *)
From Verif Require Import Base AlgModel FrameModel CryptoModel.
From Coq Require Import ZArith String.
Import List.
Open Scope list_scope.
Open Scope N_scope.

(** AES-GCM: byte [i] of the key stream for key and IV; the tag for key, IV, additional data and ciphertext. *)
Record gcm := mk_gcm {
  g_stream : list N -> list N -> N -> N;
  g_tag : list N -> list N -> list N -> list N -> list N;
}.

(** A run either goes on or is stopped by abort(), by a failed assertion or by undefined behaviour. *)
Inductive stop := Aborted | Undefined | OutOfFuel.

(** The thread's OpenSSL state: calls made so far, the error queue, the contexts allocated. *)
Record ssl := mk_ssl { o_tick : nat; o_errs : list N; o_live : nat }.

Definition M (A : Type) : Type := ssl -> stop + A * ssl.
Definition ret {A} (a : A) : M A := fun s => inr (a, s).
Definition stopped {A} (w : stop) : M A := fun _ => inl w.
Definition mbind {A B} (m : M A) (f : A -> M B) : M B :=
  fun s => match m s with inl w => inl w | inr (a, s') => f a s' end.
Notation "'let!' x := m 'in' f" := (mbind m (fun x => f)) (at level 200, x pattern, m at level 100, f at level 200).

(** struct aws_byte_buf: memory of [capacity] bytes, [len] of them in use. *)
Record buf := mk_buf { b_mem : list N; b_len : N }.
Definition b_cap (b : buf) : N := Nlen (b_mem b).

(** aws_byte_buf_secure_zero of aws-c-common: all of the capacity is cleared and the length set to 0. *)
Definition buf_zero (b : buf) : buf := mk_buf (zeros (b_cap b)) 0.

(** Writing [d] at offset [off]; [None] is a write past the end. *)
Definition put (m : list N) (off : N) (d : list N) : option (list N) :=
  if Nlen m <? off + Nlen d then None
  else Some (firstn (N.to_nat off) m ++ d ++ skipn (N.to_nat (off + Nlen d)) m).

(** A size_t passed as an int: the low 32 bits, negative from 2^31 on. *)
Definition to_int (n : N) : Z :=
  let m := n mod two32 in if m <? 2 ^ 31 then Z.of_N m else (Z.of_N m - 2 ^ 32)%Z.
Definition INT_MAX : N := 2 ^ 31 - 1.

(** ** OpenSSL *)

(** EVP_CIPHER_CTX.  [x_keylen] is the key length of the cipher; [x_text] is the ciphertext so far. *)
Record ectx := mk_ectx {
  x_enc : bool;
  x_keylen : option N;
  x_ivlen : N;
  x_key : option (list N);
  x_iv : option (list N);
  x_aad : list N;
  x_text : list N;
  x_tag : option (list N);
}.

Fixpoint xor_from (stream : N -> N) (pos : N) (text : list N) : list N :=
  match text with
  | [] => []
  | b :: r => N.lxor b (stream pos) :: xor_from stream (pos + 1) r
  end.

Section Calls.
Variable g : gcm.
(** [fault n]: does call number [n] fail, and with which error codes (none of them 0)? *)
Variable fault : nat -> option (list N).

(** One call: its number is used up; a failure appends its codes to the queue. *)
Definition call : M bool := fun s =>
  match fault (o_tick s) with
  | Some es => inr (false, mk_ssl (S (o_tick s)) (o_errs s ++ es) (o_live s))
  | None => inr (true, mk_ssl (S (o_tick s)) (o_errs s) (o_live s))
  end.
Definition live (f : nat -> nat) : M unit := fun s => inr (tt, mk_ssl (o_tick s) (o_errs s) (f (o_live s))).

(** EVP_CIPHER_CTX_new *)
Definition ctx_new : M (option ectx) :=
  let! ok := call in
  if ok then let! _ := live S in ret (Some (mk_ectx true None 12 None None [] [] None)) else ret None.

(** EVP_CIPHER_CTX_free of a context; freeing one that is not there is undefined. *)
Definition ctx_free : M unit := fun s =>
  match o_live s with
  | O => inl Undefined
  | S n => inr (tt, mk_ssl (o_tick s) (o_errs s) n)
  end.

(** EVP_CipherInit_ex, EVP_EncryptInit_ex, EVP_DecryptInit_ex: NULL arguments ([None]) leave things as they are. *)
Definition cipher_init (x : ectx) (cipher : option N) (key iv : option (list N)) (enc : option bool) : M (option ectx) :=
  let! ok := call in
  if negb ok then ret None
  else
    let e := match enc with Some b => b | None => x_enc x end in
    let x := match cipher with
             | Some kl => mk_ectx e (Some kl) 12 None None [] [] None
             | None => mk_ectx e (x_keylen x) (x_ivlen x) (x_key x) (x_iv x) (x_aad x) (x_text x) (x_tag x)
             end in
    match x_keylen x with
    | None => ret None
    | Some kl =>
        if match key with Some k => Nlen k <? kl | None => false end then stopped Undefined
        else if match iv with Some v => Nlen v <? x_ivlen x | None => false end then stopped Undefined
        else
          let key' := match key with Some k => Some (firstn (N.to_nat kl) k) | None => x_key x end in
          match iv with
          | Some v => ret (Some (mk_ectx e (Some kl) (x_ivlen x) key' (Some (firstn (N.to_nat (x_ivlen x)) v)) [] [] (x_tag x)))
          | None => ret (Some (mk_ectx e (Some kl) (x_ivlen x) key' (x_iv x) (x_aad x) (x_text x) (x_tag x)))
          end
    end.

(** EVP_CTRL_GCM_SET_IVLEN, EVP_CTRL_GCM_SET_TAG (decryption only), EVP_CTRL_GCM_GET_TAG (after the end of an encryption) *)
Definition set_ivlen (x : ectx) (n : N) : M (option ectx) :=
  let! ok := call in
  if negb ok || (n =? 0) then ret None
  else ret (Some (mk_ectx (x_enc x) (x_keylen x) n (x_key x) (x_iv x) (x_aad x) (x_text x) (x_tag x))).
Definition set_tag (x : ectx) (n : N) (tag : list N) : M (option ectx) :=
  let! ok := call in
  if negb ok || (n =? 0) || (16 <? n) || x_enc x then ret None
  else if Nlen tag <? n then stopped Undefined
  else ret (Some (mk_ectx (x_enc x) (x_keylen x) (x_ivlen x) (x_key x) (x_iv x) (x_aad x) (x_text x) (Some (firstn (N.to_nat n) tag)))).
Definition get_tag (x : ectx) (n : N) : M (option (list N)) :=
  let! ok := call in
  if negb ok || (n =? 0) || (16 <? n) || negb (x_enc x) then ret None
  else match x_tag x with
       | None => ret None
       | Some t => ret (Some (firstn (N.to_nat n) t))
       end.

(** EVP_CipherUpdate, EVP_EncryptUpdate, EVP_DecryptUpdate without an output buffer: additional data.  [len] becomes an int. *)
Definition update_aad (x : ectx) (data : list N) (len : N) : M (option ectx) :=
  let! ok := call in
  if negb ok then ret None
  else if (to_int len <? 0)%Z then ret None
  else
    let n := Z.to_N (to_int len) in
    if Nlen data <? n then stopped Undefined
    else match x_key x, x_iv x, x_text x with
         | Some _, Some _, [] =>
             ret (Some (mk_ectx (x_enc x) (x_keylen x) (x_ivlen x) (x_key x) (x_iv x) (x_aad x ++ firstn (N.to_nat n) data) [] (x_tag x)))
         | _, _, _ => ret None
         end.

(** The same with an output buffer: text.  The bytes are written to [mem] at [off]; also returned is their number. *)
Definition update_text (x : ectx) (mem : list N) (off : N) (data : list N) (len : N) : M (option (ectx * list N * N)) :=
  let! ok := call in
  if negb ok then ret None
  else if (to_int len <? 0)%Z then ret None
  else
    let n := Z.to_N (to_int len) in
    if Nlen data <? n then stopped Undefined
    else match x_key x, x_iv x with
         | Some k, Some iv =>
             let d := firstn (N.to_nat n) data in
             let out := xor_from (g_stream g k iv) (Nlen (x_text x)) d in
             match put mem off out with
             | None => stopped Undefined
             | Some mem' =>
                 ret (Some (mk_ectx (x_enc x) (x_keylen x) (x_ivlen x) (x_key x) (x_iv x) (x_aad x)
                              (x_text x ++ if x_enc x then out else d) (x_tag x), mem', n))
             end
         | _, _ => ret None
         end.

(** EVP_EncryptFinal_ex, EVP_DecryptFinal_ex: no bytes are written; a wrong tag makes the latter fail without an error code. *)
Definition final (x : ectx) : M (option (ectx * N)) :=
  let! ok := call in
  if negb ok then ret None
  else match x_key x, x_iv x with
       | Some k, Some iv =>
           let t := g_tag g k iv (x_aad x) (x_text x) in
           if x_enc x then ret (Some (mk_ectx true (x_keylen x) (x_ivlen x) (x_key x) None (x_aad x) (x_text x) (Some t), 0))
           else match x_tag x with
                | Some t' =>
                    if bytes_eqb (firstn (length t') t) t'
                    then ret (Some (mk_ectx false (x_keylen x) (x_ivlen x) (x_key x) None (x_aad x) (x_text x) (x_tag x), 0))
                    else ret None
                | None => ret None
                end
       | _, _ => ret None
       end.

(** flush_openssl_errors, source/cipher.c 473-476 *)
Definition flush_errors : M unit := fun s => inr (tt, mk_ssl (o_tick s) [] (o_live s)).
(** ERR_peek_last_error() == 0 *)
Definition no_errors : M bool := fun s => inr (match o_errs s with [] => true | _ => false end, s).

(** ** cipher.c *)

(** cipher_ctor of the suites, source/cipher.c 75-220, by key length: EVP_aes_128_gcm, EVP_aes_192_gcm, EVP_aes_256_gcm *)
Definition cipher_ctor (p : alg_props) : N :=
  if existsb (N.eqb (ap_id p)) [ALG_AES128_NO_KDF; ALG_AES128_HKDF; ALG_AES128_HKDF_P256] then 16
  else if existsb (N.eqb (ap_id p)) [ALG_AES192_NO_KDF; ALG_AES192_HKDF; ALG_AES192_HKDF_P384] then 24
  else 32.

(** evp_gcm_cipher_init, source/cipher.c 435-454 *)
Definition gcm_cipher_init (p : alg_props) (key iv : list N) (enc : bool) : M (option ectx) :=
  let! o := ctx_new in
  match o with
  | None => ret None
  | Some x =>
      let! o := cipher_init x (Some (cipher_ctor p)) None None (Some enc) in
      match o with
      | None => let! _ := ctx_free in ret None
      | Some x =>
          let! o := set_ivlen x (ap_iv_len p) in
          match o with
          | None => let! _ := ctx_free in ret None
          | Some x =>
              let! o := cipher_init x None (Some key) (Some iv) None in
              match o with
              | None => let! _ := ctx_free in ret None
              | Some x => ret (Some x)
              end
          end
      end
  end.

(** evp_gcm_encrypt_final, source/cipher.c 456-471: the tag, or [None] for AWS_CRYPTOSDK_ERR_CRYPTO_UNKNOWN *)
Definition gcm_encrypt_final (p : alg_props) (x : ectx) : M (option (list N)) :=
  let! o := final x in
  match o with
  | None => ret None
  | Some (x, outlen) => if negb (outlen =? 0) then stopped Aborted else get_tag x (ap_tag_len p)
  end.

(** evp_gcm_decrypt_final, source/cipher.c 478-502 *)
Definition gcm_decrypt_final (p : alg_props) (x : ectx) (tag : list N) : M (res unit) :=
  let! o := set_tag x (ap_tag_len p) tag in
  match o with
  | None => ret (Err E_CRYPTO_UNKNOWN)
  | Some x =>
      let! _ := flush_errors in
      let! o := final x in
      match o with
      | None => let! none := no_errors in ret (Err (if none then E_BAD_CIPHERTEXT else E_CRYPTO_UNKNOWN))
      | Some (_, outlen) => if negb (outlen =? 0) then stopped Aborted else ret (Ok tt)
      end
  end.

(** aws_cryptosdk_sign_header, source/cipher.c 504-561; the result is the return code and the contents of [authtag]. *)
Definition sign_header_with (p : alg_props) (key iv header : list N) (pre old : list N) : M (res unit * list N) :=
  let! o := gcm_cipher_init p key iv true in
  match o with
  | None => ret (Err E_CRYPTO_UNKNOWN, pre ++ old)
  | Some x =>
      let! o := update_aad x header (Nlen header) in
      match o with
      | None => let! _ := ctx_free in ret (Err E_CRYPTO_UNKNOWN, pre ++ old)
      | Some x =>
          let! t := gcm_encrypt_final p x in
          let! _ := ctx_free in
          match t with
          | None => ret (Err E_CRYPTO_UNKNOWN, pre ++ old)
          | Some tag => ret (Ok tt, pre ++ tag)
          end
      end
  end.
Definition sign_header (p : alg_props) (key authtag header : list N) : M (res unit * list N) :=
  if ap_version p =? HEADER_VERSION_1_0 then
    if negb (Nlen authtag =? ap_iv_len p + ap_tag_len p) then ret (Err E_BAD_CIPHERTEXT, authtag)
    else
      let iv := zeros (ap_iv_len p) in
      sign_header_with p key iv header iv (skipn (N.to_nat (ap_iv_len p)) authtag)
  else if ap_version p =? HEADER_VERSION_2_0 then
    if negb (Nlen authtag =? ap_tag_len p) then ret (Err E_BAD_CIPHERTEXT, authtag)
    else sign_header_with p key (zeros 12) header [] authtag
  else ret (Err E_CRYPTO_UNKNOWN, authtag).

(** aws_cryptosdk_verify_header, source/cipher.c 563-613 *)
Definition verify_header_with (p : alg_props) (key iv tag header : list N) : M (res unit) :=
  let! o := gcm_cipher_init p key iv false in
  match o with
  | None => ret (Err E_CRYPTO_UNKNOWN)
  | Some x =>
      let! o := update_aad x header (Nlen header) in
      match o with
      | None => let! _ := ctx_free in ret (Err E_CRYPTO_UNKNOWN)
      | Some x =>
          let! r := gcm_decrypt_final p x tag in
          let! _ := ctx_free in
          ret r
      end
  end.
Definition verify_header (p : alg_props) (key authtag header : list N) : M (res unit) :=
  if ap_version p =? HEADER_VERSION_1_0 then
    if negb (Nlen authtag =? ap_iv_len p + ap_tag_len p) then ret (Err E_BAD_CIPHERTEXT)
    else verify_header_with p key authtag (skipn (N.to_nat (ap_iv_len p)) authtag) header
  else if ap_version p =? HEADER_VERSION_2_0 then
    if negb (Nlen authtag =? ap_tag_len p) then ret (Err E_BAD_CIPHERTEXT)
    else verify_header_with p key (zeros 12) authtag header
  else ret (Err E_CRYPTO_UNKNOWN).

(** update_frame_aad, source/cipher.c 615-644.  [None] is the return value 0.  The frame type is an int (enum in include/aws/cryptosdk/
    private/cipher.h 117: FRAME_TYPE_SINGLE 0, FRAME_TYPE_FRAME 1, FRAME_TYPE_FINAL 2); for any other one the function returns
    aws_raise_error(...), which is AWS_OP_ERR, that is -1, and its callers take that for success. *)
Definition frame_type_int (ty : frame_type) : Z :=
  match ty with FRAME_TYPE_SINGLE => 0 | FRAME_TYPE_FRAME => 1 | FRAME_TYPE_FINAL => 2 end%Z.
Definition update_frame_aad (x : ectx) (mid : list N) (ty : Z) (seqno size : N) : M (option ectx) :=
  let go label :=
    let! o := update_aad x mid (Nlen mid) in
    match o with
    | None => ret None
    | Some x =>
        let! o := update_aad x (c_str label) (Nlen (c_str label)) in
        match o with
        | None => ret None
        | Some x =>
            let! o := update_aad x (be_bytes 4 seqno) 4 in
            match o with
            | None => ret None
            | Some x => update_aad x (be_bytes 4 (size / two32) ++ be_bytes 4 (size mod two32)) 8
            end
        end
    end in
  match ty with
  | 0%Z => go "AWSKMSEncryptionClient Single Block"%string
  | 1%Z => go "AWSKMSEncryptionClient Frame"%string
  | 2%Z => go "AWSKMSEncryptionClient Final Frame"%string
  | _ => ret (Some x)
  end.

(** The loops of source/cipher.c 703-730 and 776-794.  The output buffer [ob] is the local copy of *outp: memory shared with it.
    The result is the memory and, if the loop ended normally, context and length. *)
Definition piece (inc : list N) : N := if INT_MAX <? Nlen inc then INT_MAX else Nlen inc.
Fixpoint body_loop (check : bool) (fuel : nat) (x : ectx) (ob : buf) (inc : list N) : M (list N * option (ectx * N)) :=
  match inc with
  | [] => ret (b_mem ob, Some (x, b_len ob))
  | _ =>
      match fuel with
      | O => stopped OutOfFuel
      | S fuel =>
          if check && negb (Nlen inc =? sub64 (b_cap ob) (b_len ob)) then ret (b_mem ob, None)
          else
            let in_len := piece inc in
            let! o := update_text x (b_mem ob) (b_len ob) inc in_len in
            match o with
            | None => ret (b_mem ob, None)
            | Some (x, mem, n) =>
                if two64 <=? b_len ob + n then ret (mem, None)
                else if Nlen mem <? b_len ob + n then stopped Aborted
                else body_loop check fuel x (mk_buf mem (b_len ob + n)) (skipn (N.to_nat in_len) inc)
            end
      end
  end.

(** aws_cryptosdk_encrypt_body, source/cipher.c 646-744.  [sl_iv] and [sl_tag] are what was written there. *)
Record sealed := mk_sealed { sl_rc : res unit; sl_out : buf; sl_iv : option (list N); sl_tag : option (list N) }.
Definition encrypt_body (p : alg_props) (outp : buf) (inp mid : list N) (seqno : N) (key : list N) (ty : Z) : M sealed :=
  if negb (Nlen inp =? b_cap outp) then ret (mk_sealed (Err E_SHORT_BUFFER) outp None None)
  else if seqno =? 0 then ret (mk_sealed (Err E_CRYPTO_UNKNOWN) outp None None)
  else if ap_iv_len p <? 8 then ret (mk_sealed (Err E_CRYPTO_UNKNOWN) outp None None)
  else
    let iv := zeros (ap_iv_len p - 8) ++ be_bytes 8 seqno in
    let bad m := mk_sealed (Err E_CRYPTO_UNKNOWN) (buf_zero (mk_buf m (b_len outp))) (Some iv) None in
    let! o := gcm_cipher_init p key iv true in
    match o with
    | None => ret (bad (b_mem outp))
    | Some x =>
        let! o := update_frame_aad x mid ty seqno (Nlen inp) in
        match o with
        | None => let! _ := ctx_free in ret (bad (b_mem outp))
        | Some x =>
            let! (mem, o) := body_loop true (length inp) x outp inp in
            match o with
            | None => let! _ := ctx_free in ret (bad mem)
            | Some (x, len) =>
                let! t := gcm_encrypt_final p x in
                let! _ := ctx_free in
                match t with
                | None => ret (bad mem)
                | Some tag => ret (mk_sealed (Ok tt) (mk_buf mem len) (Some iv) (Some tag))
                end
            end
        end
    end.

(** aws_cryptosdk_decrypt_body, source/cipher.c 746-806 *)
Definition decrypt_body (p : alg_props) (outp : buf) (inp mid : list N) (seqno : N) (iv key tag : list N) (ty : Z) : M (res unit * buf) :=
  if negb (Nlen inp =? sub64 (b_cap outp) (b_len outp)) then ret (Err E_SHORT_BUFFER, outp)
  else
    let bad e m := (Err e, buf_zero (mk_buf m (b_len outp))) in
    let! o := gcm_cipher_init p key iv false in
    match o with
    | None => ret (bad E_CRYPTO_UNKNOWN (b_mem outp))
    | Some x =>
        let! o := update_frame_aad x mid ty seqno (Nlen inp) in
        match o with
        | None => let! _ := ctx_free in ret (bad E_CRYPTO_UNKNOWN (b_mem outp))
        | Some x =>
            let! (mem, o) := body_loop false (length inp) x outp inp in
            match o with
            | None => let! _ := ctx_free in ret (bad E_CRYPTO_UNKNOWN mem)
            | Some (x, len) =>
                let! r := gcm_decrypt_final p x tag in
                let! _ := ctx_free in
                match r with
                | Ok _ => ret (Ok tt, mk_buf mem len)
                | Err e => ret (bad e mem)
                end
            end
        end
    end.

(** aws_cryptosdk_genrandom, source/cipher.c 812-829.  [rand] is RAND_bytes: its result and what it wrote. *)
Definition genrandom (rand : N -> Z * list N) (mem : list N) (len : N) : res unit * list N :=
  if len =? 0 then (Ok tt, mem)
  else if INT_MAX <? len then (Err E_LIMIT_EXCEEDED, mem)
  else
    let (rc, bytes) := rand len in
    if negb (rc =? 1)%Z then (Err E_CRYPTO_UNKNOWN, zeros len) else (Ok tt, bytes).

(** get_alg_from_key_size, source/cipher.c 831-838 *)
Definition alg_from_key_size (n : N) : option N :=
  if (n =? 16) || (n =? 24) || (n =? 32) then Some n else None.

(** aws_cryptosdk_aes_gcm_encrypt, source/cipher.c 844-889: return code, [cipher], [tag] *)
Definition aes_gcm_encrypt (cipher tag : buf) (plain iv aad key : list N) : M (res unit * buf * buf) :=
  match alg_from_key_size (Nlen key) with
  | None => ret (Err E_INVALID_BUFFER_SIZE, cipher, tag)
  | Some alg =>
      if negb (Nlen iv =? 12) || (b_cap tag <? 16) || (b_cap cipher <? Nlen plain)
      then ret (Err E_INVALID_BUFFER_SIZE, cipher, tag)
      else
        let bad (m t : list N) := let! _ := flush_errors in
          ret (Err E_CRYPTO_UNKNOWN, buf_zero (mk_buf m 0), buf_zero (mk_buf t 0)) in
        let! o := ctx_new in
        match o with
        | None => bad (b_mem cipher) (b_mem tag)
        | Some x =>
            let! o := cipher_init x (Some alg) (Some key) (Some iv) (Some true) in
            match o with
            | None => let! _ := ctx_free in bad (b_mem cipher) (b_mem tag)
            | Some x =>
                let! o := match aad with [] => ret (Some x) | _ => update_aad x aad (Nlen aad) end in
                match o with
                | None => let! _ := ctx_free in bad (b_mem cipher) (b_mem tag)
                | Some x =>
                    let! o := update_text x (b_mem cipher) 0 plain (Nlen plain) in
                    match o with
                    | None => let! _ := ctx_free in bad (b_mem cipher) (b_mem tag)
                    | Some (x, mem, prev_len) =>
                        let! o := final x in
                        match o with
                        | None => let! _ := ctx_free in bad mem (b_mem tag)
                        | Some (x, out_len) =>
                            let! t := get_tag x 16 in
                            match t with
                            | None => let! _ := ctx_free in bad mem (b_mem tag)
                            | Some t =>
                                match put (b_mem tag) 0 t with
                                | None => stopped Undefined
                                | Some tmem =>
                                    if negb (prev_len + out_len =? Nlen plain) then stopped Aborted
                                    else let! _ := ctx_free in ret (Ok tt, mk_buf mem (prev_len + out_len), mk_buf tmem 16)
                                end
                            end
                        end
                    end
                end
            end
        end
  end.

(** aws_cryptosdk_aes_gcm_decrypt, source/cipher.c 891-948: return code and [plain] *)
Definition aes_gcm_decrypt (plain : buf) (cipher tag iv aad key : list N) : M (res unit * buf) :=
  match alg_from_key_size (Nlen key) with
  | None => ret (Err E_INVALID_BUFFER_SIZE, plain)
  | Some alg =>
      if negb (Nlen iv =? 12) || negb (Nlen tag =? 16) || (b_cap plain <? Nlen cipher)
      then ret (Err E_INVALID_BUFFER_SIZE, plain)
      else
        let bad (m : list N) := let! _ := flush_errors in ret (Err E_CRYPTO_UNKNOWN, buf_zero (mk_buf m 0)) in
        let! o := ctx_new in
        match o with
        | None => bad (b_mem plain)
        | Some x =>
            let! o := cipher_init x (Some alg) (Some key) (Some iv) (Some false) in
            match o with
            | None => let! _ := ctx_free in bad (b_mem plain)
            | Some x =>
                let! o := set_tag x (Nlen tag) tag in
                match o with
                | None => let! _ := ctx_free in bad (b_mem plain)
                | Some x =>
                    let! o := match aad with [] => ret (Some x) | _ => update_aad x aad (Nlen aad) end in
                    match o with
                    | None => let! _ := ctx_free in bad (b_mem plain)
                    | Some x =>
                        let! o := update_text x (b_mem plain) 0 cipher (Nlen cipher) in
                        match o with
                        | None => let! _ := ctx_free in bad (b_mem plain)
                        | Some (x, mem, prev_len) =>
                            let! _ := flush_errors in
                            let! o := final x in
                            match o with
                            | None =>
                                let! none := no_errors in
                                let! _ := ctx_free in
                                if none then ret (Err E_BAD_CIPHERTEXT, buf_zero (mk_buf mem 0)) else bad mem
                            | Some (_, out_len) =>
                                let! _ := ctx_free in
                                if negb (prev_len + out_len =? Nlen cipher) then stopped Aborted
                                else ret (Ok tt, mk_buf mem (prev_len + out_len))
                            end
                        end
                    end
                end
            end
        end
  end.
End Calls.
