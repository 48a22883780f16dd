(** Lists of EDKs and trace records, the keyring interface, the multi-keyring, the raw AES and raw RSA keyrings
    and the default CMM: source/list_utils.c, source/materials.c 88-168, source/multi_keyring.c,
    source/raw_aes_keyring.c, source/raw_rsa_keyring.c, source/default_cmm.c, source/cipher.c 831-1061.

    Allocation failures are oracles: [grow n] is whether pushing on an array list of [n] elements obtains memory,
    [ke_fail i] whether failure point number [i] of a function fails.
    Not modelled: creation and destruction of keyrings, ownership of the buffers inside list elements. *)
From Verif Require Import Base AlgModel EncCtxModel HdrModel FrameModel CryptoModel SessionModel.
From Coq Require Import String.
Import List.
Open Scope list_scope.
Open Scope N_scope.

(** ** Array lists *)

(** aws_array_list_push_back (aws-c-common): appends, or fails and changes nothing. *)
Definition push_back {A} (grow : nat -> bool) (l : list A) (x : A) : list A * bool :=
  if grow (length l) then (l ++ [x], true) else (l, false).

(** aws_cryptosdk_transfer_list, source/list_utils.c 17-37: destination, source, success.  The two list objects are
    different (line 18). *)
Fixpoint transfer_loop {A} (grow : nat -> bool) (dest todo : list A) : list A * bool :=
  match todo with
  | [] => (dest, true)
  | x :: todo' => let (dest', ok) := push_back grow dest x in
                  if ok then transfer_loop grow dest' todo' else (dest, false)
  end.
Definition transfer_list {A} (grow : nat -> bool) (dest src : list A) : list A * list A * bool :=
  let (dest', ok) := transfer_loop grow dest src in
  if ok then (dest', [], true) else (dest', src, false).

(** list_copy_all, source/list_utils.c 43-106.  [clone i x] clones element number [i]; [tmp] is the allocation of
    line 62.  Lines 90-103: elements are popped while the list is longer than it was. *)
Fixpoint copy_loop {A} (grow : nat -> bool) (clone : nat -> A -> res A) (i : nat) (dest todo : list A) : list A * res unit :=
  match todo with
  | [] => (dest, Ok tt)
  | x :: todo' =>
      match clone i x with
      | Err e => (dest, Err e)
      | Ok y => let (dest', ok) := push_back grow dest y in
                if ok then copy_loop grow clone (S i) dest' todo' else (dest, Err E_OOM)
      end
  end.
Fixpoint pop_while {A} (fuel initial : nat) (l : list A) : list A :=
  match fuel with
  | O => l
  | S fuel' => if Nat.ltb initial (length l) then pop_while fuel' initial (removelast l) else l
  end.
Definition list_copy_all {A} (tmp : bool) (grow : nat -> bool) (clone : nat -> A -> res A) (dest src : list A) : list A * res unit :=
  if negb tmp then (dest, Err E_OOM)
  else
    let (dest', r) := copy_loop grow clone 0 dest src in
    match r with
    | Ok _ => (dest', Ok tt)
    | Err e => (pop_while (length dest') (length dest) dest', Err e)
    end.

(** struct aws_cryptosdk_keyring_trace_record, include/aws/cryptosdk/keyring_trace.h 82-90 *)
Record trace_rec := mk_trace_rec { tr_ns : list N; tr_name : list N; tr_flags : N }.

(** include/aws/cryptosdk/keyring_trace.h 59-79 *)
Definition FLAG_GENERATED : N := 1.
Definition FLAG_ENCRYPTED : N := 2.
Definition FLAG_DECRYPTED : N := 4.
Definition FLAG_SIGNED_CTX : N := 8.
Definition FLAG_VERIFIED_CTX : N := 16.

(** aws_cryptosdk_edk_init_clone, source/edk.c 49-67: three buffer copies, numbers 3i to 3i+2. *)
Definition edk_clone (fail : nat -> option err) (i : nat) (e : edk) : res edk :=
  match fail (3 * i)%nat with Some x => Err x | None =>
  match fail (3 * i + 1)%nat with Some x => Err x | None =>
  match fail (3 * i + 2)%nat with Some x => Err x | None =>
    Ok (mk_edk (edk_provider_id e) (edk_provider_info e) (edk_ciphertext e)) end end end.

(** aws_cryptosdk_keyring_trace_record_init_clone, source/keyring_trace.c 185-210: two string copies. *)
Definition trace_clone (fail : nat -> option err) (i : nat) (t : trace_rec) : res trace_rec :=
  match fail (2 * i)%nat with Some x => Err x | None =>
  match fail (2 * i + 1)%nat with Some x => Err x | None =>
    Ok (mk_trace_rec (tr_ns t) (tr_name t) (tr_flags t)) end end.

(** aws_cryptosdk_edk_list_copy_all, aws_cryptosdk_keyring_trace_copy_all, source/list_utils.c 108-130 *)
Definition edk_list_copy_all (tmp : bool) (grow : nat -> bool) (fail : nat -> option err) (dest src : list edk) :=
  list_copy_all tmp grow (edk_clone fail) dest src.
Definition trace_copy_all (tmp : bool) (grow : nat -> bool) (fail : nat -> option err) (dest src : list trace_rec) :=
  list_copy_all tmp grow (trace_clone fail) dest src.

(** ** The keyring interface *)

(** A data key buffer whose pointer is not NULL: its bytes (aws_byte_buf.len is their number) and, as one opaque
    value, pointer, capacity and allocator. *)
Record kbuf := mk_kbuf { kb_meta : N; kb_bytes : list N }.

(** The arguments a keyring may change; [None] is a data key buffer with a NULL pointer. *)
Record kargs := mk_kargs { ka_key : option kbuf; ka_trace : list trace_rec; ka_edks : list edk }.
Record dargs := mk_dargs { da_key : option kbuf; da_trace : list trace_rec }.

(** Result of a call: AWS_OP_SUCCESS, AWS_OP_ERR with the error raised, or undefined behaviour. *)
Inductive krc := KrOk | KrErr (e : err) | KrUB.

(** struct aws_cryptosdk_keyring_vt, include/aws/cryptosdk/materials.h 421-488: the two virtual functions; [None] is
    a missing one.  What else a call depends on (randomness, network, keyring state) is in the function. *)
Record keyring := mk_keyring {
  kr_encrypt : option (enc_ctx -> N -> kargs -> kargs * krc);
  kr_decrypt : option (list edk -> enc_ctx -> N -> dargs -> dargs * krc);
}.

Definition key_len_ok (alg : N) (b : kbuf) : bool :=
  match alg_lookup alg with
  | Some p => Nlen (kb_bytes b) =? ap_data_key_len p
  | None => false
  end.

(** memcmp of two buffer structures, source/materials.c 132 *)
Definition same_buf (a b : kbuf) : bool :=
  (kb_meta a =? kb_meta b) && (Nlen (kb_bytes a) =? Nlen (kb_bytes b)).

(** aws_cryptosdk_keyring_on_encrypt, source/materials.c 88-136, with AWS_CRYPTOSDK_PRIVATE_VF_CALL,
    include/aws/cryptosdk/materials.h 267-278 *)
Definition keyring_on_encrypt (k : keyring) (ctx : enc_ctx) (alg : N) (a : kargs) : kargs * krc :=
  match ka_key a, ka_edks a with
  | None, _ :: _ => (a, KrErr E_BAD_STATE)
  | _, _ =>
    match kr_encrypt k with
    | None => (a, KrErr E_UNIMPLEMENTED)
    | Some f =>
      let (a', rc) := f ctx alg a in
      match rc with
      | KrUB => (a', KrUB)
      | _ =>
        match ka_key a, ka_key a' with
        | None, None => (a', rc)
        | None, Some b => if key_len_ok alg b then (a', rc) else (a', KrErr E_BAD_STATE)
        | Some b0, Some b => if same_buf b0 b then (a', rc) else (a', KrErr E_BAD_STATE)
        | Some _, None => (a', KrErr E_BAD_STATE)
        end
      end
    end
  end.

(** aws_cryptosdk_keyring_on_decrypt, source/materials.c 138-168 *)
Definition keyring_on_decrypt (k : keyring) (edks : list edk) (ctx : enc_ctx) (alg : N) (a : dargs) : dargs * krc :=
  match da_key a with
  | Some _ => (a, KrErr E_BAD_STATE)
  | None =>
    match kr_decrypt k with
    | None => (a, KrErr E_UNIMPLEMENTED)
    | Some f =>
      let (a', rc) := f edks ctx alg a in
      match rc with
      | KrUB => (a', KrUB)
      | _ =>
        match da_key a' with
        | None => (a', rc)
        | Some b => if key_len_ok alg b then (a', rc) else (a', KrErr E_BAD_CIPHERTEXT)
        end
      end
    end
  end.

(** ** Multi-keyring *)
Record multi := mk_multi { m_generator : option keyring; m_children : list keyring }.

(** Allocation of the temporary lists, growth of the caller's EDK list and trace. *)
Record multi_mem := mk_multi_mem { mm_init : option err; mm_edks : nat -> bool; mm_trace : nat -> bool }.

(** call_on_encrypt_on_list, source/multi_keyring.c 20-37 *)
Fixpoint encrypt_on_list (l : list keyring) (ctx : enc_ctx) (alg : N) (a : kargs) : kargs * krc :=
  match l with
  | [] => (a, KrOk)
  | k :: l' => let (a', rc) := keyring_on_encrypt k ctx alg a in
               match rc with KrOk => encrypt_on_list l' ctx alg a' | _ => (a', rc) end
  end.

(** multi_keyring_on_encrypt, source/multi_keyring.c 39-90.  [my] has the caller's data key buffer and the temporary
    lists; when line 80 fails, the EDKs pushed so far stay in the caller's list.  The result of line 84 is
    ignored. *)
Definition multi_on_encrypt (m : multi) (mem : multi_mem) (ctx : enc_ctx) (alg : N) (a : kargs) : kargs * krc :=
  match mm_init mem with
  | Some e => (a, KrErr e)
  | None =>
    let give_up my rc := (mk_kargs (ka_key my) (ka_trace a) (ka_edks a), rc) in
    let my := mk_kargs (ka_key a) [] [] in
    let (my1, rc1) := match m_generator m with
                      | None => (my, KrOk)
                      | Some g => keyring_on_encrypt g ctx alg my
                      end in
    match rc1 with
    | KrOk =>
      match ka_key my1 with
      | None => give_up my1 (KrErr E_BAD_STATE)
      | Some _ =>
        let (my2, rc2) := encrypt_on_list (m_children m) ctx alg my1 in
        match rc2 with
        | KrOk =>
          let '(edks, _, ok) := transfer_list (mm_edks mem) (ka_edks a) (ka_edks my2) in
          if ok then
            let '(trace, _, _) := transfer_list (mm_trace mem) (ka_trace a) (ka_trace my2) in
            (mk_kargs (ka_key my2) trace edks, KrOk)
          else (mk_kargs (ka_key my2) (ka_trace a) edks, KrErr E_OOM)
        | _ => give_up my2 rc2
        end
      end
    | _ => give_up my1 rc1
    end
  end.

(** Lines 115-126: the children, in order. [failed] is ret_if_no_decrypt. *)
Fixpoint decrypt_on_list (l : list keyring) (edks : list edk) (ctx : enc_ctx) (alg : N) (failed : krc) (a : dargs) : dargs * krc :=
  match l with
  | [] => (a, failed)
  | k :: l' =>
    let (a', rc) := keyring_on_decrypt k edks ctx alg a in
    match rc with
    | KrUB => (a', KrUB)
    | _ =>
      match da_key a' with
      | Some _ => (a', KrOk)
      | None => decrypt_on_list l' edks ctx alg (match rc with KrOk => failed | _ => rc end) a'
      end
    end
  end.

(** multi_keyring_on_decrypt, source/multi_keyring.c 92-127.  The generator is tried like a first child.  On failure
    AWS_OP_ERR is returned with the error raised last. *)
Definition multi_on_decrypt (m : multi) (edks : list edk) (ctx : enc_ctx) (alg : N) (a : dargs) : dargs * krc :=
  decrypt_on_list (match m_generator m with Some g => g :: m_children m | None => m_children m end) edks ctx alg KrOk a.

Definition multi_keyring (m : multi) (mem : multi_mem) : keyring :=
  mk_keyring (Some (multi_on_encrypt m mem)) (Some (multi_on_decrypt m)).

(** ** AES-GCM for data keys *)
Definition aes_key_len_ok (key : list N) : bool := (Nlen key =? 16) || (Nlen key =? 24) || (Nlen key =? 32).

(** aws_cryptosdk_aes_gcm_encrypt, source/cipher.c 844-889; [cap] is the capacity of the output buffer. *)
Definition aes_gcm_encrypt (cr : crypto) (cap : N) (plain iv aad key : list N) : res (list N * list N) :=
  if negb (aes_key_len_ok key) || negb (Nlen iv =? 12) || (cap <? Nlen plain) then Err E_INVALID_BUFFER_SIZE
  else match cr_enc cr key iv aad plain with
       | Some (c, t) => Ok (c, t)
       | None => Err E_CRYPTO_UNKNOWN
       end.

(** aws_cryptosdk_aes_gcm_decrypt, source/cipher.c 891-948 *)
Definition aes_gcm_decrypt (cr : crypto) (cap : N) (cipher tag iv aad key : list N) : res (list N) :=
  if negb (aes_key_len_ok key) || negb (Nlen iv =? 12) || negb (Nlen tag =? 16) || (cap <? Nlen cipher) then Err E_INVALID_BUFFER_SIZE
  else match cr_dec cr key iv aad cipher tag with
       | OpenOk p => Ok p
       | OpenBadTag => Err E_BAD_CIPHERTEXT
       | OpenFail => Err E_CRYPTO_UNKNOWN
       end.

(** What a keyring call meets: failures of memory and of the random generator, random bytes, the pointer of a new data
    key buffer, indeterminate bytes of new memory, the randomness of RSA encryption. *)
Record kenv := mk_kenv {
  ke_fail : nat -> option err;
  ke_rand : nat -> N -> list N;
  ke_meta : N;
  ke_junk : N -> list N;
  ke_seed : list N;
}.

(** aws_cryptosdk_keyring_trace_add_record, source/keyring_trace.c 111-127, when its result is ignored. *)
Definition add_record (ok : bool) (t : list trace_rec) (ns name : list N) (flags : N) : list trace_rec :=
  if ok then t ++ [mk_trace_rec ns name flags] else t.
Definition no_failure (x : option err) : bool := match x with None => true | Some _ => false end.

(** ** Raw AES keyring *)
Record raw_aes := mk_raw_aes { ra_ns : list N; ra_name : list N; ra_key : list N }.

Definition RAW_AES_KR_IV_LEN : N := 12.
Definition RAW_AES_KR_TAG_LEN : N := 16.

(** serialize_aad_init, source/raw_aes_keyring.c 29-43 *)
Definition serialize_aad_init (alloc : option err) (c : enc_ctx) : res (list N) :=
  do n <- enc_ctx_size c;
  match alloc with
  | Some e => Err e
  | None => enc_ctx_serialize n 0 c
  end.

(** aws_cryptosdk_serialize_provider_info_init, source/raw_aes_keyring.c 45-59 *)
Definition serialize_provider_info (name iv : list N) : list N :=
  name ++ be_bytes 4 (RAW_AES_KR_TAG_LEN * 8) ++ be_bytes 4 RAW_AES_KR_IV_LEN ++ iv.

(** aws_cryptosdk_parse_provider_info, source/raw_aes_keyring.c 61-88: the IV, if the provider info is this
    keyring's. *)
Definition parse_provider_info (name info : list N) : option (list N) :=
  if negb (Nlen name + RAW_AES_KR_IV_LEN + 8 =? Nlen info) then None
  else match read_bytes (Nlen name) info with
  | Err _ => None
  | Ok (mkid, cur) =>
    if negb (bytes_eqb name mkid) then None
    else match read_be 4 cur with
    | Err _ => None
    | Ok (tag_len, cur) =>
      if negb (tag_len =? RAW_AES_KR_TAG_LEN * 8) then None
      else match read_be 4 cur with
      | Err _ => None
      | Ok (iv_len, cur) => if negb (iv_len =? RAW_AES_KR_IV_LEN) then None else Some cur
      end
    end
  end.

(** aws_cryptosdk_raw_aes_keyring_encrypt_data_key_with_iv, source/raw_aes_keyring.c 90-142.  Failure points: 3 AAD
    buffer, 4 ciphertext buffer, 5 provider info, 6 provider id, 7 list.  The ciphertext buffer has data_key_len + 16 bytes,
    the tag is written at data_key_len; a shorter data key leaves indeterminate bytes between. *)
Definition aes_wrap (cr : crypto) (k : raw_aes) (ke : kenv) (dk : list N) (dlen : N) (edks : list edk) (ctx : enc_ctx) (iv : list N)
  : list edk * res unit :=
  match serialize_aad_init (ke_fail ke 3) ctx with
  | Err e => (edks, Err e)
  | Ok aad =>
    match ke_fail ke 4 with Some e => (edks, Err e) | None =>
    match aes_gcm_encrypt cr dlen dk iv aad (ra_key k) with
    | Err e => (edks, Err e)
    | Ok (c, t) =>
      match ke_fail ke 5 with Some e => (edks, Err e) | None =>
      match ke_fail ke 6 with Some e => (edks, Err e) | None =>
      match ke_fail ke 7 with Some e => (edks, Err e) | None =>
        (edks ++ [mk_edk (ra_ns k) (serialize_provider_info (ra_name k) iv)
                         (c ++ ke_junk ke (dlen - Nlen c) ++ t)], Ok tt)
      end end end
    end end
  end.

(** aws_cryptosdk_genrandom, source/cipher.c 812-829, for the small lengths used here. *)
Definition genrandom (ke : kenv) (i : nat) (len : N) : res (list N) :=
  match ke_fail ke i with Some e => Err e | None => Ok (ke_rand ke i len) end.

(** raw_aes_keyring_on_encrypt, source/raw_aes_keyring.c 144-183.  Failure points: 0 IV, 1 key buffer, 2 data key,
    8 trace record.  An unknown suite dereferences NULL (line 153). *)
Definition raw_aes_on_encrypt (cr : crypto) (k : raw_aes) (ke : kenv) (ctx : enc_ctx) (alg : N) (a : kargs) : kargs * krc :=
  match alg_lookup alg with
  | None => (a, KrUB)
  | Some p =>
    let dlen := ap_data_key_len p in
    match genrandom ke 0 RAW_AES_KR_IV_LEN with
    | Err e => (a, KrErr e)
    | Ok iv =>
      let generated :=
        match ka_key a with
        | Some b => Ok (b, 0)
        | None =>
          match ke_fail ke 1 with
          | Some e => Err e
          | None => match genrandom ke 2 dlen with
                    | Err e => Err e
                    | Ok dk => Ok (mk_kbuf (ke_meta ke) dk, FLAG_GENERATED)
                    end
          end
        end in
      match generated with
      | Err e => (a, KrErr e)
      | Ok (b, flags) =>
        let (edks, r) := aes_wrap cr k ke (kb_bytes b) dlen (ka_edks a) ctx iv in
        match r with
        | Err e => (mk_kargs (if flags =? 0 then Some b else None) (ka_trace a) edks, KrErr e)
        | Ok _ =>
          (mk_kargs (Some b)
             (add_record (no_failure (ke_fail ke 8)) (ka_trace a) (ra_ns k) (ra_name k)
                (N.lor flags (N.lor FLAG_ENCRYPTED FLAG_SIGNED_CTX))) edks, KrOk)
        end
      end
    end
  end.

(** The tests of lines 216-228 and the decryption of line 230: the data key, or [None] to go on to the next EDK. *)
Definition aes_try_edk (cr : crypto) (k : raw_aes) (dlen : N) (aad : list N) (e : edk) : option (list N) :=
  if (Nlen (edk_provider_id e) =? 0) || (Nlen (edk_provider_info e) =? 0) || (Nlen (edk_ciphertext e) =? 0) then None
  else if negb (bytes_eqb (ra_ns k) (edk_provider_id e)) then None
  else match parse_provider_info (ra_name k) (edk_provider_info e) with
  | None => None
  | Some iv =>
    if negb (dlen + RAW_AES_KR_TAG_LEN =? Nlen (edk_ciphertext e)) then None
    else match aes_gcm_decrypt cr dlen (firstn (N.to_nat dlen) (edk_ciphertext e)) (skipn (N.to_nat dlen) (edk_ciphertext e))
                 iv aad (ra_key k) with
         | Ok dk => Some dk
         | Err _ => None
         end
  end.
Fixpoint aes_first_edk (cr : crypto) (k : raw_aes) (dlen : N) (aad : list N) (edks : list edk) : option (list N) :=
  match edks with
  | [] => None
  | e :: edks' => match aes_try_edk cr k dlen aad e with
                  | Some dk => Some dk
                  | None => aes_first_edk cr k dlen aad edks'
                  end
  end.

(** raw_aes_keyring_on_decrypt, source/raw_aes_keyring.c 185-258.  Failure points: 0 AAD buffer, 1 key buffer, 2 trace
    record.  The key buffer given is overwritten (line 205). *)
Definition raw_aes_on_decrypt (cr : crypto) (k : raw_aes) (ke : kenv) (edks : list edk) (ctx : enc_ctx) (alg : N) (a : dargs) : dargs * krc :=
  match serialize_aad_init (ke_fail ke 0) ctx with
  | Err e => (a, KrErr e)
  | Ok aad =>
    match alg_lookup alg with
    | None => (a, KrUB)
    | Some p =>
      match ke_fail ke 1 with
      | Some e => (a, KrErr e)
      | None =>
        match aes_first_edk cr k (ap_data_key_len p) aad edks with
        | Some dk => (mk_dargs (Some (mk_kbuf (ke_meta ke) dk))
                        (add_record (no_failure (ke_fail ke 2)) (da_trace a) (ra_ns k) (ra_name k)
                           (N.lor FLAG_DECRYPTED FLAG_VERIFIED_CTX)), KrOk)
        | None => (mk_dargs None (da_trace a), KrOk)
        end
      end
    end
  end.

Definition raw_aes_keyring (cr : crypto) (k : raw_aes) (ke : kenv) : keyring :=
  mk_keyring (Some (raw_aes_on_encrypt cr k ke)) (Some (raw_aes_on_decrypt cr k ke)).

(** ** Raw RSA keyring *)

(** OpenSSL's RSA: encryption under a PEM public key with padding mode 0, 1 or 2
    (enum aws_cryptosdk_rsa_padding_mode, include/aws/cryptosdk/raw_rsa_keyring.h 27-35) and randomness; decryption. *)
Record rsa := mk_rsa {
  rs_enc : N -> list N -> list N -> list N -> option (list N);
  rs_dec : N -> list N -> list N -> option (list N);
}.
Record raw_rsa := mk_raw_rsa { rr_ns : list N; rr_name : list N; rr_priv : option (list N); rr_pub : option (list N); rr_pad : N }.

(** get_openssl_rsa_padding_mode, source/cipher.c 950-957 *)
Definition pad_ok (pad : N) : bool := pad <? 3.

(** aws_cryptosdk_rsa_encrypt, source/cipher.c 959-1008, into an unset buffer *)
Definition rsa_encrypt (rs : rsa) (pad : N) (pub seed plain : list N) : res (list N) :=
  if negb (pad_ok pad) then Err E_UNSUPPORTED_FORMAT
  else match rs_enc rs pad pub seed plain with Some c => Ok c | None => Err E_CRYPTO_UNKNOWN end.

(** aws_cryptosdk_rsa_decrypt, source/cipher.c 1010-1061.  Every failure leaves the buffer unset; the code (CRYPTO_UNKNOWN or
    BAD_CIPHERTEXT) is cleared by the caller. *)
Definition rsa_decrypt (rs : rsa) (pad : N) (priv cipher : list N) : res (list N) :=
  if negb (pad_ok pad) then Err E_UNSUPPORTED_FORMAT
  else match rs_dec rs pad priv cipher with Some p => Ok p | None => Err E_CRYPTO_UNKNOWN end.

(** encrypt_data_key, source/raw_rsa_keyring.c 33-65.  Failure points: 2 provider id, 3 provider info, 4 list. *)
Definition rsa_wrap (rs : rsa) (k : raw_rsa) (ke : kenv) (pub dk : list N) (edks : list edk) : list edk * res unit :=
  match rsa_encrypt rs (rr_pad k) pub (ke_seed ke) dk with
  | Err e => (edks, Err e)
  | Ok c =>
    match ke_fail ke 2 with Some e => (edks, Err e) | None =>
    match ke_fail ke 3 with Some e => (edks, Err e) | None =>
    match ke_fail ke 4 with Some e => (edks, Err e) | None =>
      (edks ++ [mk_edk (rr_ns k) (rr_name k) c], Ok tt)
    end end end
  end.

(** raw_rsa_keyring_on_encrypt, source/raw_rsa_keyring.c 67-103.  Failure points: 0 key buffer, 1 data key, 5 trace record. *)
Definition raw_rsa_on_encrypt (rs : rsa) (k : raw_rsa) (ke : kenv) (ctx : enc_ctx) (alg : N) (a : kargs) : kargs * krc :=
  match rr_pub k with
  | None => (a, KrErr E_BAD_STATE)
  | Some pub =>
    let finish b flags :=
      let (edks, r) := rsa_wrap rs k ke pub (kb_bytes b) (ka_edks a) in
      match r with
      | Err e => (mk_kargs (if flags =? 0 then Some b else None) (ka_trace a) edks, KrErr e)
      | Ok _ => (mk_kargs (Some b)
                   (add_record (no_failure (ke_fail ke 5)) (ka_trace a) (rr_ns k) (rr_name k) (N.lor flags FLAG_ENCRYPTED)) edks, KrOk)
      end in
    match ka_key a with
    | Some b => finish b 0
    | None =>
      match alg_lookup alg with
      | None => (a, KrUB)
      | Some p =>
        match ke_fail ke 0 with
        | Some e => (a, KrErr e)
        | None => match genrandom ke 1 (ap_data_key_len p) with
                  | Err e => (a, KrErr e)
                  | Ok dk => finish (mk_kbuf (ke_meta ke) dk) FLAG_GENERATED
                  end
        end
      end
    end
  end.

(** Lines 126-135: the data key, or [None] to go on to the next EDK. *)
Definition rsa_try_edk (rs : rsa) (k : raw_rsa) (priv : list N) (e : edk) : option (list N) :=
  if (Nlen (edk_provider_id e) =? 0) || (Nlen (edk_provider_info e) =? 0) || (Nlen (edk_ciphertext e) =? 0) then None
  else if negb (bytes_eqb (rr_ns k) (edk_provider_id e)) then None
  else if negb (bytes_eqb (rr_name k) (edk_provider_info e)) then None
  else match rsa_decrypt rs (rr_pad k) priv (edk_ciphertext e) with Ok dk => Some dk | Err _ => None end.
Fixpoint rsa_first_edk (rs : rsa) (k : raw_rsa) (priv : list N) (edks : list edk) : option (list N) :=
  match edks with
  | [] => None
  | e :: edks' => match rsa_try_edk rs k priv e with
                  | Some dk => Some dk
                  | None => rsa_first_edk rs k priv edks'
                  end
  end.

(** raw_rsa_keyring_on_decrypt, source/raw_rsa_keyring.c 105-153.  When the data key buffer is already set,
    aws_cryptosdk_rsa_decrypt refuses (source/cipher.c 1019) and nothing is decrypted.  Failure point: 0 trace record. *)
Definition raw_rsa_on_decrypt (rs : rsa) (k : raw_rsa) (ke : kenv) (edks : list edk) (ctx : enc_ctx) (alg : N) (a : dargs) : dargs * krc :=
  match rr_priv k with
  | None => (a, KrErr E_BAD_STATE)
  | Some priv =>
    match da_key a with
    | Some _ => (a, KrOk)
    | None =>
      match rsa_first_edk rs k priv edks with
      | Some dk => (mk_dargs (Some (mk_kbuf (ke_meta ke) dk))
                      (add_record (no_failure (ke_fail ke 0)) (da_trace a) (rr_ns k) (rr_name k) FLAG_DECRYPTED), KrOk)
      | None => (a, KrOk)
      end
    end
  end.

Definition raw_rsa_keyring (rs : rsa) (k : raw_rsa) (ke : kenv) : keyring :=
  mk_keyring (Some (raw_rsa_on_encrypt rs k ke)) (Some (raw_rsa_on_decrypt rs k ke)).

(** ** Default CMM *)

(** OpenSSL's ECDSA as used here: a new key pair (signing context and public key string), and a verification
    context from a public key string; both for a suite. *)
Record ecdsa := mk_ecdsa {
  ec_keygen : N -> res (sigctx * list N);
  ec_verify_start : N -> list N -> res sigctx;
}.

(** struct default_cmm, source/default_cmm.c 27-33; [dc_alg]: default_alg, if set. *)
Record default_cmm := mk_default_cmm { dc_keyring : keyring; dc_alg : option N }.

(** aws_cryptosdk_default_cmm_set_alg_id, source/default_cmm.c 180-192 *)
Definition default_cmm_set_alg_id (c : default_cmm) (alg : N) : default_cmm * res unit :=
  if alg_is_known alg then (mk_default_cmm (dc_keyring c) (Some alg), Ok tt) else (c, Err E_UNSUPPORTED_FORMAT).

(** EC_PUBLIC_KEY_FIELD, source/default_cmm.c 25 *)
Definition EC_PUBLIC_KEY_FIELD : list N := c_str "aws-crypto-public-key".

(** Encryption and decryption materials as built here (include/aws/cryptosdk/materials.h 153-230). *)
Record kr_enc_mat := mk_kr_enc_mat {
  km_key : option kbuf; km_trace : list trace_rec; km_edks : list edk; km_sig : option sigctx; km_alg : N }.
Record kr_dec_mat := mk_kr_dec_mat { kd_mat_key : kbuf; kd_mat_trace : list trace_rec; kd_mat_sig : option sigctx; kd_mat_alg : N }.

(** Result of a CMM call. *)
Inductive cres (A : Type) := COk (a : A) | CErr (e : err) | CUB.
Arguments COk {A} a. Arguments CErr {A} e. Arguments CUB {A}.

(** Lines 53-63: the suite used. *)
Definition default_alg_choice (c : default_cmm) (requested : N) (pol : cpolicy) : N :=
  if requested =? 0 then
    match dc_alg c with
    | Some a => a
    | None => if must_include_commitment pol then ALG_AES256_COMMIT_P384 else ALG_AES256_HKDF_P384
    end
  else requested.

(** default_cmm_generate_enc_materials, source/default_cmm.c 35-98: the request's encryption context afterwards, and the
    result.  An unknown suite fails without raising an error (line 65).  [put] is the memory of line 76, [new] of line 67. *)
Definition default_cmm_generate (ec : ecdsa) (new put : option err) (c : default_cmm) (rq : enc_request) : enc_ctx * cres kr_enc_mat :=
  let ctx := rq_ctx rq in
  match ctx_find EC_PUBLIC_KEY_FIELD ctx with
  | Some _ => (ctx, CErr E_RESERVED_NAME)
  | None =>
    let alg := default_alg_choice c (rq_alg rq) (rq_policy rq) in
    match alg_lookup alg with
    | None => (ctx, CErr E_STALE)
    | Some p =>
      match new with Some e => (ctx, CErr e) | None =>
      let signed :=
        if ap_sig_len p =? 0 then (ctx, Ok None)
        else match ec_keygen ec alg with
             | Err e => (ctx, Err e)
             | Ok (sc, pub) =>
               match put with
               | Some e => (ctx, Err e)
               | None => (fst (ctx_put EC_PUBLIC_KEY_FIELD pub ctx), Ok (Some sc))
               end
             end in
      match signed with
      | (ctx', Err e) => (ctx', CErr e)
      | (ctx', Ok sc) =>
        let (a, rc) := keyring_on_encrypt (dc_keyring c) ctx' alg (mk_kargs None [] []) in
        (ctx', match rc with
               | KrOk => COk (mk_kr_enc_mat (ka_key a) (ka_trace a) (ka_edks a) sc alg)
               | KrErr e => CErr e
               | KrUB => CUB
               end)
      end end
    end
  end.

(** default_cmm_decrypt_materials, source/default_cmm.c 100-150.  Line 128 would dereference NULL for an unknown suite. *)
Definition default_cmm_decrypt (ec : ecdsa) (new : option err) (c : default_cmm) (rq : dec_request) : cres kr_dec_mat :=
  match new with Some e => CErr e | None =>
  let (a, rc) := keyring_on_decrypt (dc_keyring c) (dq_edks rq) (dq_ctx rq) (dq_alg rq) (mk_dargs None []) in
  match rc with
  | KrUB => CUB
  | KrErr e => CErr e
  | KrOk =>
    match da_key a with
    | None => CErr E_CANNOT_DECRYPT
    | Some b =>
      match alg_lookup (dq_alg rq) with
      | None => CUB
      | Some p =>
        match (ap_sig_len p =? 0), ctx_find EC_PUBLIC_KEY_FIELD (dq_ctx rq) with
        | false, None => CErr E_BAD_CIPHERTEXT
        | false, Some pub =>
          match ec_verify_start ec (dq_alg rq) pub with
          | Err e => CErr e
          | Ok sc => COk (mk_kr_dec_mat b (da_trace a) (Some sc) (dq_alg rq))
          end
        | true, Some _ => CErr E_BAD_CIPHERTEXT
        | true, None => COk (mk_kr_dec_mat b (da_trace a) None (dq_alg rq))
        end
      end
    end
  end end.

(** What the session sees of these materials (a missing data key is an empty one; the trace is opaque there). *)
Definition session_enc_mat (m : kr_enc_mat) : enc_mat :=
  mk_enc_mat (match km_key m with Some b => kb_bytes b | None => [] end) [] (km_edks m) (km_sig m) (km_alg m).
Definition session_dec_mat (m : kr_dec_mat) : dec_mat :=
  mk_dec_mat (kb_bytes (kd_mat_key m)) [] (kd_mat_sig m) (kd_mat_alg m).
