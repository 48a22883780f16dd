(** How source/cipher.c wraps data keys with RSA (950-1061) and how source/hkdf.c derives keys with OpenSSL 1.1 and later (121-158):
    the sequences of EVP_PKEY calls, with every call allowed to fail.

    OpenSSL is not part of /repo; its objects are modelled from the documented behaviour of the interface.  RSA, the reading of PEM
    and HKDF itself are oracles.  Simplifications: a key that a context refers to is copied into it (OpenSSL counts references);
    aws_byte_buf_init fails like a call of OpenSSL; an encrypted PEM file is one that cannot be read. *)
From Verif Require Import Base AlgModel CryptoModel CipherModel.
From Coq Require Import ZArith.
Import List.
Open Scope list_scope.
Open Scope N_scope.

(** Padding as OpenSSL's RSA sees it. *)
Inductive hash := H_SHA1 | H_SHA256.
Inductive padding := PadPkcs1 | PadOaep (md mgf : hash).

(** The oracles.  Keys are byte strings; [a_pub] and [a_priv] read PEM; [a_rsa]: is this an RSA key, [a_size]: of which size in bytes;
    [a_enc] takes key, padding, randomness and text; [a_dec] key, padding and text; [a_junk] is what a failing operation leaves in
    the output buffer, [a_fresh] what newly allocated memory holds; [a_hkdf] takes hash, salt, input key, info and length. *)
Record asym := mk_asym {
  a_pub : list N -> option (list N);
  a_priv : list N -> option (list N);
  a_rsa : list N -> bool;
  a_size : list N -> N;
  a_enc : list N -> padding -> list N -> list N -> option (list N);
  a_dec : list N -> padding -> list N -> option (list N);
  a_junk : list N -> list N -> list N;
  a_fresh : N -> list N;
  a_hkdf : sha_version -> list N -> list N -> list N -> N -> list N;
}.

(** EVP_PKEY, BIO, EVP_PKEY_CTX for RSA ([c_enc]: initialised for encryption or decryption) and for HKDF. *)
Record rsa_ctx := mk_rsa_ctx { c_key : list N; c_enc : option bool; c_pad : Z; c_md : option hash; c_mgf : option hash }.
Record kdf_ctx := mk_kdf_ctx { k_init : bool; k_md : option sha_version; k_salt : list N; k_key : option (list N); k_info : list N }.
Inductive obj := OKey (k : option (list N)) | OBio (data : list N) | ORsa (c : rsa_ctx) | OKdf (c : kdf_ctx).

(** Calls so far, error queue, the objects alive under their addresses, the next address, and the contents that memory had when it was
    given back to the allocator. *)
Record pst := mk_pst { p_tick : nat; p_errs : list N; p_objs : list (nat * obj); p_next : nat; p_freed : list (list N) }.

Definition P (A : Type) : Type := pst -> stop + A * pst.
Definition done {A} (a : A) : P A := fun s => inr (a, s).
Definition undefined {A} : P A := fun _ => inl Undefined.
Definition pbind {A B} (m : P A) (f : A -> P B) : P B := fun s => match m s with inl w => inl w | inr (a, s') => f a s' end.
Notation "'do!' x := m 'in' f" := (pbind m (fun x => f)) (at level 200, x pattern, m at level 100, f at level 200).

(** if (!(x = m)) goto bad *)
Definition attempt {A B} (m : P (option A)) (bad : P B) (k : A -> P B) : P B :=
  do! o := m in match o with Some a => k a | None => bad end.

(** ** OpenSSL *)
Fixpoint find_obj (h : nat) (l : list (nat * obj)) : option obj :=
  match l with [] => None | (i, o) :: r => if Nat.eqb i h then Some o else find_obj h r end.
Fixpoint drop_obj (h : nat) (l : list (nat * obj)) : option (list (nat * obj)) :=
  match l with
  | [] => None
  | (i, o) :: r => if Nat.eqb i h then Some r else match drop_obj h r with Some r' => Some ((i, o) :: r') | None => None end
  end.
Fixpoint set_obj (h : nat) (o : obj) (l : list (nat * obj)) : list (nat * obj) :=
  match l with [] => [] | (i, p) :: r => if Nat.eqb i h then (i, o) :: r else (i, p) :: set_obj h o r end.

Definition alloc (o : obj) : P (option nat) := fun s =>
  inr (Some (p_next s), mk_pst (p_tick s) (p_errs s) ((p_next s, o) :: p_objs s) (S (p_next s)) (p_freed s)).
(** EVP_PKEY_free, BIO_free, EVP_PKEY_CTX_free: nothing happens for NULL; freeing what is not there is undefined. *)
Definition release (h : option nat) : P unit := fun s =>
  match h with
  | None => inr (tt, s)
  | Some h => match drop_obj h (p_objs s) with
              | None => inl Undefined
              | Some l => inr (tt, mk_pst (p_tick s) (p_errs s) l (p_next s) (p_freed s))
              end
  end.
Definition lookup (h : nat) : P obj := fun s => match find_obj h (p_objs s) with Some o => inr (o, s) | None => inl Undefined end.
Definition store (h : nat) (o : obj) : P (option unit) := fun s =>
  inr (Some tt, mk_pst (p_tick s) (p_errs s) (set_obj h o (p_objs s)) (p_next s) (p_freed s)).
(** flush_openssl_errors, source/cipher.c 473-476 *)
Definition flush : P unit := fun s => inr (tt, mk_pst (p_tick s) [] (p_objs s) (p_next s) (p_freed s)).

(** The bytes before the first NUL (all strings of aws-c-common end with one). *)
Fixpoint c_string (l : list N) : list N := match l with [] => [] | b :: r => if b =? 0 then [] else b :: c_string r end.

Section Calls.
Variable a : asym.
(** [fault n]: does call number [n] fail, and with which error codes? *)
Variable fault : nat -> option (list N).

Definition pcall : P bool := fun s =>
  match fault (p_tick s) with
  | Some es => inr (false, mk_pst (S (p_tick s)) (p_errs s ++ es) (p_objs s) (p_next s) (p_freed s))
  | None => inr (true, mk_pst (S (p_tick s)) (p_errs s) (p_objs s) (p_next s) (p_freed s))
  end.
Definition calling {A} (k : P (option A)) : P (option A) := do! ok := pcall in if ok then k else done None.

(** EVP_PKEY_new *)
Definition pkey_new : P (option nat) := calling (alloc (OKey None)).
(** BIO_new_mem_buf: the length is an int; a negative one stands for the length of the C string. *)
Definition bio_new (data : list N) (len : N) : P (option nat) :=
  calling (if (to_int len <? 0)%Z then alloc (OBio (c_string data)) else alloc (OBio (firstn (Z.to_nat (to_int len)) data))).
(** PEM_read_bio_PUBKEY, PEM_read_bio_PrivateKey: the key read replaces the one given, which is freed. *)
Definition pem_read (read : list N -> option (list N)) (bio pkey : nat) : P (option nat) :=
  calling (do! o := lookup bio in
    match o with
    | OBio data => match read data with
                   | None => done None
                   | Some k => do! _ := release (Some pkey) in alloc (OKey (Some k))
                   end
    | _ => undefined
    end).
(** EVP_PKEY_CTX_new *)
Definition rsa_ctx_new (pkey : nat) : P (option nat) :=
  calling (do! o := lookup pkey in
    match o with
    | OKey None => done None
    | OKey (Some k) => alloc (ORsa (mk_rsa_ctx k None 1 None None))
    | _ => undefined
    end).
(** A call that changes a context for RSA. *)
Definition with_rsa (ctx : nat) (f : rsa_ctx -> option rsa_ctx) : P (option unit) :=
  calling (do! o := lookup ctx in
    match o with
    | ORsa c => match f c with None => done None | Some c' => store ctx (ORsa c') end
    | _ => undefined
    end).
(** EVP_PKEY_encrypt_init, EVP_PKEY_decrypt_init; EVP_PKEY_CTX_set_rsa_padding (1: RSA_PKCS1_PADDING, 4: RSA_PKCS1_OAEP_PADDING),
    ..._set_rsa_oaep_md and ..._set_rsa_mgf1_md, which demand OAEP *)
Definition crypt_init (ctx : nat) (enc : bool) : P (option unit) :=
  with_rsa ctx (fun c => if a_rsa a (c_key c) then Some (mk_rsa_ctx (c_key c) (Some enc) 1 None None) else None).
Definition set_rsa_padding (ctx : nat) (pad : Z) : P (option unit) :=
  with_rsa ctx (fun c => match c_enc c with
    | None => None
    | Some _ => if (pad =? 1)%Z || (pad =? 4)%Z then Some (mk_rsa_ctx (c_key c) (c_enc c) pad (c_md c) (c_mgf c)) else None
    end).
Definition set_rsa_oaep_md (ctx : nat) (h : hash) : P (option unit) :=
  with_rsa ctx (fun c => if (c_pad c =? 4)%Z then Some (mk_rsa_ctx (c_key c) (c_enc c) (c_pad c) (Some h) (c_mgf c)) else None).
Definition set_rsa_mgf1_md (ctx : nat) (h : hash) : P (option unit) :=
  with_rsa ctx (fun c => if (c_pad c =? 4)%Z then Some (mk_rsa_ctx (c_key c) (c_enc c) (c_pad c) (c_md c) (Some h)) else None).
(** The padding a context stands for: SHA-1 unless said otherwise, and one hash for both purposes. *)
Definition ctx_padding (c : rsa_ctx) : padding :=
  if (c_pad c =? 1)%Z then PadPkcs1
  else let md := match c_md c with Some h => h | None => H_SHA1 end in
       PadOaep md match c_mgf c with Some h => h | None => md end.
(** EVP_PKEY_encrypt, EVP_PKEY_decrypt without an output buffer: the room needed *)
Definition crypt_size (ctx : nat) (enc : bool) : P (option N) :=
  calling (do! o := lookup ctx in
    match o with
    | ORsa c => match c_enc c with
                | Some e => if Bool.eqb e enc then done (Some (a_size a (c_key c))) else done None
                | None => done None
                end
    | _ => undefined
    end).
(** With one of [outlen] bytes, [mem]: the memory afterwards; the number of bytes, if the call succeeds. *)
Definition crypt (ctx : nat) (enc : bool) (op : rsa_ctx -> option (list N)) (mem : list N) (outlen : N) : P (list N * option N) :=
  do! o := lookup ctx in
  do! ok := pcall in
  match o with
  | ORsa c =>
      let fail := match put mem 0 (a_junk a (c_key c) mem) with None => undefined | Some m => done (m, None) end in
      match c_enc c with
      | Some e =>
          if negb ok then fail
          else if negb (Bool.eqb e enc) || (outlen <? a_size a (c_key c)) then done (mem, None)
          else match op c with
               | None => fail
               | Some out => match put mem 0 out with None => undefined | Some m => done (m, Some (Nlen out)) end
               end
      | None => done (mem, None)
      end
  | _ => undefined
  end.

(** ** cipher.c *)

(** struct aws_byte_buf: unset, or memory and length. *)
Definition abuf : Type := option (list N * N).
(** aws_byte_buf_init of aws-c-common *)
Definition abuf_init (cap : N) : P (option (list N)) := calling (done (Some (a_fresh a cap))).
(** aws_byte_buf_clean_up_secure of aws-c-common: zeros, then the memory is given back. *)
Definition abuf_clean_up_secure (b : abuf) : P abuf := fun s =>
  match b with
  | None => inr (None, s)
  | Some (m, _) => inr (None, mk_pst (p_tick s) (p_errs s) (p_objs s) (p_next s) (zeros (Nlen m) :: p_freed s))
  end.

(** get_openssl_rsa_padding_mode, source/cipher.c 950-957 *)
Definition openssl_padding (mode : Z) : Z :=
  if (mode =? 0)%Z then 1%Z else if (mode =? 1)%Z then 4%Z else if (mode =? 2)%Z then 4%Z else (-1)%Z.

(** The end of both functions, lines 997-1007 and 1050-1060 *)
Definition cleanup (ctx pkey bio : option nat) (err : option err) (b : abuf) : P (res unit * abuf) :=
  do! _ := release ctx in
  do! _ := release pkey in
  do! _ := release bio in
  do! _ := flush in
  match err with
  | Some e => do! b' := abuf_clean_up_secure b in done (Err e, b')
  | None => done (Ok tt, b)
  end.

(** Lines 983-988 and 1034-1039: from the context to the choice of hashes *)
Definition rsa_setup (ctx : nat) (enc : bool) (padding mode : Z) (bad : P (res unit * abuf)) (k : P (res unit * abuf)) : P (res unit * abuf) :=
  attempt (crypt_init ctx enc) bad (fun _ =>
  attempt (set_rsa_padding ctx padding) bad (fun _ =>
  if (mode =? 2)%Z
  then attempt (set_rsa_oaep_md ctx H_SHA256) bad (fun _ => attempt (set_rsa_mgf1_md ctx H_SHA256) bad (fun _ => k))
  else k)).

(** aws_cryptosdk_rsa_encrypt, source/cipher.c 959-1008: return code and [cipher]; [seed] is OpenSSL's randomness. *)
Definition rsa_encrypt (cipher : abuf) (plain pem : list N) (mode : Z) (seed : list N) : P (res unit * abuf) :=
  match cipher with
  | Some _ => done (Err E_BAD_STATE, cipher)
  | None =>
      let padding := openssl_padding mode in
      if (padding <? 0)%Z then done (Err E_UNSUPPORTED_FORMAT, cipher)
      else
        let bad ctx pkey bio := cleanup ctx pkey bio (Some E_CRYPTO_UNKNOWN) None in
        attempt pkey_new (bad None None None) (fun pkey =>
        attempt (bio_new pem (Nlen pem)) (bad None (Some pkey) None) (fun bio =>
        attempt (pem_read (a_pub a) bio pkey) (bad None (Some pkey) (Some bio)) (fun pkey =>
        attempt (rsa_ctx_new pkey) (bad None (Some pkey) (Some bio)) (fun ctx =>
        let bad := bad (Some ctx) (Some pkey) (Some bio) in
        rsa_setup ctx true padding mode bad
        (attempt (crypt_size ctx true) bad (fun outlen =>
         attempt (abuf_init outlen) bad (fun mem =>
         do! r := crypt ctx true (fun c => a_enc a (c_key c) (ctx_padding c) seed plain) mem outlen in
         match r with
         | (m, Some n) => cleanup (Some ctx) (Some pkey) (Some bio) None (Some (m, n))
         | (m, None) => cleanup (Some ctx) (Some pkey) (Some bio) (Some E_CRYPTO_UNKNOWN) (Some (m, 0))
         end)))))))
  end.

(** aws_cryptosdk_rsa_decrypt, source/cipher.c 1010-1061: return code and [plain] *)
Definition rsa_decrypt (plain : abuf) (cipher pem : list N) (mode : Z) : P (res unit * abuf) :=
  match plain with
  | Some _ => done (Err E_BAD_STATE, plain)
  | None =>
      let padding := openssl_padding mode in
      if (padding <? 0)%Z then done (Err E_UNSUPPORTED_FORMAT, plain)
      else
        let bad ctx pkey bio := cleanup ctx pkey bio (Some E_CRYPTO_UNKNOWN) None in
        attempt pkey_new (bad None None None) (fun pkey =>
        attempt (bio_new pem (Nlen pem)) (bad None (Some pkey) None) (fun bio =>
        attempt (pem_read (a_priv a) bio pkey) (bad None (Some pkey) (Some bio)) (fun pkey =>
        attempt (rsa_ctx_new pkey) (bad None (Some pkey) (Some bio)) (fun ctx =>
        let bad := bad (Some ctx) (Some pkey) (Some bio) in
        rsa_setup ctx false padding mode bad
        (attempt (crypt_size ctx false) bad (fun outlen =>
         attempt (abuf_init outlen) bad (fun mem =>
         do! r := crypt ctx false (fun c => a_dec a (c_key c) (ctx_padding c) cipher) mem outlen in
         match r with
         | (m, Some n) => cleanup (Some ctx) (Some pkey) (Some bio) None (Some (m, n))
         | (m, None) => cleanup (Some ctx) (Some pkey) (Some bio) (Some E_BAD_CIPHERTEXT) (Some (m, 0))
         end)))))))
  end.

(** ** hkdf.c *)

(** EVP_PKEY_CTX_new_id(EVP_PKEY_HKDF, NULL) *)
Definition kdf_ctx_new : P (option nat) := calling (alloc (OKdf (mk_kdf_ctx false None [] None []))).
Definition with_kdf (ctx : nat) (f : kdf_ctx -> option kdf_ctx) : P (option unit) :=
  calling (do! o := lookup ctx in
    match o with
    | OKdf c => match f c with None => done None | Some c' => store ctx (OKdf c') end
    | _ => undefined
    end).
(** EVP_PKEY_derive_init, EVP_PKEY_CTX_set_hkdf_md *)
Definition derive_init (ctx : nat) : P (option unit) := with_kdf ctx (fun _ => Some (mk_kdf_ctx true None [] None [])).
Definition set_hkdf_md (ctx : nat) (md : sha_version) : P (option unit) :=
  with_kdf ctx (fun c => if k_init c then Some (mk_kdf_ctx true (Some md) (k_salt c) (k_key c) (k_info c)) else None).
(** EVP_PKEY_CTX_set1_hkdf_salt, ..._set1_hkdf_key, ..._add1_hkdf_info.  Lengths are ints; there is no empty key; at most 1024 bytes of
    info *)
Definition set1_hkdf_salt (ctx : nat) (data : list N) (len : N) : P (option unit) :=
  with_kdf ctx (fun c =>
    if negb (k_init c) || (to_int len <? 0)%Z then None
    else if (to_int len =? 0)%Z then Some c
    else Some (mk_kdf_ctx true (k_md c) (firstn (Z.to_nat (to_int len)) data) (k_key c) (k_info c))).
Definition set1_hkdf_key (ctx : nat) (data : list N) (len : N) : P (option unit) :=
  with_kdf ctx (fun c =>
    if negb (k_init c) || (to_int len <=? 0)%Z then None
    else Some (mk_kdf_ctx true (k_md c) (k_salt c) (Some (firstn (Z.to_nat (to_int len)) data)) (k_info c))).
Definition add1_hkdf_info (ctx : nat) (data : list N) (len : N) : P (option unit) :=
  with_kdf ctx (fun c =>
    if negb (k_init c) || (to_int len <? 0)%Z || (1024 - Z.of_N (Nlen (k_info c)) <? to_int len)%Z then None
    else Some (mk_kdf_ctx true (k_md c) (k_salt c) (k_key c) (k_info c ++ firstn (Z.to_nat (to_int len)) data))).
(** EVP_PKEY_derive: [len] bytes to the beginning of [mem], at most 255 times the length of the hash *)
Definition derive (ctx : nat) (mem : list N) (len : N) : P (option (list N)) :=
  calling (do! o := lookup ctx in
    match o with
    | OKdf c =>
        match k_md c, k_key c with
        | Some md, Some key =>
            if 255 * md_size md <? len then done None
            else match put mem 0 (a_hkdf a md (k_salt c) key (k_info c) len) with None => undefined | Some m => done (Some m) end
        | _, _ => done None
        end
    | _ => undefined
    end).

(** aws_cryptosdk_openssl_hkdf_version, source/hkdf.c 124-158, and aws_cryptosdk_hkdf, 161-181, second alternative: return code and
    [okm].  The EVP_MAX_MD_SIZE zeros of line 134 serve as salt when there is none. *)
Definition openssl_hkdf (okm : buf) (sha : sha_version) (salt ikm info : list N) : P (res unit * buf) :=
  match sha with
  | NOSHA => done (Err E_UNSUPPORTED_FORMAT, okm)
  | _ =>
      attempt kdf_ctx_new (done (Err E_CRYPTO_UNKNOWN, okm)) (fun pctx =>
      let (mysalt, mysalt_len) := if negb (Nlen salt =? 0) then (salt, Nlen salt) else (zeros 64, md_size sha) in
      let bad := do! _ := release (Some pctx) in done (Err E_CRYPTO_UNKNOWN, buf_zero okm) in
      attempt (derive_init pctx) bad (fun _ =>
      attempt (set_hkdf_md pctx sha) bad (fun _ =>
      attempt (set1_hkdf_salt pctx mysalt mysalt_len) bad (fun _ =>
      attempt (set1_hkdf_key pctx ikm (Nlen ikm)) bad (fun _ =>
      attempt (add1_hkdf_info pctx info (Nlen info)) bad (fun _ =>
      attempt (derive pctx (b_mem okm) (b_len okm)) bad (fun m =>
      do! _ := release (Some pctx) in
      done (Ok tt, mk_buf m (b_len okm)))))))))
  end.
End Calls.
