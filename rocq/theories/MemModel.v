(** Who owns which block of memory: every allocation, every release and every overwriting of key material on the paths that
    create and destroy keyrings, materials, headers, signature contexts and sessions, and on the paths through which one message
    runs.  What the blocks contain is not modelled here (the other model files do that), only whether they hold key material.

    Every allocation and every call into OpenSSL may fail, and every condition that depends on data may go either way: the
    outcome of the [n]-th such question is [m_env m n s], where [s] says what sort of question it is.  A theorem about all
    [m_env] is therefore a theorem about all inputs and all failures.  Releasing or using a block that is not allocated is
    undefined behaviour and is the outcome [None].

    Simplifications: an OpenSSL object is one block (what it owns internally is OpenSSL's), counted where OpenSSL counts it;
    copies of keys inside OpenSSL, on the stack of OpenSSL and in registers are not tracked; the data structures of aws-c-common
    are modelled from their documented behaviour (aws_array_list doubles its capacity, aws_hash_table_put may reallocate, a
    buffer of capacity 0 has no block). *)
From Coq Require Import List Bool PeanoNat.
Import ListNotations.

(** Sorts of questions.  [SAlloc]: an allocation fails.  [SGrow]: reallocating a list fails.  [STransfer], [SParse], [SChild]:
    the same in aws_cryptosdk_transfer_list, aws_cryptosdk_priv_hdr_parse_edks and aws_cryptosdk_multi_keyring_add_child.
    [SPem], [SPart], [SBigNum]: the allocations of raw_rsa_keyring.c 204, caching_cmm.c 181 and cipher_openssl.c 934-935 fail.
    [SSecondMd]: the second aws_cryptosdk_md_init of hash_enc_request (caching_cmm.c 275) fails.  [SEdkHash]: hash_edk_for_decrypt
    fails in hash_dec_request (caching_cmm.c 436).  [SLock]: release_entry or clear_cache cannot lock the mutex (local_cache.c
    832, 871).  [SRaii]: ListRaii::Create fails in the KMS keyrings (cpputils.cpp 374).  [SCall]: any other call fails.  [SCond]: a condition on data holds. *)
Inductive site :=
  SAlloc | SGrow | STransfer | SParse | SChild | SPem | SPart | SBigNum | SSecondMd | SEdkHash | SLock | SRaii | SCall | SCond.

(** Places at which a block is given back: [PAesKey] raw_aes_keyring.c 173, [PRsaKey] raw_rsa_keyring.c 95, [PKmsKey] kms_keyring.cpp 298
    and kms_mrk_keyring.cpp 605, [PLocalKey] the local variable of session_decrypt.c 80, [POther] all others. *)
Inductive place := PAesKey | PRsaKey | PKmsKey | PLocalKey | POther.

(** An allocated block: does it hold key material; its reference count, if it has one (0 before it is initialised). *)
Record cell := mkc { c_id : nat; c_secret : bool; c_refs : nat }.

(** [m_spilled]: where blocks were given back that still held key material, latest first (an observation). *)
Record mem := mk_mem { m_live : list cell; m_next : nat; m_tick : nat; m_env : nat -> site -> bool; m_spilled : list place }.

Definition M (A : Type) := mem -> option (mem * A).

Definition ret {A} (a : A) : M A := fun m => Some (m, a).
Definition bind {A B} (c : M A) (k : A -> M B) : M B :=
  fun m => match c m with Some (m', a) => k a m' | None => None end.

Notation "'let*' x := c 'in' k" := (bind c (fun x => k)) (at level 200, x name, c at level 100, k at level 200).
Notation "'let*' ' p := c 'in' k" := (bind c (fun x => match x with p => k end))
  (at level 200, p strict pattern, c at level 100, k at level 200).
Notation "c ;; k" := (bind c (fun _ => k)) (at level 60, right associativity).

Definition ask (s : site) : M bool :=
  fun m => Some (mk_mem (m_live m) (m_next m) (S (m_tick m)) (m_env m) (m_spilled m), m_env m (m_tick m) s).

Fixpoint find_cell (b : nat) (l : list cell) : option cell :=
  match l with
  | [] => None
  | c :: r => if c_id c =? b then Some c else find_cell b r
  end.

Fixpoint drop_cell (b : nat) (l : list cell) : list cell :=
  match l with
  | [] => []
  | c :: r => if c_id c =? b then r else c :: drop_cell b r
  end.

(** aws_mem_acquire, or a variable on the stack for [must_acquire]. *)
Definition must_acquire : M nat :=
  fun m => Some (mk_mem (mkc (m_next m) false 0 :: m_live m) (S (m_next m)) (m_tick m) (m_env m) (m_spilled m), m_next m).
Definition acquire_at (s : site) : M (option nat) :=
  let* fails := ask s in
  if fails then ret None else let* b := must_acquire in ret (Some b).
Definition acquire : M (option nat) := acquire_at SAlloc.

(** aws_mem_release. *)
Definition release_at (p : place) (b : nat) : M unit :=
  fun m => match find_cell b (m_live m) with
           | None => None
           | Some c => Some (mk_mem (drop_cell b (m_live m)) (m_next m) (m_tick m) (m_env m)
                                    (if c_secret c then p :: m_spilled m else m_spilled m), tt)
           end.
Definition release : nat -> M unit := release_at POther.

(** Any access to an allocated block that changes it as [f] says. *)
Definition update_cell (b : nat) (f : cell -> option cell) : M cell :=
  fun m => match find_cell b (m_live m) with
           | None => None
           | Some c => match f c with
                       | None => None
                       | Some c' => Some (mk_mem (c' :: drop_cell b (m_live m)) (m_next m) (m_tick m) (m_env m) (m_spilled m), c)
                       end
           end.
(** Reading the block. *)
Definition touch (b : nat) : M unit := update_cell b (fun c => Some c);; ret tt.
(** Key material is written to the block. *)
Definition taint (b : nat) : M unit := update_cell b (fun c => Some (mkc (c_id c) true (c_refs c)));; ret tt.
(** aws_secure_zero. *)
Definition scrub (b : nat) : M unit := update_cell b (fun c => Some (mkc (c_id c) false (c_refs c)));; ret tt.
(** aws_cryptosdk_private_refcount_init, _up and _down: materials.h 293-362 (their assertions are undefined behaviour here). *)
Definition init_ref (b : nat) : M unit := update_cell b (fun c => Some (mkc (c_id c) (c_secret c) 1));; ret tt.
Definition retain (b : nat) : M unit :=
  update_cell b (fun c => if c_refs c =? 0 then None else Some (mkc (c_id c) (c_secret c) (S (c_refs c))));; ret tt.
Definition unref (b : nat) : M bool :=
  let* c := update_cell b (fun c => match c_refs c with 0 => None | S n => Some (mkc (c_id c) (c_secret c) n) end) in
  ret (c_refs c =? 1).

(** ** Buffers and strings *)

(** [None]: no block (a null pointer, a buffer of capacity 0, a string that was never allocated). *)
Definition buf := option nat.

(** aws_byte_buf_init, aws_byte_buf_init_copy, aws_cryptosdk_string_dup (utils.c 50-56); the outer [None] is failure. *)
Definition buf_init : M (option buf) :=
  let* empty := ask SCond in
  if empty then ret (Some None) else
  let* b := acquire in
  match b with None => ret None | Some b => ret (Some (Some b)) end.

(** aws_byte_buf_clean_up, aws_string_destroy. *)
Definition buf_clean_up (b : buf) : M unit := match b with None => ret tt | Some b => release b end.
(** aws_byte_buf_clean_up_secure, aws_string_destroy_secure. *)
Definition buf_clean_up_secure (b : buf) : M unit := match b with None => ret tt | Some b => scrub b;; release b end.

(** ** Array lists (aws-c-common) *)

Record alist (A : Type) := mkl { l_items : list A; l_cap : nat; l_blk : buf }.
Arguments mkl {A}. Arguments l_items {A}. Arguments l_cap {A}. Arguments l_blk {A}.

(** aws_array_list_init_dynamic. *)
Definition list_init {A} (cap : nat) : M (option (alist A)) :=
  if cap =? 0 then ret (Some (mkl [] 0 None)) else
  let* b := acquire in
  match b with None => ret None | Some b => ret (Some (mkl [] cap (Some b))) end.

(** aws_array_list_push_back; the old list is left as it was on failure. *)
Definition list_push {A} (s : site) (l : alist A) (x : A) : M (option (alist A)) :=
  if length (l_items l) <? l_cap l then ret (Some (mkl (l_items l ++ [x]) (l_cap l) (l_blk l))) else
  let* b := acquire_at s in
  match b with
  | None => ret None
  | Some b => buf_clean_up (l_blk l);;
              ret (Some (mkl (l_items l ++ [x]) (Nat.max (2 * l_cap l) (S (length (l_items l)))) (Some b)))
  end.

(** aws_array_list_clear and aws_array_list_clean_up. *)
Definition list_reset {A} (l : alist A) : alist A := mkl [] (l_cap l) (l_blk l).
Definition list_free {A} (l : alist A) : M unit := buf_clean_up (l_blk l).

(** Calls [f] on every item: the loops of edk.c 34-40 and keyring_trace.c 238-244. *)
Fixpoint each {A} (f : A -> M unit) (l : list A) : M unit :=
  match l with [] => ret tt | x :: r => f x;; each f r end.

(** ** list_utils.c *)

(** aws_cryptosdk_transfer_list: list_utils.c 17-37.  On failure the items moved so far are in both lists. *)
Fixpoint transfer_loop {A} (dest : alist A) (xs : list A) : M (alist A * bool) :=
  match xs with
  | [] => ret (dest, true)
  | x :: r => let* d := list_push STransfer dest x in
              match d with None => ret (dest, false) | Some d => transfer_loop d r end
  end.
Definition transfer_list {A} (dest src : alist A) : M (alist A * alist A * bool) :=
  let* '(d, ok) := transfer_loop dest (l_items src) in
  ret (d, if ok then list_reset src else src, ok).

(** list_copy_all: list_utils.c 43-106. *)
Fixpoint copy_loop {A} (clone : A -> M (option A)) (cleaner : A -> M unit) (dest : alist A) (xs : list A) : M (alist A * bool) :=
  match xs with
  | [] => ret (dest, true)
  | x :: r =>
      let* y := clone x in
      match y with
      | None => ret (dest, false)
      | Some y => let* d := list_push SGrow dest y in
                  match d with
                  | None => cleaner y;; ret (dest, false)
                  | Some d => copy_loop clone cleaner d r
                  end
      end
  end.
Definition list_copy_all {A} (clone : A -> M (option A)) (cleaner : A -> M unit) (dest src : alist A) : M (alist A * bool) :=
  let* tmp := acquire in
  match tmp with
  | None => ret (dest, false)
  | Some tmp =>
      let* '(d, ok) := copy_loop clone cleaner dest (l_items src) in
      release tmp;;
      if ok then ret (d, true) else
      (* lines 90-103: the items beyond the initial length are cleaned up, the last one first *)
      each cleaner (rev (skipn (length (l_items dest)) (l_items d)));;
      ret (mkl (firstn (length (l_items dest)) (l_items d)) (l_cap d) (l_blk d), false)
  end.

(** ** edk.c *)

Record medk := mk_medk { k_id : buf; k_info : buf; k_ct : buf }.

(** aws_cryptosdk_edk_list_init: edk.c 17-20. *)
Definition edk_list_init : M (option (alist medk)) := list_init 4.
(** aws_cryptosdk_edk_clean_up: edk.c 22-29. *)
Definition edk_clean_up (e : medk) : M unit := buf_clean_up (k_id e);; buf_clean_up (k_info e);; buf_clean_up (k_ct e).
(** aws_cryptosdk_edk_list_clear: edk.c 31-42. *)
Definition edk_list_clear (l : alist medk) : M (alist medk) := each edk_clean_up (l_items l);; ret (list_reset l).
(** aws_cryptosdk_edk_list_clean_up: edk.c 44-47. *)
Definition edk_list_clean_up (l : alist medk) : M unit := let* l := edk_list_clear l in list_free l.
(** aws_cryptosdk_edk_init_clone: edk.c 49-67. *)
Definition edk_init_clone (_ : medk) : M (option medk) :=
  let* a := buf_init in
  match a with
  | None => edk_clean_up (mk_medk None None None);; ret None
  | Some a =>
      let* b := buf_init in
      match b with
      | None => edk_clean_up (mk_medk a None None);; ret None
      | Some b =>
          let* c := buf_init in
          match c with
          | None => edk_clean_up (mk_medk a b None);; ret None
          | Some c => ret (Some (mk_medk a b c))
          end
      end
  end.
(** aws_cryptosdk_edk_list_copy_all: list_utils.c 108-116. *)
Definition edk_list_copy_all := list_copy_all edk_init_clone edk_clean_up.

(** ** keyring_trace.c *)

(** The name space and the name of a record. *)
Record mrec := mk_mrec { r_ns : buf; r_name : buf }.

(** aws_cryptosdk_keyring_trace_record_clean_up: keyring_trace.c 46-57. *)
Definition record_clean_up (r : mrec) : M unit := buf_clean_up (r_ns r);; buf_clean_up (r_name r).
(** record_init_from_strings and the others, aws_cryptosdk_keyring_trace_record_init_clone: keyring_trace.c 59-101, 185-210. *)
Definition record_init : M (option mrec) :=
  let* a := buf_init in
  let* b := buf_init in
  match a, b with
  | Some a, Some b => ret (Some (mk_mrec a b))
  | Some a, None => record_clean_up (mk_mrec a None);; ret None
  | None, Some b => record_clean_up (mk_mrec None b);; ret None
  | None, None => ret None
  end.
(** aws_cryptosdk_keyring_trace_add_record: keyring_trace.c 103-127.  The callers ignore the result. *)
Definition trace_add (l : alist mrec) : M (alist mrec) :=
  let* r := record_init in
  match r with
  | None => ret l
  | Some r => let* l' := list_push SGrow l r in
              match l' with None => record_clean_up r;; ret l | Some l' => ret l' end
  end.
(** aws_cryptosdk_keyring_trace_init, _clear, _clean_up: keyring_trace.c 169-183, 235-253. *)
Definition trace_init : M (option (alist mrec)) := list_init 10.
Definition trace_clear (l : alist mrec) : M (alist mrec) := each record_clean_up (l_items l);; ret (list_reset l).
Definition trace_clean_up (l : alist mrec) : M unit := let* l := trace_clear l in list_free l.
(** aws_cryptosdk_keyring_trace_copy_all: list_utils.c 118-130. *)
Definition trace_copy_all := list_copy_all (fun _ : mrec => record_init) record_clean_up.

(** ** enc_ctx.c *)

(** The block of the table; keys and values. *)
Record mctx := mk_mctx { x_tab : nat; x_elems : list (buf * buf) }.

(** aws_cryptosdk_enc_ctx_init: enc_ctx.c 25-41. *)
Definition ctx_init : M (option mctx) :=
  let* b := acquire in
  match b with None => ret None | Some b => ret (Some (mk_mctx b [])) end.
Definition elem_destroy (e : buf * buf) : M unit := buf_clean_up (fst e);; buf_clean_up (snd e).
(** aws_cryptosdk_enc_ctx_clear, _clean_up (enc_ctx.h: aws_hash_table_clear, aws_hash_table_clean_up). *)
Definition ctx_clear (x : mctx) : M mctx := each elem_destroy (x_elems x);; ret (mk_mctx (x_tab x) []).
Definition ctx_clean_up (x : mctx) : M unit := let* x := ctx_clear x in release (x_tab x).
(** aws_hash_table_put with a new key: the table may have to be reallocated. *)
Definition ctx_put (x : mctx) (k v : buf) : M (option mctx) :=
  let* grow := ask SCond in
  if grow then
    let* b := acquire in
    match b with
    | None => ret None
    | Some b => release (x_tab x);; ret (Some (mk_mctx b ((k, v) :: x_elems x)))
    end
  else touch (x_tab x);; ret (Some (mk_mctx (x_tab x) ((k, v) :: x_elems x))).
(** aws_hash_table_put with a key that is there already: the old key and value are destroyed. *)
Definition ctx_replace (x : mctx) (k v : buf) : M mctx :=
  touch (x_tab x);;
  match x_elems x with
  | [] => ret (mk_mctx (x_tab x) [(k, v)])
  | e :: r => elem_destroy e;; ret (mk_mctx (x_tab x) ((k, v) :: r))
  end.

(** aws_cryptosdk_enc_ctx_deserialize: enc_ctx.c 131-188; [n] elements. *)
Fixpoint ctx_read_loop (x : mctx) (n : nat) : M (mctx * bool) :=
  match n with
  | 0 => ret (x, true)
  | S n =>
      let* short := ask SCond in
      if short then let* x := ctx_clear x in ret (x, false) else
      let* k := acquire in
      let* v := acquire in
      match k, v with
      | Some k, Some v =>
          let* dup := ask SCond in
          if dup && negb (match x_elems x with [] => true | _ => false end) then
            let* x := ctx_replace x (Some k) (Some v) in
            let* x := ctx_clear x in ret (x, false)
          else
            let* x' := ctx_put x (Some k) (Some v) in
            match x' with
            | None => buf_clean_up (Some k);; buf_clean_up (Some v);; let* x := ctx_clear x in ret (x, false)
            | Some x' => ctx_read_loop x' n
            end
      | _, _ => buf_clean_up k;; buf_clean_up v;; let* x := ctx_clear x in ret (x, false)
      end
  end.
Definition ctx_deserialize (x : mctx) (n : nat) : M (mctx * bool) :=
  let* x := ctx_clear x in
  let* empty := ask SCond in
  if empty then ret (x, true) else
  let* short := ask SCond in
  if short then let* x := ctx_clear x in ret (x, false) else
  let* zero := ask SCond in
  if zero then ret (x, false) else
  ctx_read_loop x n.

(** aws_cryptosdk_enc_ctx_serialize: enc_ctx.c 82-129.  [out] is a buffer that has been initialised; a write failure cleans it
    up.  The array of elements (utils.c 28-48) is allocated at its final size. *)
Definition ctx_serialize (out : buf) : M (buf * bool) :=
  let* bad := ask SCond in
  if bad then ret (out, false) else
  let* empty := ask SCond in
  if empty then ret (out, true) else
  let* short := ask SCond in
  if short then buf_clean_up out;; ret (None, false) else
  let* arr := acquire in
  match arr with
  | None => ret (out, false)
  | Some arr => let* short := ask SCond in
                release arr;;
                if short then buf_clean_up out;; ret (None, false) else ret (out, true)
  end.

(** ** cipher_openssl.c: signature contexts *)

(** The context; its EVP_MD_CTX; its EVP_PKEY and whether that refers to the EC_KEY; its reference on the EC_KEY. *)
Record msig := mk_msig { g_blk : nat; g_md : buf; g_pkey : buf; g_set : bool; g_key : buf }.

(** EC_KEY_free. *)
Definition ec_key_free (k : buf) : M unit :=
  match k with None => ret tt | Some b => let* last := unref b in if last then release b else ret tt end.
(** EVP_PKEY_free. *)
Definition evp_pkey_free (p : buf) (set : bool) (k : buf) : M unit :=
  match p with None => ret tt | Some b => (if set then ec_key_free k else ret tt);; release b end.
(** aws_cryptosdk_sig_abort: cipher_openssl.c 526-538. *)
Definition sig_abort (g : option msig) : M unit :=
  match g with
  | None => ret tt
  | Some g => buf_clean_up (g_md g);; evp_pkey_free (g_pkey g) (g_set g) (g_key g);; ec_key_free (g_key g);; release (g_blk g)
  end.

(** The end of sign_start and of aws_cryptosdk_sig_verify_start: cipher_openssl.c 242-273, 769-803; the context [c] holds a
    reference on the EC_KEY [k]. *)
Definition sig_fill (c k : nat) : M (option msig) :=
  let* p := acquire in
  match p with
  | None => sig_abort (Some (mk_msig c None None false (Some k)));; ret None
  | Some p =>
      let* fails := ask SCall in
      if fails then sig_abort (Some (mk_msig c None (Some p) false (Some k)));; ret None else
      retain k;;
      let* d := acquire in
      match d with
      | None => sig_abort (Some (mk_msig c None (Some p) true (Some k)));; ret None
      | Some d =>
          let* fails := ask SCall in
          if fails then sig_abort (Some (mk_msig c (Some d) (Some p) true (Some k)));; ret None
          else ret (Some (mk_msig c (Some d) (Some p) true (Some k)))
      end
  end.

(** sign_start: cipher_openssl.c 226-273. *)
Definition sign_start (k : nat) : M (option msig) :=
  let* c := acquire in
  match c with
  | None => ret None
  | Some c => retain k;; sig_fill c k
  end.

(** serialize_pubkey: cipher_openssl.c 275-325. *)
Definition serialize_pubkey (k : nat) : M (option nat) :=
  touch k;;
  let* b := acquire in
  match b with
  | None => ret None
  | Some b => let* fails := ask SCall in
              if fails then release b;; ret None else
              let* s := acquire in
              release b;; ret s
  end.

(** aws_cryptosdk_sig_sign_start_keygen for a suite with a signature: cipher_openssl.c 447-523. *)
Definition sign_start_keygen : M (option (msig * nat)) :=
  let* g := acquire in
  match g with
  | None => ret None
  | Some g =>
      let* k := acquire in
      match k with
      | None => release g;; ret None
      | Some k =>
          init_ref k;;
          let* fails := ask SCall in
          if fails then ec_key_free (Some k);; release g;; ret None else
          let* p := serialize_pubkey k in
          match p with
          | None => ec_key_free (Some k);; release g;; ret None
          | Some p =>
              let* c := sign_start k in
              match c with
              | None => release p;; ec_key_free (Some k);; release g;; ret None
              | Some c => ec_key_free (Some k);; release g;; ret (Some (c, p))
              end
          end
      end
  end.

(** aws_cryptosdk_sig_sign_start for a suite with a signature: cipher_openssl.c 540-682.  [pub]: the public key is asked for. *)
Definition sig_sign_start (pub : bool) : M (option (msig * buf)) :=
  let* bad := ask SCond in
  if bad then ret None else
  let* k := acquire in
  match k with
  | None => ret None
  | Some k =>
      init_ref k;;
      let* g := acquire in
      match g with
      | None => ec_key_free (Some k);; ret None
      | Some g =>
          let* fails := ask SCall in
          if fails then release g;; ec_key_free (Some k);; ret None else
          release g;;
          let* bad := ask SCond in
          if bad then ec_key_free (Some k);; ret None else
          let* a := acquire in                                       (* d2i_ASN1_INTEGER *)
          match a with
          | None => ec_key_free (Some k);; ret None
          | Some a =>
              taint a;;
              let* bad := ask SCond in
              if bad then scrub a;; release a;; ec_key_free (Some k);; ret None else
              let* n := acquire in                                   (* ASN1_INTEGER_to_BN *)
              scrub a;; release a;;
              match n with
              | None => ec_key_free (Some k);; ret None
              | Some n =>
                  taint n;;
                  let* fails := ask SCall in
                  scrub n;; release n;;
                  if fails then ec_key_free (Some k);; ret None else
                  let* bad := ask SCond in
                  if bad then ec_key_free (Some k);; ret None else
                  let* p := (if pub then let* p := serialize_pubkey k in
                                         match p with None => ret None | Some p => ret (Some (Some p)) end
                             else ret (Some None)) in
                  match p with
                  | None => ec_key_free (Some k);; ret None
                  | Some p =>
                      let* c := sign_start k in
                      match c with
                      | None => buf_clean_up p;; ec_key_free (Some k);; ret None
                      | Some c => ec_key_free (Some k);; ret (Some (c, p))
                      end
                  end
              end
          end
      end
  end.

(** load_pubkey: cipher_openssl.c 683-737. *)
Definition load_pubkey : M (option nat) :=
  let* bad := ask SCond in
  if bad then ret None else
  let* g := acquire in
  match g with
  | None => ret None
  | Some g =>
      let* k := acquire in
      match k with
      | None => release g;; ret None
      | Some k =>
          init_ref k;;
          let* fails := ask SCall in
          release g;;
          if fails then ec_key_free (Some k);; ret None else ret (Some k)
      end
  end.

(** aws_cryptosdk_sig_verify_start for a suite with a signature: cipher_openssl.c 739-803. *)
Definition verify_start : M (option msig) :=
  let* c := acquire in
  match c with
  | None => ret None
  | Some c =>
      let* k := load_pubkey in
      match k with
      | None => sig_abort (Some (mk_msig c None None false None));; ret None
      | Some k => sig_fill c k
      end
  end.

(** aws_cryptosdk_sig_update: cipher_openssl.c 805-823. *)
Definition sig_update (g : msig) : M bool :=
  touch (g_blk g);;
  let* fails := ask SCall in ret (negb fails).

(** aws_cryptosdk_sig_verify_finish: cipher_openssl.c 825-833. *)
Definition verify_finish (g : msig) : M bool :=
  touch (g_blk g);;
  let* bad := ask SCall in
  sig_abort (Some g);; ret (negb bad).

(** The loop of aws_cryptosdk_sig_sign_finish, cipher_openssl.c 906-973: the first [n] signatures do not have the right length.
    The result is the ECDSA_SIG still held and whether the loop ended well. *)
Fixpoint resign_loop (n : nat) : M (buf * bool) :=
  let* fails := ask SCall in
  if fails then ret (None, false) else
  match n with
  | 0 => ret (None, true)
  | S n =>
      let* g := acquire in                                           (* d2i_ECDSA_SIG; no failure is reported *)
      match g with
      | None => resign_loop n
      | Some g =>
          let* r := acquire_at SBigNum in
          let* s := acquire_at SBigNum in
          match r, s with
          | Some r, Some s =>
              let* fails := ask SCall in
              if fails then release r;; release s;; ret (Some g, false) else
              release r;; release s;;                                (* now owned by the ECDSA_SIG *)
              let* fails := ask SCall in
              if fails then ret (Some g, false) else
              release g;;
              let* fits := ask SCond in
              if fits then ret (None, true) else resign_loop n
          | _, _ => ret (Some g, false)                              (* lines 937-940 *)
          end
      end
  end.

(** aws_cryptosdk_sig_sign_finish: cipher_openssl.c 835-1000. *)
Definition sign_finish (g : msig) (n : nat) : M (option nat) :=
  touch (g_blk g);;
  let* fails := ask SCall in
  if fails then sig_abort (Some g);; ret None else
  let* c := acquire in
  match c with
  | None => sig_abort (Some g);; ret None
  | Some c =>
      let* fails := ask SCall in
      if fails then release c;; sig_abort (Some g);; ret None else
      let* t := acquire in
      match t with
      | None => release c;; sig_abort (Some g);; ret None
      | Some t =>
          let* '(e, ok) := resign_loop n in
          if ok then
            let* s := acquire in
            release c;; sig_abort (Some g);; release t;; buf_clean_up e;; ret s
          else release c;; sig_abort (Some g);; release t;; buf_clean_up e;; ret None
      end
  end.

(** ** materials.c *)

Record mmat := mk_mmat { e_blk : nat; e_sig : option msig; e_dk : buf; e_edks : alist medk; e_trace : alist mrec }.

(** aws_cryptosdk_enc_materials_new: materials.c 18-42. *)
Definition enc_materials_new : M (option mmat) :=
  let* b := acquire in
  match b with
  | None => ret None
  | Some b =>
      let* e := edk_list_init in
      match e with
      | None => release b;; ret None
      | Some e =>
          let* t := trace_init in
          match t with
          | None => edk_list_clean_up e;; release b;; ret None
          | Some t => ret (Some (mk_mmat b None None e t))
          end
      end
  end.
(** aws_cryptosdk_enc_materials_destroy: materials.c 44-54. *)
Definition enc_materials_destroy (x : option mmat) : M unit :=
  match x with
  | None => ret tt
  | Some x => sig_abort (e_sig x);; buf_clean_up_secure (e_dk x);; edk_list_clean_up (e_edks x);; trace_clean_up (e_trace x);;
              release (e_blk x)
  end.
(** Decryption materials have no EDKs; [e_edks] is the empty list without a block.
    aws_cryptosdk_dec_materials_new: materials.c 57-76. *)
Definition dec_materials_new : M (option mmat) :=
  let* b := acquire in
  match b with
  | None => ret None
  | Some b =>
      let* t := trace_init in
      match t with
      | None => release b;; ret None
      | Some t => ret (Some (mk_mmat b None None (mkl [] 0 None) t))
      end
  end.
(** aws_cryptosdk_dec_materials_destroy: materials.c 78-86. *)
Definition dec_materials_destroy (x : option mmat) : M unit :=
  match x with
  | None => ret tt
  | Some x => sig_abort (e_sig x);; buf_clean_up_secure (e_dk x);; trace_clean_up (e_trace x);; release (e_blk x)
  end.

(** ** Keyrings *)

(** A keyring: the block of its structure and what it owns.  [MKms]: a KMS keyring or ([mrk]) an MRK-aware one with [n] key ids, none
    in discovery mode; what it has in C++ containers is not modelled.  The same keyring may be reached from several places; its
    reference count is in its cell. *)
Inductive mkr :=
| MAes (b : nat) (name ns key : buf)
| MRsa (b : nat) (name ns priv pub : buf)
| MKms (b : nat) (mrk : bool) (n : nat)
| MMulti (b : nat) (gen : option mkr) (kids : list mkr) (cap : nat) (lb : buf).

Definition kr_blk (k : mkr) : nat :=
  match k with MAes b _ _ _ => b | MRsa b _ _ _ _ => b | MKms b _ _ => b | MMulti b _ _ _ _ => b end.

(** aws_cryptosdk_keyring_release (materials.h 602-607) with raw_aes_keyring_destroy (raw_aes_keyring.c 260-266),
    raw_rsa_keyring_destroy (raw_rsa_keyring.c 155-162), DestroyKeyring (kms_keyring.cpp 44-47, kms_mrk_keyring.cpp 54-57) and multi_keyring_destroy (multi_keyring.c 129-144). *)
Fixpoint kr_release (k : mkr) : M unit :=
  match k with
  | MAes b name ns key =>
      let* last := unref b in
      if last then buf_clean_up name;; buf_clean_up ns;; buf_clean_up_secure key;; release b else ret tt
  | MRsa b name ns priv pub =>
      let* last := unref b in
      if last then buf_clean_up name;; buf_clean_up ns;; buf_clean_up_secure priv;; buf_clean_up_secure pub;; release b
      else ret tt
  | MKms b _ _ => let* last := unref b in if last then release b else ret tt
  | MMulti b gen kids _ lb =>
      let* last := unref b in
      if last then
        (fix go (l : list mkr) : M unit := match l with [] => ret tt | x :: r => kr_release x;; go r end) kids;;
        match gen with None => ret tt | Some g => kr_release g end;;
        buf_clean_up lb;; release b
      else ret tt
  end.

(** aws_cryptosdk_raw_aes_keyring_new: raw_aes_keyring.c 274-309. *)
Definition raw_aes_keyring_new : M (option mkr) :=
  let* reserved := ask SCond in
  if reserved then ret None else
  let* b := acquire in
  match b with
  | None => ret None
  | Some b =>
      init_ref b;;
      let* name := buf_init in
      match name with
      | None => release b;; ret None
      | Some name =>
          let* ns := buf_init in
          match ns with
          | None => buf_clean_up name;; release b;; ret None
          | Some ns =>
              let* key := acquire in
              match key with
              | None => buf_clean_up name;; buf_clean_up ns;; release b;; ret None
              | Some key => taint key;; ret (Some (MAes b name ns (Some key)))
              end
          end
      end
  end.

(** aws_cryptosdk_raw_rsa_keyring_new: raw_rsa_keyring.c 170-220; [priv], [pub]: is the key given. *)
Definition raw_rsa_keyring_new (priv pub : bool) : M (option mkr) :=
  let* reserved := ask SCond in
  if reserved then ret None else
  let* b := acquire in
  match b with
  | None => ret None
  | Some b =>
      let* name := buf_init in
      match name with
      | None => release b;; ret None
      | Some name =>
          let* ns := buf_init in
          match ns with
          | None => buf_clean_up name;; release b;; ret None
          | Some ns =>
              if negb priv && negb pub then buf_clean_up name;; buf_clean_up ns;; release b;; ret None else
              let* u := (if pub then let* p := acquire in match p with None => ret None | Some p => ret (Some (Some p)) end
                         else ret (Some None)) in
              match u with
              | None => buf_clean_up name;; buf_clean_up ns;; release b;; ret None
              | Some u =>
                  if priv then
                    let* p := acquire_at SPem in
                    match p with
                    | None => buf_clean_up name;; buf_clean_up ns;; release b;; ret None
                    | Some p => taint p;; init_ref b;; ret (Some (MRsa b name ns (Some p) u))
                    end
                  else init_ref b;; ret (Some (MRsa b name ns None u))
              end
          end
      end
  end.

(** The builders of the KMS keyrings: kms_keyring.cpp 392-446, kms_mrk_keyring.cpp 629-699.  Allocations of C++ do not fail. *)
Definition kms_keyring_new (mrk : bool) (n : nat) : M (option mkr) :=
  let* refused := ask SCond in
  if refused then ret None else
  let* b := must_acquire in
  init_ref b;; ret (Some (MKms b mrk n)).

(** aws_cryptosdk_multi_keyring_new: multi_keyring.c 152-170. *)
Definition multi_keyring_new (gen : option mkr) : M (option mkr) :=
  let* b := acquire in
  match b with
  | None => ret None
  | Some b =>
      let* l := list_init (A := mkr) 4 in
      match l with
      | None => release b;; ret None
      | Some l => init_ref b;;
                  match gen with None => ret tt | Some g => retain (kr_blk g) end;;
                  ret (Some (MMulti b gen [] (l_cap l) (l_blk l)))
      end
  end.

(** aws_cryptosdk_multi_keyring_add_child: multi_keyring.c 181-189. *)
Definition multi_keyring_add_child (k child : mkr) : M (mkr * bool) :=
  match k with
  | MMulti b gen kids cap lb =>
      touch b;;
      retain (kr_blk child);;
      let* l := list_push SChild (mkl kids cap lb) child in
      match l with
      | None => ret (k, false)
      | Some l => ret (MMulti b gen (l_items l) (l_cap l) (l_blk l), true)
      end
  | _ => ret (k, false)
  end.

(** serialize_aad_init: raw_aes_keyring.c 29-43. *)
Definition serialize_aad_init : M (option buf) :=
  let* bad := ask SCond in
  if bad then ret None else
  let* a := buf_init in
  match a with
  | None => ret None
  | Some a => let* '(a, ok) := ctx_serialize a in
              if ok then ret (Some a) else buf_clean_up a;; ret None
  end.

(** aws_cryptosdk_aes_gcm_encrypt: cipher.c 855-889. *)
Definition aes_gcm_encrypt : M bool :=
  let* bad := ask SCond in
  if bad then ret false else
  let* c := acquire in
  match c with
  | None => ret false
  | Some c => let* fails := ask SCall in release c;; ret (negb fails)
  end.

(** aws_cryptosdk_raw_aes_keyring_encrypt_data_key_with_iv: raw_aes_keyring.c 90-142. *)
Definition aes_encrypt_data_key (edks : alist medk) : M (option (alist medk)) :=
  let* aad := serialize_aad_init in
  match aad with
  | None => ret None
  | Some aad =>
      let* ct := acquire in
      match ct with
      | None => buf_clean_up aad;; ret None
      | Some ct =>
          let* ok := aes_gcm_encrypt in
          if negb ok then edk_clean_up (mk_medk None None (Some ct));; buf_clean_up aad;; ret None else
          let* info := acquire in
          match info with
          | None => edk_clean_up (mk_medk None None (Some ct));; buf_clean_up aad;; ret None
          | Some info =>
              let* id := buf_init in
              match id with
              | None => edk_clean_up (mk_medk None (Some info) (Some ct));; buf_clean_up aad;; ret None
              | Some id =>
                  let e := mk_medk id (Some info) (Some ct) in
                  let* l := list_push SGrow edks e in
                  match l with
                  | None => edk_clean_up e;; buf_clean_up aad;; ret None
                  | Some l => buf_clean_up aad;; ret (Some l)
                  end
              end
          end
      end
  end.

(** aws_cryptosdk_rsa_encrypt: cipher.c 959-1008. *)
Definition rsa_encrypt : M (option nat) :=
  let* bad := ask SCond in
  if bad then ret None else
  let* pkey := acquire in
  match pkey with
  | None => ret None
  | Some pkey =>
      let* bio := acquire in
      match bio with
      | None => release pkey;; ret None
      | Some bio =>
          let* fails := ask SCall in
          if fails then release pkey;; release bio;; ret None else
          let* c := acquire in
          match c with
          | None => release pkey;; release bio;; ret None
          | Some c =>
              let* fails := ask SCall in
              if fails then release c;; release pkey;; release bio;; ret None else
              let* o := acquire in
              match o with
              | None => release c;; release pkey;; release bio;; ret None
              | Some o => let* fails := ask SCall in
                          release c;; release pkey;; release bio;;
                          if fails then buf_clean_up_secure (Some o);; ret None else ret (Some o)
              end
          end
      end
  end.

(** encrypt_data_key: raw_rsa_keyring.c 33-65. *)
Definition rsa_encrypt_data_key (edks : alist medk) : M (option (alist medk)) :=
  let* ct := rsa_encrypt in
  match ct with
  | None => ret None
  | Some ct =>
      let* id := buf_init in
      match id with
      | None => edk_clean_up (mk_medk None None (Some ct));; ret None
      | Some id =>
          let* info := buf_init in
          match info with
          | None => edk_clean_up (mk_medk id None (Some ct));; ret None
          | Some info =>
              let e := mk_medk id info (Some ct) in
              let* l := list_push SGrow edks e in
              match l with
              | None => edk_clean_up e;; ret None
              | Some l => ret (Some l)
              end
          end
      end
  end.

(** raw_aes_keyring_on_encrypt (raw_aes_keyring.c 144-183; [iv] is true) and raw_rsa_keyring_on_encrypt (raw_rsa_keyring.c
    67-103); [wrap] makes the EDK and [p] is the place where the generated key is dropped.  The result: success, the data key,
    the trace and the EDKs. *)
Definition raw_on_encrypt (iv : bool) (p : place) (wrap : alist medk -> M (option (alist medk)))
           (dk : buf) (tr : alist mrec) (edks : alist medk) : M (bool * buf * alist mrec * alist medk) :=
  let* fails := (if iv then ask SCall else ret false) in
  if fails then ret (false, dk, tr, edks) else
  match dk with
  | Some _ =>
      let* l := wrap edks in
      match l with
      | None => ret (false, dk, tr, edks)
      | Some l => let* tr := trace_add tr in ret (true, dk, tr, l)
      end
  | None =>
      let* b := acquire in
      match b with
      | None => ret (false, None, tr, edks)
      | Some b =>
          let* fails := ask SCall in
          if fails then release b;; ret (false, None, tr, edks) else
          taint b;;
          let* l := wrap edks in
          match l with
          | None => release_at p b;; ret (false, None, tr, edks)
          | Some l => let* tr := trace_add tr in ret (true, Some b, tr, l)
          end
      end
  end.

(** aws_cryptosdk_keyring_on_encrypt: materials.c 88-136, around [impl]. *)
Definition checked_on_encrypt (b : nat) (impl : M (bool * buf * alist mrec * alist medk))
           (dk : buf) (tr : alist mrec) (edks : alist medk) : M (bool * buf * alist mrec * alist medk) :=
  touch b;;
  match dk, l_items edks with
  | None, _ :: _ => ret (false, dk, tr, edks)
  | _, _ =>
      let* '(ok, dk', tr, edks) := impl in
      match dk, dk' with
      | None, Some _ => let* bad := ask SCond in ret (ok && negb bad, dk', tr, edks)
      | _, _ => ret (ok, dk', tr, edks)
      end
  end.

(** ListRaii::Create (cpputils.cpp 374-378), with the destructor (370-372).  The constructor (cpputils.h 76-78) does not set
    [initialized]; if the list cannot be made, the destructor reads an indeterminate value. *)
Definition raii_create {A} (cap : nat) : M (alist A) :=
  let* b := acquire_at SRaii in
  match b with None => fun _ => None | Some b => ret (mkl [] cap (Some b)) end.
(** append_key_dup_to_edks, append_aws_byte_buf_key_dup_to_edks: cpputils.cpp 66-103; the three buffers are made as in
    [edk_init_clone]. *)
Definition kms_append (edks : alist medk) : M (option (alist medk)) :=
  let* e := edk_init_clone (mk_medk None None None) in
  match e with
  | None => ret None
  | Some e => let* l := list_push SGrow edks e in
              match l with None => edk_clean_up e;; ret None | Some l => ret (Some l) end
  end.
(** The data key is wrapped with [n] keys: kms_keyring.cpp 239-287, kms_mrk_keyring.cpp 500-592.  [SCall]: there is no client, KMS
    refuses, or the answer is malformed. *)
Fixpoint kms_wrap_loop (t : alist mrec) (e : alist medk) (n : nat) : M (bool * alist mrec * alist medk) :=
  match n with
  | 0 => ret (true, t, e)
  | S n => let* fails := ask SCall in
           if fails then ret (false, t, e) else
           let* l := kms_append e in
           match l with
           | None => ret (false, t, e)
           | Some e => let* t := trace_add t in kms_wrap_loop t e n
           end
  end.
(** KMS makes the data key: kms_keyring.cpp 188-233, kms_mrk_keyring.cpp 417-498. *)
Definition kms_generate (t : alist mrec) (e : alist medk) : M (bool * buf * alist mrec * alist medk) :=
  let* fails := ask SCall in
  if fails then ret (false, None, t, e) else
  let* l := kms_append e in
  match l with
  | None => ret (false, None, t, e)
  | Some e => let* b := buf_init in
              match b with
              | None => ret (false, None, t, e)
              | Some b => match b with Some b => taint b | None => ret tt end;;
                          let* t := trace_add t in ret (true, b, t, e)
              end
  end.
(** The end of OnEncrypt, with the destructors: kms_keyring.cpp 289-301, kms_mrk_keyring.cpp 599-609.  [new]: [key] was made here. *)
Definition kms_deliver (ok new : bool) (key : buf) (t : alist mrec) (e : alist medk) (tr : alist mrec) (edks : alist medk)
  : M (bool * buf * alist mrec * alist medk) :=
  let fail tr edks t e :=
    match new, key with true, Some b => release_at PKmsKey b | _, _ => ret tt end;;
    trace_clean_up t;; edk_list_clean_up e;; ret (false, if new then None else key, tr, edks) in
  if ok then
    let* '(edks, e, ok) := transfer_list edks e in
    if ok then
      let* '(tr, t, _) := transfer_list tr t in
      trace_clean_up t;; edk_list_clean_up e;; ret (true, key, tr, edks)
    else fail tr edks t e
  else fail tr edks t e.
(** OnEncrypt: kms_keyring.cpp 161-301, kms_mrk_keyring.cpp 386-609; [n] key ids. *)
Definition kms_on_encrypt (mrk : bool) (n : nat) (dk : buf) (tr : alist mrec) (edks : alist medk)
  : M (bool * buf * alist mrec * alist medk) :=
  match n with
  | 0 => ret (negb mrk, dk, tr, edks)
  | S others =>
      let* e := raii_create 4 in
      let* t := raii_create 10 in
      match dk with
      | None => let* '(ok, key, t, e) := kms_generate t e in
                if ok then let* '(ok, t, e) := kms_wrap_loop t e others in kms_deliver ok true key t e tr edks
                else kms_deliver false false None t e tr edks
      | Some _ => let* '(ok, t, e) := kms_wrap_loop t e n in kms_deliver ok false dk t e tr edks
      end
  end.

(** The keyrings' on_encrypt; the multi-keyring: multi_keyring.c 20-90. *)
Fixpoint kr_on_encrypt (k : mkr) (dk : buf) (tr : alist mrec) (edks : alist medk)
  : M (bool * buf * alist mrec * alist medk) :=
  checked_on_encrypt (kr_blk k)
    match k with
    | MAes _ _ _ _ => raw_on_encrypt true PAesKey aes_encrypt_data_key dk tr edks
    | MRsa _ _ _ _ pub =>
        match pub with
        | None => ret (false, dk, tr, edks)
        | Some _ => raw_on_encrypt false PRsaKey rsa_encrypt_data_key dk tr edks
        end
    | MKms _ mrk n => kms_on_encrypt mrk n dk tr edks
    | MMulti _ gen kids _ _ =>
        let* e := edk_list_init in
        match e with
        | None => ret (false, dk, tr, edks)
        | Some e =>
            let* t := trace_init in
            match t with
            | None => edk_list_clean_up e;; ret (false, dk, tr, edks)
            | Some t =>
                let* '(ok, dk, t, e) :=
                  match gen with None => ret (true, dk, t, e) | Some g => kr_on_encrypt g dk t e end in
                match ok, dk with
                | true, Some _ =>
                    let* '(ok, dk, t, e) :=
                      (fix go (l : list mkr) (dk : buf) (t : alist mrec) (e : alist medk)
                         : M (bool * buf * alist mrec * alist medk) :=
                         match l with
                         | [] => ret (true, dk, t, e)
                         | x :: r => let* '(ok, dk, t, e) := kr_on_encrypt x dk t e in
                                     if ok then go r dk t e else ret (false, dk, t, e)
                         end) kids dk t e in
                    if ok then
                      let* '(edks, e, ok) := transfer_list edks e in
                      if ok then
                        let* '(tr, t, _) := transfer_list tr t in
                        edk_list_clean_up e;; trace_clean_up t;; ret (true, dk, tr, edks)
                      else edk_list_clean_up e;; trace_clean_up t;; ret (false, dk, tr, edks)
                    else edk_list_clean_up e;; trace_clean_up t;; ret (false, dk, tr, edks)
                | _, _ => edk_list_clean_up e;; trace_clean_up t;; ret (false, dk, tr, edks)
                end
            end
        end
    end dk tr edks.

(** aws_cryptosdk_aes_gcm_decrypt into the buffer [b]: cipher.c 891-948. *)
Definition aes_gcm_decrypt (b : nat) : M bool :=
  let* bad := ask SCond in
  if bad then ret false else
  let* c := acquire in
  match c with
  | None => scrub b;; ret false
  | Some c => taint b;;
              let* fails := ask SCall in
              release c;;
              if fails then scrub b;; ret false else ret true
  end.

(** The loop of raw_aes_keyring_on_decrypt: raw_aes_keyring.c 210-251; [n] EDKs are left. *)
Fixpoint aes_decrypt_loop (b : nat) (tr : alist mrec) (n : nat) : M (bool * alist mrec) :=
  match n with
  | 0 => ret (false, tr)
  | S n => let* skip := ask SCond in
           if skip then aes_decrypt_loop b tr n else
           let* ok := aes_gcm_decrypt b in
           if ok then let* tr := trace_add tr in ret (true, tr) else aes_decrypt_loop b tr n
  end.
(** raw_aes_keyring_on_decrypt: raw_aes_keyring.c 185-258. *)
Definition aes_on_decrypt (tr : alist mrec) (n : nat) : M (bool * buf * alist mrec) :=
  let* aad := serialize_aad_init in
  match aad with
  | None => ret (false, None, tr)
  | Some aad =>
      let* b := acquire in
      match b with
      | None => buf_clean_up aad;; ret (false, None, tr)
      | Some b =>
          let* '(found, tr) := aes_decrypt_loop b tr n in
          if found then buf_clean_up aad;; ret (true, Some b, tr)
          else release b;; buf_clean_up aad;; ret (true, None, tr)
      end
  end.

(** aws_cryptosdk_rsa_decrypt: cipher.c 1010-1061. *)
Definition rsa_decrypt : M (option nat) :=
  let* bad := ask SCond in
  if bad then ret None else
  let* pkey := acquire in
  match pkey with
  | None => ret None
  | Some pkey =>
      let* bio := acquire in
      match bio with
      | None => release pkey;; ret None
      | Some bio =>
          let* fails := ask SCall in
          if fails then release pkey;; release bio;; ret None else
          let* c := acquire in
          match c with
          | None => release pkey;; release bio;; ret None
          | Some c =>
              let* fails := ask SCall in
              if fails then release c;; release pkey;; release bio;; ret None else
              let* o := acquire in
              match o with
              | None => release c;; release pkey;; release bio;; ret None
              | Some o => taint o;;
                          let* fails := ask SCall in
                          release c;; release pkey;; release bio;;
                          if fails then buf_clean_up_secure (Some o);; ret None else ret (Some o)
              end
          end
      end
  end.

(** raw_rsa_keyring_on_decrypt: raw_rsa_keyring.c 105-153. *)
Fixpoint rsa_decrypt_loop (tr : alist mrec) (n : nat) : M (buf * alist mrec) :=
  match n with
  | 0 => ret (None, tr)
  | S n => let* skip := ask SCond in
           if skip then rsa_decrypt_loop tr n else
           let* o := rsa_decrypt in
           match o with
           | Some o => let* tr := trace_add tr in ret (Some o, tr)
           | None => rsa_decrypt_loop tr n
           end
  end.

(** OnDecrypt: kms_keyring.cpp 49-159, kms_mrk_keyring.cpp 64-384.  [SCall]: KMS refuses or answers wrongly, which may count as a
    failure; the KMS keyring then stops, the MRK-aware one goes on. *)
Fixpoint kms_decrypt_loop (mrk failed : bool) (tr : alist mrec) (n : nat) : M (bool * buf * alist mrec) :=
  match n with
  | 0 => ret (negb failed, None, tr)
  | S n => let* skip := ask SCond in
           if skip then kms_decrypt_loop mrk failed tr n else
           let* bad := ask SCall in
           if bad then
             let* counts := ask SCond in
             if mrk then kms_decrypt_loop mrk (failed || counts) tr n
             else if counts then ret (false, None, tr) else kms_decrypt_loop mrk failed tr n
           else
             let* b := buf_init in
             match b with
             | None => ret (false, None, tr)
             | Some b => match b with Some b => taint b | None => ret tt end;;
                         let* tr := trace_add tr in ret (true, b, tr)
             end
  end.

(** aws_cryptosdk_keyring_on_decrypt: materials.c 138-168, around [impl]. *)
Definition checked_on_decrypt (b : nat) (impl : M (bool * buf * alist mrec)) (dk : buf) (tr : alist mrec)
  : M (bool * buf * alist mrec) :=
  touch b;;
  match dk with
  | Some _ => ret (false, dk, tr)
  | None => let* '(ok, dk, tr) := impl in
            match dk with
            | Some _ => let* bad := ask SCond in ret (ok && negb bad, dk, tr)
            | None => ret (ok, dk, tr)
            end
  end.

(** The keyrings' on_decrypt on [n] EDKs; the multi-keyring: multi_keyring.c 92-127. *)
Fixpoint kr_on_decrypt (k : mkr) (dk : buf) (tr : alist mrec) (n : nat) : M (bool * buf * alist mrec) :=
  checked_on_decrypt (kr_blk k)
    match k with
    | MAes _ _ _ _ => aes_on_decrypt tr n
    | MRsa _ _ _ priv _ =>
        match priv with
        | None => ret (false, None, tr)
        | Some _ => let* '(o, tr) := rsa_decrypt_loop tr n in ret (true, o, tr)
        end
    | MKms _ mrk _ => kms_decrypt_loop mrk false tr n
    | MMulti _ gen kids _ _ =>
        let* '(ok, dk, tr) :=
          match gen with None => ret (true, None, tr) | Some g => kr_on_decrypt g None tr n end in
        match dk with
        | Some _ => ret (true, dk, tr)
        | None =>
            (fix go (l : list mkr) (acc : bool) (tr : alist mrec) : M (bool * buf * alist mrec) :=
               match l with
               | [] => ret (acc, None, tr)
               | x :: r => let* '(ok, dk, tr) := kr_on_decrypt x None tr n in
                           match dk with
                           | Some _ => ret (true, dk, tr)
                           | None => go r (acc && ok) tr
                           end
               end) kids ok tr
        end
    end dk tr.

(** ** default_cmm.c *)

Record mcmm := mk_mcmm { d_blk : nat; d_kr : mkr }.

(** aws_cryptosdk_default_cmm_new: default_cmm.c 165-178. *)
Definition default_cmm_new (k : mkr) : M (option mcmm) :=
  let* b := acquire in
  match b with
  | None => ret None
  | Some b => init_ref b;; retain (kr_blk k);; ret (Some (mk_mcmm b k))
  end.
(** aws_cryptosdk_cmm_release (materials.h 449-454) with default_cmm_destroy (default_cmm.c 152-156). *)
Definition cmm_release (c : mcmm) : M unit :=
  let* last := unref (d_blk c) in
  if last then kr_release (d_kr c);; release (d_blk c) else ret tt.

(** default_cmm_generate_enc_materials: default_cmm.c 35-98.  The public key becomes a value of the encryption context. *)
Definition generate_enc_materials (c : mcmm) (x : mctx) : M (mctx * option mmat) :=
  touch (d_blk c);;
  let* bad := ask SCond in
  if bad then ret (x, None) else
  let* e := enc_materials_new in
  match e with
  | None => ret (x, None)
  | Some e =>
      let* signed := ask SCond in
      let* '(x, sg, ok) :=
        (if signed then
           let* s := sign_start_keygen in
           match s with
           | None => ret (x, None, false)
           | Some (g, p) => let* x' := ctx_put x None (Some p) in
                            match x' with
                            | None => buf_clean_up (Some p);; ret (x, Some g, false)
                            | Some x' => ret (x', Some g, true)
                            end
           end
         else ret (x, None, true)) in
      let e := mk_mmat (e_blk e) sg (e_dk e) (e_edks e) (e_trace e) in
      if ok then
        let* '(ok, dk, tr, ek) := kr_on_encrypt (d_kr c) (e_dk e) (e_trace e) (e_edks e) in
        let e := mk_mmat (e_blk e) (e_sig e) dk ek tr in
        if ok then ret (x, Some e) else enc_materials_destroy (Some e);; ret (x, None)
      else enc_materials_destroy (Some e);; ret (x, None)
  end.

(** default_cmm_decrypt_materials: default_cmm.c 100-150, on [n] EDKs. *)
Definition decrypt_materials (c : mcmm) (n : nat) : M (option mmat) :=
  touch (d_blk c);;
  let* e := dec_materials_new in
  match e with
  | None => ret None
  | Some e =>
      let* '(ok, dk, tr) := kr_on_decrypt (d_kr c) (e_dk e) (e_trace e) n in
      let e := mk_mmat (e_blk e) None dk (e_edks e) tr in
      match ok, dk with
      | true, Some _ =>
          let* signed := ask SCond in
          if signed then
            let* bad := ask SCond in
            if bad then dec_materials_destroy (Some e);; ret None else
            let* g := verify_start in
            match g with
            | None => dec_materials_destroy (Some e);; ret None
            | Some g => ret (Some (mk_mmat (e_blk e) (Some g) dk (e_edks e) tr))
            end
          else
            let* bad := ask SCond in
            if bad then dec_materials_destroy (Some e);; ret None else ret (Some e)
      | _, _ => dec_materials_destroy (Some e);; ret None
      end
  end.

(** ** header.c *)

Record mhdr := mk_mhdr { h_iv : buf; h_tag : buf; h_mid : buf; h_suite : buf; h_edks : alist medk; h_ctx : mctx }.

(** aws_cryptosdk_hdr_init: header.c 111-126. *)
Definition hdr_init : M (option mhdr) :=
  let* x := ctx_init in
  match x with
  | None => ret None
  | Some x => let* e := edk_list_init in
              match e with
              | None => ctx_clean_up x;; ret None
              | Some e => ret (Some (mk_mhdr None None None None e x))
              end
  end.
(** aws_cryptosdk_hdr_clear: header.c 128-142. *)
Definition hdr_clear (h : mhdr) : M mhdr :=
  buf_clean_up (h_iv h);; buf_clean_up (h_tag h);; buf_clean_up (h_mid h);; buf_clean_up (h_suite h);;
  let* e := edk_list_clear (h_edks h) in
  let* x := ctx_clear (h_ctx h) in
  ret (mk_mhdr None None None None e x).
(** aws_cryptosdk_hdr_clean_up: header.c 144-158. *)
Definition hdr_clean_up (h : mhdr) : M unit :=
  buf_clean_up (h_iv h);; buf_clean_up (h_tag h);; buf_clean_up (h_mid h);; buf_clean_up (h_suite h);;
  edk_list_clean_up (h_edks h);; ctx_clean_up (h_ctx h).

(** parse_edk: header.c 160-187. *)
Definition parse_edk : M (option medk) :=
  let* short := ask SCond in
  if short then edk_clean_up (mk_medk None None None);; ret None else
  let* a := buf_init in
  match a with
  | None => edk_clean_up (mk_medk None None None);; ret None
  | Some a =>
      let* short := ask SCond in
      if short then edk_clean_up (mk_medk a None None);; ret None else
      let* b := buf_init in
      match b with
      | None => edk_clean_up (mk_medk a None None);; ret None
      | Some b =>
          let* short := ask SCond in
          if short then edk_clean_up (mk_medk a b None);; ret None else
          let* c := buf_init in
          match c with
          | None => edk_clean_up (mk_medk a b None);; ret None
          | Some c => let* short := ask SCond in
                      if short then edk_clean_up (mk_medk a b c);; ret None else ret (Some (mk_medk a b c))
          end
      end
  end.

(** The loop of aws_cryptosdk_priv_hdr_parse_edks: header.c 313-317; the result of the push is ignored. *)
Fixpoint parse_edks_loop (l : alist medk) (n : nat) : M (alist medk * bool) :=
  match n with
  | 0 => ret (l, true)
  | S n => let* e := parse_edk in
           match e with
           | None => ret (l, false)
           | Some e => let* l' := list_push SParse l e in
                       parse_edks_loop (match l' with Some l' => l' | None => l end) n
           end
  end.

(** A field that is a buffer of its own, filled from the input; [None] is an error. *)
Definition parse_field : M (buf * bool) :=
  let* b := buf_init in
  match b with
  | None => ret (None, false)
  | Some b => let* short := ask SCond in ret (b, negb short)
  end.

(** aws_cryptosdk_hdr_parse: header.c 189-228, with the functions of 230-415: every error clears the header.  [n] EDKs, [m]
    elements of the encryption context; [v1] is the version of the format. *)
Definition hdr_parse (h : mhdr) (v1 : bool) (n m : nat) : M (mhdr * bool) :=
  let* h := hdr_clear h in
  let fail h := let* h := hdr_clear h in ret (h, false) in
  let* bad := ask SCond in
  if bad then fail h else
  let* '(mid, ok) := parse_field in
  let h := mk_mhdr None None mid None (h_edks h) (h_ctx h) in
  if negb ok then fail h else
  let* bad := ask SCond in
  if bad then fail h else
  let* none := ask SCond in
  let* '(x, ok) := (if none then ret (h_ctx h, true) else ctx_deserialize (h_ctx h) m) in
  let h := mk_mhdr None None mid None (h_edks h) x in
  if negb ok then fail h else
  let* bad := ask SCond in
  if bad then fail h else
  let* '(e, ok) := parse_edks_loop (h_edks h) n in
  let h := mk_mhdr None None mid None e x in
  if negb ok then fail h else
  let* bad := ask SCond in
  if bad then fail h else
  let* '(suite, ok) := (if v1 then ret (None, true) else parse_field) in
  let h := mk_mhdr None None mid suite e x in
  if negb ok then fail h else
  let* '(iv, ok) := (if v1 then parse_field else ret (None, true)) in
  let h := mk_mhdr iv None mid suite e x in
  if negb ok then fail h else
  let* '(tag, ok) := parse_field in
  let h := mk_mhdr iv tag mid suite e x in
  if negb ok then fail h else
  ret (h, true).

(** ** session.c, session_encrypt.c, session_decrypt.c *)

Inductive mstage := GConfig | GGenKey | GWriteHeader | GEncryptBody | GWriteTrailer | GReadHeader | GDecryptBody | GCheckTrailer
                  | GDone | GError.

(** [s_keyed]: the content key in the structure may have been set (an observation: it says whether the block holds a key). *)
Record msess := mk_msess { s_blk : nat; s_cmm : option mcmm; s_hdr : mhdr; s_trace : alist mrec; s_sig : option msig;
                           s_copy : buf; s_stage : mstage; s_enc : bool; s_keyed : bool }.

Definition set_stage (s : msess) (g : mstage) : msess :=
  mk_msess (s_blk s) (s_cmm s) (s_hdr s) (s_trace s) (s_sig s) (s_copy s) g (s_enc s) (s_keyed s).

(** aws_cryptosdk_session_reset: session.c 29-69. *)
Definition session_reset (s : msess) (enc : bool) : M (msess * bool) :=
  touch (s_blk s);;
  match s_copy s with None => ret tt | Some b => scrub b;; release b end;;
  let* h := hdr_clear (s_hdr s) in
  let* t := trace_clear (s_trace s) in
  scrub (s_blk s);;
  sig_abort (s_sig s);;
  let* bad := ask SCond in
  ret (mk_msess (s_blk s) (s_cmm s) h t None None (if bad then GError else GConfig) enc false, negb bad).

(** aws_cryptosdk_session_new: session.c 71-104. *)
Definition session_new (enc : bool) : M (option msess) :=
  let* b := acquire in
  match b with
  | None => ret None
  | Some b =>
      let* h := hdr_init in
      match h with
      | None => release b;; ret None
      | Some h =>
          let* t := trace_init in
          match t with
          | None => hdr_clean_up h;; release b;; ret None
          | Some t =>
              let* '(s, ok) := session_reset (mk_msess b None h t None None GConfig enc false) enc in
              if ok then ret (Some s)
              else hdr_clean_up (s_hdr s);; trace_clean_up (s_trace s);; release b;; ret None
          end
      end
  end.

Definition set_cmm (s : msess) (c : mcmm) : msess :=
  mk_msess (s_blk s) (Some c) (s_hdr s) (s_trace s) (s_sig s) (s_copy s) (s_stage s) (s_enc s) (s_keyed s).

(** aws_cryptosdk_session_new_from_cmm_2: session.c 106-117. *)
Definition session_new_from_cmm (enc : bool) (c : mcmm) : M (option msess) :=
  let* s := session_new enc in
  match s with
  | None => ret None
  | Some s => retain (d_blk c);; ret (Some (set_cmm s c))
  end.
(** aws_cryptosdk_session_new_from_keyring_2: session.c 119-137. *)
Definition session_new_from_keyring (enc : bool) (k : mkr) : M (option msess) :=
  let* c := default_cmm_new k in
  match c with
  | None => ret None
  | Some c => let* s := session_new enc in
              match s with
              | None => cmm_release c;; ret None
              | Some s => ret (Some (set_cmm s c))
              end
  end.
(** aws_cryptosdk_session_destroy: session.c 139-151. *)
Definition session_destroy (s : msess) : M unit :=
  let* '(s, _) := session_reset s false in
  hdr_clean_up (s_hdr s);; trace_clean_up (s_trace s);;
  match s_cmm s with None => ret tt | Some c => cmm_release c end;;
  scrub (s_blk s);; release (s_blk s).

(** build_header: session_encrypt.c 152-181. *)
Definition build_header (h : mhdr) (e : mmat) : M (mhdr * mmat * bool) :=
  let* bad := ask SCond in
  if bad then ret (h, e, false) else
  let e' := mk_mmat (e_blk e) (e_sig e) (e_dk e) (h_edks h) (e_trace e) in
  let* iv := buf_init in
  match iv with
  | None => ret (mk_mhdr None (h_tag h) (h_mid h) (h_suite h) (e_edks e) (h_ctx h), e', false)
  | Some iv =>
      let* tag := buf_init in
      match tag with
      | None => ret (mk_mhdr iv None (h_mid h) (h_suite h) (e_edks e) (h_ctx h), e', false)
      | Some tag => ret (mk_mhdr iv tag (h_mid h) (h_suite h) (e_edks e) (h_ctx h), e', true)
      end
  end.

(** sign_header: session_encrypt.c 183-269.  The result: the copy of the header and success. *)
Definition sign_header (g : option msig) : M (buf * bool) :=
  let* bad := ask SCond in
  if bad then ret (None, false) else
  let* c := acquire in
  match c with
  | None => ret (None, false)
  | Some c =>
      let* a := ctx_serialize None in                                (* aws_cryptosdk_hdr_write writes to the copy *)
      if negb (snd a) then ret (Some c, false) else
      let* fails := ask SCall in
      if fails then ret (Some c, false) else
      let* a := ctx_serialize None in
      if negb (snd a) then ret (Some c, false) else
      match g with
      | None => ret (Some c, true)
      | Some g => let* ok := sig_update g in ret (Some c, ok)
      end
  end.

(** aws_cryptosdk_priv_try_gen_key: session_encrypt.c 50-150.  The fields of the session are assigned where the C code assigns
    them; the local variable data_key is a block of its own. *)
Definition try_gen_key (s : msess) (c : mcmm) : M (msess * bool) :=
  let* d := must_acquire in
  let finish s e ok :=
    match e with
    | None => ret tt
    | Some e => match e_dk e with None => ret tt | Some b => scrub b end;; enc_materials_destroy (Some e)
    end;;
    scrub d;; release_at PLocalKey d;; ret (s, ok) in
  let* '(x, e) := generate_enc_materials c (h_ctx (s_hdr s)) in
  let h := mk_mhdr (h_iv (s_hdr s)) (h_tag (s_hdr s)) (h_mid (s_hdr s)) (h_suite (s_hdr s)) (h_edks (s_hdr s)) x in
  let s := mk_msess (s_blk s) (s_cmm s) h (s_trace s) (s_sig s) (s_copy s) (s_stage s) (s_enc s) (s_keyed s) in
  match e with
  | None => finish s None false
  | Some e =>
      let* bad := ask SCond in
      if bad then finish s (Some e) false else
      let s := mk_msess (s_blk s) (s_cmm s) h (s_trace s) (e_sig e) (s_copy s) (s_stage s) (s_enc s) (s_keyed s) in
      let e := mk_mmat (e_blk e) None (e_dk e) (e_edks e) (e_trace e) in
      taint d;;
      let* '(st, et, _) := transfer_list (s_trace s) (e_trace e) in
      let s := mk_msess (s_blk s) (s_cmm s) h st (s_sig s) (s_copy s) (s_stage s) (s_enc s) (s_keyed s) in
      let e := mk_mmat (e_blk e) None (e_dk e) (e_edks e) et in
      let* mid := buf_init in
      match mid with
      | None => finish s (Some e) false
      | Some mid =>
          let h := mk_mhdr (h_iv h) (h_tag h) mid (h_suite h) (h_edks h) (h_ctx h) in
          let s := mk_msess (s_blk s) (s_cmm s) h st (s_sig s) (s_copy s) (s_stage s) (s_enc s) (s_keyed s) in
          let* fails := ask SCall in
          if fails then finish s (Some e) false else
          taint (s_blk s);;                                          (* aws_cryptosdk_private_derive_key *)
          let s := mk_msess (s_blk s) (s_cmm s) h st (s_sig s) (s_copy s) (s_stage s) (s_enc s) true in
          let* fails := ask SCall in
          if fails then finish s (Some e) false else
          let* '(h, e, ok) := build_header h e in
          let s := mk_msess (s_blk s) (s_cmm s) h st (s_sig s) (s_copy s) (s_stage s) (s_enc s) true in
          if negb ok then finish s (Some e) false else
          let* '(copy, ok) := sign_header (s_sig s) in
          let s := mk_msess (s_blk s) (s_cmm s) h st (s_sig s) copy (if ok then GWriteHeader else s_stage s) (s_enc s) true in
          finish s (Some e) ok
      end
  end.

(** fill_request: session_decrypt.c 33-65.  The request refers to the EDKs of the header and owns only its list. *)
Fixpoint fill_loop (l : alist unit) (n : nat) : M (option (alist unit)) :=
  match n with
  | 0 => ret (Some l)
  | S n => let* l' := list_push SGrow l tt in
           match l' with
           | None => list_free l;; ret None
           | Some l' => fill_loop l' n
           end
  end.
Definition fill_request (n : nat) : M (option (alist unit)) :=
  let* l := list_init 4 in
  match l with None => ret None | Some l => fill_loop l n end.

(** derive_data_key: session_decrypt.c 67-100.  The result: is the content key set, and success. *)
Definition derive_data_key (s : msess) : M (bool * bool) :=
  let* bad := ask SCond in
  if bad then ret (s_keyed s, false) else
  let* d := must_acquire in
  taint d;;
  taint (s_blk s);;
  let* fails := ask SCall in
  if fails then release_at PLocalKey d;; ret (true, false) else
  let* bad := ask SCond in
  release_at PLocalKey d;; ret (true, negb bad).

(** aws_cryptosdk_priv_unwrap_keys: session_decrypt.c 125-186. *)
Definition unwrap_keys (s : msess) (c : mcmm) : M (msess * bool) :=
  let* bad := ask SCond in
  if bad then ret (s, false) else
  let* r := fill_request (length (l_items (h_edks (s_hdr s)))) in
  match r with
  | None => ret (s, false)
  | Some r =>
      let* e := decrypt_materials c (length (l_items r)) in
      match e with
      | None => list_free r;; ret (s, false)
      | Some e =>
          let finish s e ok := dec_materials_destroy (Some e);; list_free r;; ret (s, ok) in
          let* '(st, et, _) := transfer_list (s_trace s) (e_trace e) in
          let s := mk_msess (s_blk s) (s_cmm s) (s_hdr s) st (s_sig s) (s_copy s) (s_stage s) (s_enc s) (s_keyed s) in
          let e := mk_mmat (e_blk e) (e_sig e) (e_dk e) (e_edks e) et in
          let* bad := ask SCond in
          if bad then finish s e false else
          let* '(keyed, ok) := derive_data_key s in
          let s := mk_msess (s_blk s) (s_cmm s) (s_hdr s) st (s_sig s) (s_copy s) (s_stage s) (s_enc s) keyed in
          if negb ok then finish s e false else
          let* bad := ask SCall in                                   (* validate_header *)
          if bad then finish s e false else
          let* signed := ask SCond in
          if signed then
            match e_sig e with
            | None => finish s e false
            | Some g =>
                let s := mk_msess (s_blk s) (s_cmm s) (s_hdr s) st (Some g) (s_copy s) (s_stage s) (s_enc s) keyed in
                let e := mk_mmat (e_blk e) None (e_dk e) (e_edks e) et in
                let* ok := sig_update g in
                finish (set_stage s (if ok then GDecryptBody else s_stage s)) e ok
            end
          else finish (set_stage s GDecryptBody) e true
      end
  end.

(** aws_cryptosdk_priv_try_parse_header: session_decrypt.c 188-230. *)
Definition try_parse_header (s : msess) (c : mcmm) (v1 : bool) (n m : nat) : M (msess * bool) :=
  let* '(h, ok) := hdr_parse (s_hdr s) v1 n m in
  let s := mk_msess (s_blk s) (s_cmm s) h (s_trace s) (s_sig s) (s_copy s) (s_stage s) (s_enc s) (s_keyed s) in
  if negb ok then
    let* short := ask SCond in ret (s, short)                        (* the error is suppressed; more input is needed *)
  else
    let* bad := ask SCond in
    if bad then ret (s, false) else
    let* b := acquire in
    match b with
    | None => ret (s, false)
    | Some b => unwrap_keys (mk_msess (s_blk s) (s_cmm s) h (s_trace s) (s_sig s) (Some b) (s_stage s) (s_enc s) (s_keyed s)) c
    end.

(** aws_cryptosdk_priv_write_trailer: session_encrypt.c 400-448; [n] signatures are too long or too short. *)
Definition write_trailer (s : msess) (n : nat) : M (msess * bool) :=
  match s_sig s with
  | None => ret (set_stage s GDone, true)
  | Some g =>
      let* full := ask SCond in
      if full then ret (s, true) else
      let* o := sign_finish g n in
      let s := mk_msess (s_blk s) (s_cmm s) (s_hdr s) (s_trace s) None (s_copy s) (s_stage s) (s_enc s) (s_keyed s) in
      match o with
      | None => ret (s, false)
      | Some o => let* bad := ask SCond in
                  buf_clean_up (Some o);;
                  if bad then ret (s, false) else ret (set_stage s GDone, true)
      end
  end.

(** aws_cryptosdk_priv_check_trailer: session_decrypt.c 307-345. *)
Definition check_trailer (s : msess) : M (msess * bool) :=
  match s_sig s with
  | None => ret (set_stage s GDone, true)
  | Some g =>
      let* short := ask SCond in
      if short then ret (s, true) else
      let* o := acquire in
      match o with
      | None => ret (s, false)
      | Some o =>
          let* ok := verify_finish g in
          let s := mk_msess (s_blk s) (s_cmm s) (s_hdr s) (s_trace s) None (s_copy s) (s_stage s) (s_enc s) (s_keyed s) in
          buf_clean_up (Some o);; ret (s, ok)
      end
  end.

(** One frame: aws_cryptosdk_priv_try_encrypt_body and try_decrypt_body (session_encrypt.c 287-398, session_decrypt.c
    232-305).  Only the context of the cipher is allocated (cipher.c 455-560) and freed. *)
Definition body (s : msess) (next : mstage) : M (msess * bool) :=
  let* wait := ask SCond in
  if wait then ret (s, true) else
  let* c := acquire in
  match c with
  | None => ret (s, false)
  | Some c =>
      touch (s_blk s);;
      let* fails := ask SCall in
      release c;;
      if fails then ret (s, false) else
      let* ok := match s_sig s with None => ret true | Some g => sig_update g end in
      if negb ok then ret (s, false) else
      let* last := ask SCond in
      ret (if last then set_stage s next else s, true)
  end.

(** One round of aws_cryptosdk_session_process: session.c 262-321.  [v1], [n], [m], [t] describe the input: the version of the
    format, the numbers of EDKs and context elements; the number of signatures of the wrong length. *)
Definition process_round (s : msess) (v1 : bool) (n m t : nat) : M msess :=
  let* '(s, ok) :=
    match s_stage s, s_cmm s with
    | _, None => ret (s, false)
    | GConfig, Some _ => ret (set_stage s (if s_enc s then GGenKey else GReadHeader), true)
    | GGenKey, Some c => try_gen_key s c
    | GWriteHeader, Some _ => let* full := ask SCond in ret (if full then s else set_stage s GEncryptBody, true)
    | GEncryptBody, Some _ => body s GWriteTrailer
    | GWriteTrailer, Some _ => write_trailer s t
    | GReadHeader, Some c => try_parse_header s c v1 n m
    | GDecryptBody, Some _ => body s GCheckTrailer
    | GCheckTrailer, Some _ => check_trailer s
    | GDone, Some _ => ret (s, true)
    | GError, Some _ => ret (s, false)
    end in
  ret (if ok then s else set_stage s GError).

(** aws_cryptosdk_session_get_enc_ctx_ptr_mut and aws_hash_table_put by the caller (session.c 425-440): a pair of strings of the
    caller's is put into the encryption context before the session starts. *)
Definition add_context (s : msess) : M msess :=
  match s_stage s with
  | GConfig =>
      let* k := buf_init in
      match k with
      | None => ret s
      | Some k =>
          let* v := buf_init in
          match v with
          | None => buf_clean_up k;; ret s
          | Some v =>
              let* x := ctx_put (h_ctx (s_hdr s)) k v in
              match x with
              | None => buf_clean_up k;; buf_clean_up v;; ret s
              | Some x =>
                  let h := s_hdr s in
                  ret (mk_msess (s_blk s) (s_cmm s) (mk_mhdr (h_iv h) (h_tag h) (h_mid h) (h_suite h) (h_edks h) x)
                                (s_trace s) (s_sig s) (s_copy s) (s_stage s) (s_enc s) (s_keyed s))
              end
          end
      end
  | _ => ret s
  end.

(** ** A client *)

Inductive mop := OContext | ORound (v1 : bool) (n m t : nat) | OReset (enc : bool).

Definition do_op (s : msess) (o : mop) : M msess :=
  match o with
  | OContext => add_context s
  | ORound v1 n m t => process_round s v1 n m t
  | OReset enc => let* '(s, _) := session_reset s enc in ret s
  end.

Fixpoint do_ops (s : msess) (l : list mop) : M msess :=
  match l with [] => ret s | o :: r => let* s := do_op s o in do_ops s r end.

(** A keyring to be made: a raw AES keyring, a raw RSA keyring with these keys, a KMS keyring or ([mrk]) an MRK-aware one with [n] key
    ids, a multi-keyring. *)
Inductive recipe := RAes | RRsa (priv pub : bool) | RKms (mrk : bool) (n : nat) | RMulti (gen : option recipe) (kids : list recipe).

(** The client makes the keyrings in order.  It gives up its own reference on a keyring as soon as the keyring is part of a
    multi-keyring (multi_keyring.h says when), and it stops at the first failure, releasing what it has. *)
Fixpoint build (r : recipe) : M (option mkr) :=
  match r with
  | RAes => raw_aes_keyring_new
  | RRsa priv pub => raw_rsa_keyring_new priv pub
  | RKms mrk n => kms_keyring_new mrk n
  | RMulti gen kids =>
      let* g := match gen with
                | None => ret (Some None)
                | Some g => let* g := build g in match g with None => ret None | Some g => ret (Some (Some g)) end
                end in
      match g with
      | None => ret None
      | Some g =>
          let* k := multi_keyring_new g in
          match g with None => ret tt | Some g => kr_release g end;;
          match k with
          | None => ret None
          | Some k =>
              (fix go (l : list recipe) (k : mkr) : M (option mkr) :=
                 match l with
                 | [] => ret (Some k)
                 | x :: r =>
                     let* c := build x in
                     match c with
                     | None => kr_release k;; ret None
                     | Some c => let* '(k, ok) := multi_keyring_add_child k c in
                                 kr_release c;;
                                 if ok then go r k else kr_release k;; ret None
                     end
                 end) kids k
          end
      end
  end.

(** A client makes a session on a keyring that it holds, and gives up its references: at once ([via] is false), or with a default
    CMM of its own. *)
Definition start (via enc : bool) (k : mkr) : M (option msess) :=
  if via then
    let* c := default_cmm_new k in
    kr_release k;;
    match c with
    | None => ret None
    | Some c => let* s := session_new_from_cmm enc c in
                cmm_release c;; ret s
    end
  else
    let* s := session_new_from_keyring enc k in
    kr_release k;; ret s.

(** The life of a session up to some point: make the keyring, make the session, use the session. *)
Definition use (r : recipe) (via enc : bool) (ops : list mop) : M (option msess) :=
  let* k := build r in
  match k with
  | None => ret None
  | Some k => let* s := start via enc k in
              match s with None => ret None | Some s => let* s := do_ops s ops in ret (Some s) end
  end.
(** The whole life. *)
Definition life (r : recipe) (via enc : bool) (ops : list mop) : M unit :=
  let* s := use r via enc ops in
  match s with None => ret tt | Some s => session_destroy s end.

(** ** caching_cmm.c: creation and destruction *)

(** A caching CMM: its structure, the CMM it asks, the cache (only its reference count matters here), its partition id. *)
Record mcach := mk_mcach { q_blk : nat; q_up : mcmm; q_cache : nat; q_part : nat }.

(** aws_cryptosdk_md_init, _update, _finish, _abort: cipher_openssl.c 116-202, as hash_or_generate_partition_id (caching_cmm.c
    69-99) uses them. *)
Definition partition_id (named : bool) : M (option nat) :=
  if named then
    let* e := acquire in
    match e with
    | None => ret None
    | Some e =>
        let* fails := ask SCall in
        if fails then release e;; ret None else
        let* c := acquire in
        match c with
        | None => release e;; ret None
        | Some c => let* fails := ask SCall in
                    release e;; release c;;
                    if fails then ret None else acquire
        end
    end
  else
    let* fails := ask SCall in
    if fails then ret None else acquire.

(** aws_cryptosdk_caching_cmm_new_from_cmm: caching_cmm.c 162-201. *)
Definition caching_cmm_new_from_cmm (cache : nat) (up : mcmm) (named : bool) : M (option mcach) :=
  let* bad := ask SCond in
  if bad then ret None else
  let* p := partition_id named in
  match p with
  | None => ret None
  | Some p =>
      let* b := acquire_at SPart in
      match b with
      | None => ret None
      | Some b => init_ref b;; retain (d_blk up);; retain cache;; ret (Some (mk_mcach b up cache p))
      end
  end.
(** aws_cryptosdk_caching_cmm_new_from_keyring: caching_cmm.c 203-217. *)
Definition caching_cmm_new_from_keyring (cache : nat) (k : mkr) (named : bool) : M (option mcach) :=
  let* u := default_cmm_new k in
  match u with
  | None => ret None
  | Some u => let* q := caching_cmm_new_from_cmm cache u named in
              cmm_release u;; ret q
  end.
(** aws_cryptosdk_materials_cache_release on a cache that somebody else still holds: cache.h 503-515. *)
Definition cache_unref (cache : nat) : M unit := let* _ := unref cache in ret tt.
(** aws_cryptosdk_cmm_release with destroy_caching_cmm: caching_cmm.c 52-59. *)
Definition caching_release (q : mcach) : M unit :=
  let* last := unref (q_blk q) in
  if last then release (q_part q);; cache_unref (q_cache q);; cmm_release (q_up q);; release (q_blk q) else ret tt.

(** A client that has a cache (of which only the structure with its reference count is modelled) makes a caching CMM on a keyring,
    gives up the keyring, releases the caching CMM and then the cache. *)
Definition cache_release_last (cache : nat) : M unit :=
  let* last := unref cache in if last then release cache else ret tt.
Definition caching_life (r : recipe) (named : bool) : M unit :=
  let* k := build r in
  match k with
  | None => ret tt
  | Some k =>
      let* cache := acquire in
      match cache with
      | None => kr_release k
      | Some cache =>
          init_ref cache;;
          let* q := caching_cmm_new_from_keyring cache k named in
          kr_release k;;
          match q with None => ret tt | Some q => caching_release q end;;
          cache_release_last cache
      end
  end.
