(** Who owns which block of memory in the local cache and in the methods of the caching CMM, on the memory model of [MemModel].

    What is found, what has expired and what is over a limit depends on data, so it is either asked of the world or an argument.
    The pointers that the cache keeps (in its hash table, its LRU list and its TTL heap) are modelled as lists of the names of
    the entries' blocks, apart from the entries themselves, so that a pointer may be left behind after its entry is gone:
    following it is undefined behaviour, as is failing an assertion, locking the mutex twice or unlocking it when it is not
    locked.  Programs are sequential: what several threads can do at the same time is not modelled here.

    Simplifications: the storage of a hash table and of an array list is one block, reallocated when the world says so; a
    lookup in the table reads every key in it; an operation of the heap or of the LRU list reads every entry in it. *)
From Coq Require Import List Bool PeanoNat.
Import ListNotations.
From Verif Require Import MemModel.

Definition stuck {A} : M A := fun _ => None.

(** ** The hashes of requests: caching_cmm.c *)

(** aws_cryptosdk_md_init: cipher_openssl.c 116-149.  The EVP_MD_CTX and the context. *)
Definition md_init_at (a c : site) : M (option (nat * nat)) :=
  let* e := acquire_at a in
  match e with
  | None => ret None
  | Some e =>
      let* fails := ask c in
      if fails then release e;; ret None else
      let* b := acquire_at a in
      match b with None => release e;; ret None | Some b => ret (Some (e, b)) end
  end.
Definition md_init : M (option (nat * nat)) := md_init_at SAlloc SCall.
(** aws_cryptosdk_md_abort: cipher_openssl.c 192-202. *)
Definition md_abort (c : option (nat * nat)) : M unit :=
  match c with None => ret tt | Some (e, b) => touch b;; release e;; release b end.
(** aws_cryptosdk_md_update: cipher_openssl.c 158-169. *)
Definition md_update (c : nat * nat) : M bool := touch (fst c);; touch (snd c);; let* fails := ask SCall in ret (negb fails).
(** aws_cryptosdk_md_finish: cipher_openssl.c 171-190. *)
Definition md_finish (c : nat * nat) : M bool :=
  touch (fst c);; let* fails := ask SCall in md_abort (Some c);; ret (negb fails).

(** The size of the encryption context, a buffer, its serialisation and the update with it: caching_cmm.c 298-303, 401-407. *)
Definition hash_context (c : nat * nat) (x : mctx) : M (buf * bool) :=
  touch (x_tab x);;
  let* big := ask SCond in
  if big then ret (None, false) else
  let* b := buf_init in
  match b with
  | None => ret (None, false)
  | Some b =>
      let* '(b, ok) := ctx_serialize b in
      if ok then let* ok := md_update c in ret (b, ok) else ret (b, false)
  end.

(** hash_enc_request: caching_cmm.c 252-322. *)
Definition hash_enc_request (x : mctx) : M bool :=
  let* a := md_init in
  match a with
  | None => ret false
  | Some a =>
      let* b := md_init_at SSecondMd SSecondMd in
      match b with
      | None => ret false                                              (* line 276: [a] is forgotten *)
      | Some b =>
          let* ok := md_update a in
          if negb ok then md_abort (Some a);; md_abort (Some b);; ret false else
          let* ok := md_update a in
          if negb ok then md_abort (Some a);; md_abort (Some b);; ret false else
          let* '(c, ok) := hash_context b x in
          if negb ok then buf_clean_up c;; md_abort (Some a);; md_abort (Some b);; ret false else
          let* ok := md_finish b in
          if negb ok then buf_clean_up c;; md_abort (Some a);; md_abort None;; ret false else
          let* ok := md_update a in
          if negb ok then buf_clean_up c;; md_abort (Some a);; md_abort None;; ret false else
          buf_clean_up c;; md_finish a
      end
  end.

(** hash_edk_for_decrypt: caching_cmm.c 347-368. *)
Definition hash_edk : M bool :=
  let* c := md_init_at SEdkHash SEdkHash in
  match c with
  | None => ret false
  | Some c =>
      let* fails := ask SEdkHash in
      if fails then md_abort (Some c);; ret false else
      touch (fst c);; md_abort (Some c);;
      let* fails := ask SEdkHash in ret (negb fails)
  end.

(** The hashes of the EDKs: caching_cmm.c 425-443. *)
Fixpoint hash_edks (l : alist unit) (n : nat) : M (alist unit * bool) :=
  match n with
  | 0 => ret (l, true)
  | S n =>
      let* ok := hash_edk in
      if negb ok then ret (l, false) else
      let* l' := list_push SGrow l tt in
      match l' with None => ret (l, false) | Some l' => hash_edks l' n end
  end.

(** hash_dec_request: caching_cmm.c 370-477, on [n] EDKs.  The end (from the label [err]) gets what md_context points to, which
    may be a context that is gone. *)
Definition hash_dec_end (md : option (nat * nat)) (c : buf) (l : alist unit) (ok : bool) : M bool :=
  md_abort md;; buf_clean_up c;; list_free l;; ret ok.
Definition hash_dec_request (x : mctx) (n : nat) : M bool :=
  let* l := list_init n in
  match l with
  | None => ret false
  | Some l =>
      let* md := md_init in
      match md with
      | None => hash_dec_end None None l false
      | Some md =>
          let* '(c, ok) := hash_context md x in
          if negb ok then hash_dec_end (Some md) c l false else
          let* ok := md_finish md in
          if negb ok then hash_dec_end None c l false else
          let* '(l, ok) := hash_edks l n in
          if negb ok then hash_dec_end (Some md) c l false else        (* lines 432-441: [md] is gone *)
          let* md := md_init in
          match md with
          | None => hash_dec_end None c l false
          | Some md =>
              let* ok := md_update md in
              if negb ok then hash_dec_end (Some md) c l false else
              let* ok := md_finish md in
              hash_dec_end None c l ok
          end
      end
  end.

(** ** cipher_openssl.c *)

(** aws_cryptosdk_sig_get_pubkey: cipher_openssl.c 327-336. *)
Definition sig_get_pubkey (g : msig) : M (option nat) :=
  touch (g_blk g);; match g_key g with None => stuck | Some k => serialize_pubkey k end.

(** aws_cryptosdk_sig_get_privkey: cipher_openssl.c 338-445.  The temporary array is [t]. *)
Definition get_privkey_end (t : nat) (a b : buf) (r : option nat) : M (option nat) :=
  scrub t;; buf_clean_up_secure a;; buf_clean_up_secure b;; release t;; ret r.
Definition sig_get_privkey (g : msig) : M (option nat) :=
  touch (g_blk g);;
  match g_key g with
  | None => stuck
  | Some k =>
      touch k;;
      let* t := must_acquire in
      let* i := acquire in                                               (* BN_to_ASN1_INTEGER *)
      match i with
      | None => get_privkey_end t None None None
      | Some i =>
          taint i;;
          let* a := acquire in                                           (* i2d_ASN1_INTEGER *)
          match a with None => ret tt | Some a => taint a end;;
          scrub i;; release i;;
          touch k;;
          let* b := acquire in                                           (* i2o_ECPublicKey *)
          match a, b with
          | Some _, Some _ =>
              let* long := ask SCond in
              if long then get_privkey_end t a b None else
              taint t;;
              let* s := acquire in
              match s with
              | None => get_privkey_end t a b None
              | Some s => taint s;; get_privkey_end t a b (Some s)
              end
          | _, _ => get_privkey_end t a b None
          end
      end
  end.

(** ** enc_ctx.c *)

(** aws_cryptosdk_enc_ctx_clone: enc_ctx.c 202-258.  First the elements of the destination that the source does not have go. *)
Fixpoint clone_prune (l : list (buf * buf)) : M (list (buf * buf)) :=
  match l with
  | [] => ret []
  | e :: r =>
      let* gone := ask SCond in
      if gone then elem_destroy e;; clone_prune r else let* r := clone_prune r in ret (e :: r)
  end.
(** One element of the source: its key may be there with another value (which element that is does not matter here: the first
    one, which is then put last), may not be there, or may be there with the same value. *)
Definition clone_one (x : mctx) : M (mctx * bool) :=
  let* there := ask SCond in
  if there then
    let* same := ask SCond in
    if same then ret (x, true) else
    match x_elems x with
    | [] => ret (x, true)
    | (k, v) :: r =>
        let* v' := buf_init in
        match v' with
        | None => ret (x, false)
        | Some v' => buf_clean_up v;; ret (mk_mctx (x_tab x) (r ++ [(k, v')]), true)
        end
    end
  else
    let* k := buf_init in
    let* v := buf_init in
    match k, v with
    | Some k, Some v =>
        let* x' := ctx_put x k v in
        match x' with
        | None => buf_clean_up k;; buf_clean_up v;; ret (x, false)
        | Some x' => ret (x', true)
        end
    | Some k, None => buf_clean_up k;; ret (x, false)
    | None, Some v => buf_clean_up v;; ret (x, false)
    | None, None => ret (x, false)
    end.
Fixpoint clone_loop (x : mctx) (n : nat) : M (mctx * bool) :=
  match n with
  | 0 => ret (x, true)
  | S n => let* '(x, ok) := clone_one x in if ok then clone_loop x n else ret (x, false)
  end.
Definition ctx_clone (dest src : mctx) : M (mctx * bool) :=
  touch (x_tab dest);; touch (x_tab src);;
  let* l := clone_prune (x_elems dest) in
  clone_loop (mk_mctx (x_tab dest) l) (length (x_elems src)).

(** ** local_cache.c: entries *)

(** struct local_cache_entry: local_cache.c 33-92.  [n_hint]: its expiry time is not NO_EXPIRY. *)
Record mentry := mk_ment
  { n_blk : nat; n_id : buf; n_enc : option mmat; n_dec : option mmat; n_key : buf; n_ctx : option mctx;
    n_hint : bool; n_zombie : bool }.

(** new_entry: local_cache.c 377-407. *)
Definition new_entry : M (option mentry) :=
  let* fails := ask SCall in
  if fails then ret None else
  let* b := acquire in
  match b with
  | None => ret None
  | Some b =>
      let* i := buf_init in
      match i with
      | None => release b;; ret None
      | Some i => init_ref b;; ret (Some (mk_ment b i None None None None false false))
      end
  end.
(** destroy_cache_entry: local_cache.c 413-426. *)
Definition destroy_entry (e : mentry) : M unit :=
  enc_materials_destroy (n_enc e);; dec_materials_destroy (n_dec e);; buf_clean_up_secure (n_key e);;
  match n_ctx e with None => ret tt | Some x => ctx_clean_up x end;;
  buf_clean_up (n_id e);; release (n_blk e).

(** aws_byte_buf_init_copy on a data key. *)
Definition key_copy (k : buf) : M (option buf) :=
  match k with
  | None => ret (Some None)
  | Some k =>
      touch k;;
      let* b := acquire in
      match b with None => ret None | Some b => taint b;; ret (Some (Some b)) end
  end.
(** copy_enc_materials: local_cache.c 442-457. *)
Definition copy_enc (out src : mmat) : M (mmat * bool) :=
  touch (e_blk src);;
  let* k := key_copy (e_dk src) in
  match k with
  | None => ret (out, false)
  | Some k =>
      let* '(ek, ok) := edk_list_copy_all (e_edks out) (e_edks src) in
      if negb ok then ret (mk_mmat (e_blk out) (e_sig out) k ek (e_trace out), false) else
      let* '(t, ok) := trace_copy_all (e_trace out) (e_trace src) in
      ret (mk_mmat (e_blk out) (e_sig out) k ek t, ok)
  end.
(** copy_dec_materials: local_cache.c 459-473. *)
Definition copy_dec (out src : mmat) : M (mmat * bool) :=
  touch (e_blk src);;
  let* k := key_copy (e_dk src) in
  match k with
  | None => ret (out, false)
  | Some k =>
      let* '(t, ok) := trace_copy_all (e_trace out) (e_trace src) in
      ret (mk_mmat (e_blk out) (e_sig out) k (e_edks out) t, ok)
  end.

(** ** local_cache.c: the cache *)

(** struct aws_cryptosdk_local_cache: local_cache.c 94-124.  [v_tab], [v_heap], [v_back]: the storage of the hash table, of the
    heap and of its back pointers (allocated with the first entry).  [v_els], [v_lru], [v_ttl]: the entries to which the hash
    table, the LRU list and the heap point.  [v_all]: what the entries that are allocated contain. *)
Record mlocal := mk_mloc
  { v_blk : nat; v_tab : nat; v_heap : nat; v_back : buf; v_cap : nat; v_locked : bool;
    v_els : list nat; v_lru : list nat; v_ttl : list nat; v_all : list mentry }.

Definition with_lock (v : mlocal) (l : bool) : mlocal :=
  mk_mloc (v_blk v) (v_tab v) (v_heap v) (v_back v) (v_cap v) l (v_els v) (v_lru v) (v_ttl v) (v_all v).
Definition with_tab (v : mlocal) (t : nat) : mlocal :=
  mk_mloc (v_blk v) t (v_heap v) (v_back v) (v_cap v) (v_locked v) (v_els v) (v_lru v) (v_ttl v) (v_all v).
Definition with_els (v : mlocal) (l : list nat) : mlocal :=
  mk_mloc (v_blk v) (v_tab v) (v_heap v) (v_back v) (v_cap v) (v_locked v) l (v_lru v) (v_ttl v) (v_all v).
Definition with_lru (v : mlocal) (l : list nat) : mlocal :=
  mk_mloc (v_blk v) (v_tab v) (v_heap v) (v_back v) (v_cap v) (v_locked v) (v_els v) l (v_ttl v) (v_all v).
Definition with_ttl (v : mlocal) (l : list nat) : mlocal :=
  mk_mloc (v_blk v) (v_tab v) (v_heap v) (v_back v) (v_cap v) (v_locked v) (v_els v) (v_lru v) l (v_all v).
Definition with_heap (v : mlocal) (h : nat) (b : buf) : mlocal :=
  mk_mloc (v_blk v) (v_tab v) h b (v_cap v) (v_locked v) (v_els v) (v_lru v) (v_ttl v) (v_all v).
Definition with_all (v : mlocal) (l : list mentry) : mlocal :=
  mk_mloc (v_blk v) (v_tab v) (v_heap v) (v_back v) (v_cap v) (v_locked v) (v_els v) (v_lru v) (v_ttl v) l.

(** aws_mutex_lock, with the sort of its failure, and aws_mutex_unlock, whose failure ends the process. *)
Definition lock (s : site) (v : mlocal) : M (option mlocal) :=
  touch (v_blk v);;
  if v_locked v then stuck else
  let* fails := ask s in
  if fails then ret None else ret (Some (with_lock v true)).
Definition unlock (v : mlocal) : M mlocal :=
  touch (v_blk v);; if v_locked v then ret (with_lock v false) else stuck.

Definition is_ent (b : nat) (e : mentry) : bool := n_blk e =? b.
Definition drop_ent (b : nat) (l : list mentry) : list mentry := filter (fun e => negb (is_ent b e)) l.
Definition upd_ent (b : nat) (f : mentry -> mentry) (l : list mentry) : list mentry :=
  map (fun e => if is_ent b e then f e else e) l.
Fixpoint drop_id (b : nat) (l : list nat) : list nat :=
  match l with [] => [] | x :: r => if x =? b then r else x :: drop_id b r end.

Definition zombify (e : mentry) : mentry :=
  mk_ment (n_blk e) (n_id e) (n_enc e) (n_dec e) (n_key e) (n_ctx e) (n_hint e) true.
Definition hinted (h : bool) (e : mentry) : mentry :=
  mk_ment (n_blk e) (n_id e) (n_enc e) (n_dec e) (n_key e) (n_ctx e) h (n_zombie e).

(** Reads an entry through a pointer. *)
Definition read (v : mlocal) (b : nat) : M mentry :=
  touch b;; match find (is_ent b) (v_all v) with None => stuck | Some e => ret e end.
(** eq_cache_id on the key of an entry in the table: local_cache.c 177-182. *)
Definition look (v : mlocal) (b : nat) : M unit :=
  let* e := read v b in match n_id e with None => ret tt | Some i => touch i end.
Definition lookup (v : mlocal) : M unit := touch (v_tab v);; each (look v) (v_els v).

(** locked_release_entry with [invalidate] false: local_cache.c 352-362; also the end of release_entry: 853-865. *)
Definition release_ref (v : mlocal) (b : nat) : M mlocal :=
  let* e := read v b in
  let* last := unref b in
  if last then
    if n_zombie e then destroy_entry e;; ret (with_all v (drop_ent b (v_all v))) else stuck
  else ret v.

(** aws_priority_queue_remove. *)
Definition heap_remove (v : mlocal) (b : nat) : M mlocal :=
  touch (v_heap v);; each touch (v_ttl v);; ret (with_ttl v (drop_id b (v_ttl v))).

(** locked_invalidate_entry: local_cache.c 222-251. *)
Definition invalidate (v : mlocal) (b : nat) (skip_hash : bool) : M mlocal :=
  let* e := read v b in
  if n_zombie e then ret v else
  let* v := if n_hint e then heap_remove v b else ret v in
  let* v := if skip_hash then ret v else lookup v;; ret (with_els v (drop_id b (v_els v))) in
  touch (v_blk v);; each touch (v_lru v);;
  let v := with_lru v (drop_id b (v_lru v)) in
  let v := with_all v (upd_ent b zombify (v_all v)) in
  release_ref v b.

(** locked_release_entry: local_cache.c 327-375. *)
Definition locked_release (v : mlocal) (b : nat) (inval : bool) : M mlocal :=
  let* e := read v b in
  let* last := unref b in
  if last then
    if n_zombie e then destroy_entry e;; ret (with_all v (drop_ent b (v_all v))) else stuck
  else if inval && negb (n_zombie e) then invalidate v b false else ret v.

(** aws_priority_queue_top: which entry that is depends on the times. *)
Fixpoint heap_top (l : list nat) : M (option nat) :=
  match l with
  | [] => ret None
  | [b] => ret (Some b)
  | b :: r => let* this := ask SCond in if this then ret (Some b) else heap_top r
  end.
(** locked_process_ttls: local_cache.c 258-276. *)
Fixpoint ttl_loop (n : nat) (v : mlocal) : M mlocal :=
  match n with
  | 0 => ret v
  | S n =>
      touch (v_heap v);;
      let* t := heap_top (v_ttl v) in
      match t with
      | None => ret v
      | Some b =>
          touch b;;
          let* expired := ask SCond in
          if expired then let* v := invalidate v b false in ttl_loop n v else ret v
      end
  end.
Definition process_ttls (v : mlocal) : M mlocal :=
  let* fails := ask SCall in
  if fails then ret v else ttl_loop 8 v.

(** locked_lru_move_to_head: local_cache.c 253-256. *)
Definition move_to_head (v : mlocal) (b : nat) : M mlocal :=
  touch (v_blk v);; each touch (v_lru v);; ret (with_lru v (b :: drop_id b (v_lru v))).
(** locked_find_entry: local_cache.c 278-293.  [hit]: the place in the table of the entry with the given id. *)
Definition locked_find (v : mlocal) (hit : nat) : M (mlocal * option nat) :=
  let* v := process_ttls v in
  lookup v;;
  match nth_error (v_els v) hit with
  | None => ret (v, None)
  | Some b => let* v := move_to_head v b in ret (v, Some b)
  end.

(** The end of locked_insert_entry: local_cache.c 315-323. *)
Fixpoint evict (n : nat) (v : mlocal) (fresh : nat) : M mlocal :=
  match n with
  | 0 => ret v
  | S n =>
      if length (v_els v) <=? v_cap v then ret v else
      match rev (v_lru v) with
      | [] => stuck
      | b :: _ => if b =? fresh then stuck else let* v := invalidate v b false in evict n v fresh
      end
  end.
(** aws_hash_table_create: the table may have to be reallocated. *)
Definition table_create (v : mlocal) : M (option mlocal) :=
  lookup v;;
  let* grow := ask SCond in
  if grow then
    let* t := acquire in
    match t with None => ret None | Some t => release (v_tab v);; ret (Some (with_tab v t)) end
  else ret (Some v).
(** locked_insert_entry: local_cache.c 295-325.  [dup]: the place in the table of the entry with the same id. *)
Definition locked_insert (v : mlocal) (e : mentry) (dup : nat) : M (mlocal * bool) :=
  let* v := process_ttls v in
  let* r := table_create v in
  match r with
  | None => ret (v, false)
  | Some v =>
      let* v := match nth_error (v_els v) dup with
                | None => ret v
                | Some old => let* v := invalidate v old true in ret (with_els v (drop_id old (v_els v)))
                end in
      let v := with_els v (n_blk e :: v_els v) in
      touch (v_blk v);; each touch (v_lru v);; touch (n_blk e);;
      let v := with_all (with_lru v (n_blk e :: v_lru v)) (e :: v_all v) in
      let* v := evict (length (v_els v)) v (n_blk e) in
      ret (v, true)
  end.

(** ** local_cache.c: the methods *)

(** entry_count: local_cache.c 494-509. *)
Definition entry_count (v : mlocal) : M mlocal :=
  let* l := lock SCall v in
  match l with None => ret v | Some v => touch (v_tab v);; unlock v end.

(** find_entry: local_cache.c 511-538.  The entry, and whether it is for encryption. *)
Definition find_entry (v : mlocal) (hit : nat) : M (mlocal * option (nat * bool)) :=
  let* l := lock SCall v in
  match l with
  | None => ret (v, None)
  | Some v =>
      let* '(v, o) := locked_find v hit in
      let* r := match o with
                | None => ret None
                | Some b => retain b;; let* e := read v b in
                            ret (Some (b, match n_enc e with Some _ => true | None => false end))
                end in
      let* v := unlock v in ret (v, r)
  end.

(** update_usage_stats: local_cache.c 540-557; get_creation_time: 756-765. *)
Definition update_usage (v : mlocal) (b : nat) : M bool :=
  let* e := read v b in ret (negb (n_zombie e) && match n_enc e with Some _ => true | None => false end).
Definition creation_time (v : mlocal) (b : nat) : M unit := let* _ := read v b in ret tt.

(** get_enc_materials: local_cache.c 559-602.  [x] is the encryption context of the request. *)
Definition get_enc (v : mlocal) (b : nat) (x : mctx) : M (mctx * option mmat) :=
  let* e := read v b in
  match n_enc e with
  | None => ret (x, None)
  | Some src =>
      let* o := enc_materials_new in
      match o with
      | None => ret (x, None)
      | Some o =>
          let* '(o, ok) := copy_enc o src in
          if negb ok then enc_materials_destroy (Some o);; ret (x, None) else
          match n_ctx e with
          | None => stuck
          | Some cx =>
              let* '(x, ok) := ctx_clone x cx in
              if negb ok then enc_materials_destroy (Some o);; ret (x, None) else
              match n_key e with
              | None => ret (x, Some o)
              | Some k =>
                  touch k;;
                  let* g := sig_sign_start false in
                  match g with
                  | None => enc_materials_destroy (Some o);; ret (x, None)
                  | Some (g, _) => ret (x, Some (mk_mmat (e_blk o) (Some g) (e_dk o) (e_edks o) (e_trace o)))
                  end
              end
          end
      end
  end.
(** get_dec_materials: local_cache.c 603-636. *)
Definition get_dec (v : mlocal) (b : nat) : M (option mmat) :=
  let* e := read v b in
  match n_dec e with
  | None => ret None
  | Some src =>
      let* o := dec_materials_new in
      match o with
      | None => ret None
      | Some o =>
          let* '(o, ok) := copy_dec o src in
          if negb ok then dec_materials_destroy (Some o);; ret None else
          match n_key e with
          | None => ret (Some o)
          | Some k =>
              touch k;;
              let* g := verify_start in
              match g with
              | None => dec_materials_destroy (Some o);; ret None
              | Some g => ret (Some (mk_mmat (e_blk o) (Some g) (e_dk o) (e_edks o) (e_trace o)))
              end
          end
      end
  end.

(** put_entry_for_encrypt, from the entry to its insertion: local_cache.c 653-682.  The entry as far as it got; whether it is
    complete. *)
Definition fill_enc (e : mentry) (src : mmat) (x : mctx) : M (mentry * bool) :=
  let* o := enc_materials_new in
  match o with
  | None => ret (e, false)
  | Some o =>
      let* '(o, ok) := copy_enc o src in
      let e := mk_ment (n_blk e) (n_id e) (Some o) None None None false false in
      if negb ok then ret (e, false) else
      let* cx := ctx_init in
      match cx with
      | None => ret (e, false)
      | Some cx =>
          let* '(cx, ok) := ctx_clone cx x in
          let e := mk_ment (n_blk e) (n_id e) (Some o) None None (Some cx) false false in
          if negb ok then ret (e, false) else
          match e_sig src with
          | None => ret (e, true)
          | Some g =>
              let* k := sig_get_privkey g in
              match k with
              | None => ret (e, false)
              | Some k => ret (mk_ment (n_blk e) (n_id e) (Some o) None (Some k) (Some cx) false false, true)
              end
          end
      end
  end.
(** put_entry_for_decrypt, the same: local_cache.c 715-736. *)
Definition fill_dec (e : mentry) (src : mmat) : M (mentry * bool) :=
  let* o := dec_materials_new in
  match o with
  | None => ret (e, false)
  | Some o =>
      let* '(o, ok) := copy_dec o src in
      let e := mk_ment (n_blk e) (n_id e) None (Some o) None None false false in
      if negb ok then ret (e, false) else
      match e_sig src with
      | None => ret (e, true)
      | Some g =>
          let* k := sig_get_pubkey g in
          match k with
          | None => ret (e, false)
          | Some k => ret (mk_ment (n_blk e) (n_id e) None (Some o) (Some k) None false false, true)
          end
      end
  end.
(** put_entry_for_encrypt and put_entry_for_decrypt: local_cache.c 638-700, 702-754.  The entry that is returned. *)
Definition put_entry (fill : mentry -> M (mentry * bool)) (v : mlocal) (dup : nat) : M (mlocal * option nat) :=
  let* l := lock SCall v in
  match l with
  | None => ret (v, None)
  | Some v =>
      let* e := new_entry in
      match e with
      | None => let* v := unlock v in ret (v, None)
      | Some e =>
          let* '(e, ok) := fill e in
          if negb ok then destroy_entry e;; let* v := unlock v in ret (v, None) else
          let* '(v, ok) := locked_insert v e dup in
          if ok then retain (n_blk e);; let* v := unlock v in ret (v, Some (n_blk e))
          else destroy_entry e;; let* v := unlock v in ret (v, None)
      end
  end.
Definition put_enc (v : mlocal) (src : mmat) (x : mctx) (dup : nat) : M (mlocal * option nat) :=
  put_entry (fun e => fill_enc e src x) v dup.
Definition put_dec (v : mlocal) (src : mmat) (dup : nat) : M (mlocal * option nat) :=
  put_entry (fun e => fill_dec e src) v dup.

(** aws_priority_queue_push_ref: the storage or the back pointers may have to be reallocated. *)
Definition heap_push (v : mlocal) (b : nat) : M (mlocal * bool) :=
  touch (v_heap v);;
  let* grow := ask SCond in
  let* '(v, ok) :=
    (if grow then
       let* h := acquire in
       match h with None => ret (v, false) | Some h => release (v_heap v);; ret (with_heap v h (v_back v), true) end
     else ret (v, true)) in
  if negb ok then ret (v, false) else
  let* grow := ask SCond in
  let* '(v, ok) :=
    (if grow then
       let* h := acquire in
       match h with None => ret (v, false) | Some h => buf_clean_up (v_back v);; ret (with_heap v (v_heap v) (Some h), true) end
     else ret (v, true)) in
  if negb ok then ret (v, false) else
  touch b;; each touch (v_ttl v);; ret (with_ttl v (b :: v_ttl v), true).
(** set_expiration_hint: local_cache.c 767-816. *)
Definition set_hint (v : mlocal) (b : nat) : M mlocal :=
  let* e := read v b in
  let* sooner := ask SCond in
  if n_zombie e || (n_hint e && sooner) then ret v else
  let* l := lock SCall v in
  match l with
  | None => ret v
  | Some v =>
      let* e := read v b in
      if n_zombie e || (n_hint e && sooner) then unlock v else
      let* v := if n_hint e then heap_remove v b else ret v in
      let* '(v, ok) := heap_push v b in
      touch b;;
      unlock (with_all v (upd_ent b (hinted ok) (v_all v)))
  end.

(** release_entry: local_cache.c 818-866. *)
Definition release_entry (v : mlocal) (b : nat) (inval : bool) : M mlocal :=
  let* e := read v b in
  if inval && negb (n_zombie e) then
    let* l := lock SLock v in
    match l with
    | None => ret v
    | Some v => let* v := locked_release v b inval in unlock v
    end
  else release_ref v b.

(** clear_cache: local_cache.c 868-892. *)
Fixpoint clear_loop (l : list nat) (v : mlocal) : M mlocal :=
  match l with
  | [] => ret v
  | b :: r => let* v := invalidate v b true in clear_loop r (with_els v (drop_id b (v_els v)))
  end.
Definition clear_cache (v : mlocal) : M mlocal :=
  let* l := lock SLock v in
  match l with
  | None => ret v
  | Some v => touch (v_tab v);; let* v := clear_loop (v_els v) v in unlock v
  end.

(** destroy_cache: local_cache.c 477-492, with destroy_cache_entry_vp: 428-440. *)
Definition destroy_cache (v : mlocal) : M unit :=
  release (v_heap v);; buf_clean_up (v_back v);;
  each (fun b => let* e := read v b in destroy_entry e) (v_els v);;
  release (v_tab v);; release (v_blk v).
(** aws_cryptosdk_materials_cache_release: cache.h 501-513. *)
Definition cache_release (v : mlocal) : M unit :=
  let* last := unref (v_blk v) in if last then destroy_cache v else ret tt.
(** aws_cryptosdk_materials_cache_local_new: local_cache.c 918-966. *)
Definition local_new (capacity : nat) : M (option mlocal) :=
  let* b := acquire in
  match b with
  | None => ret None
  | Some b =>
      init_ref b;;
      let* fails := ask SCall in
      if fails then release b;; ret None else
      let* t := acquire in
      match t with
      | None => release b;; ret None
      | Some t =>
          let* h := acquire in
          match h with
          | None => release t;; release b;; ret None
          | Some h => ret (Some (mk_mloc b t h None (Nat.max 2 capacity) false [] [] [] []))
          end
      end
  end.

(** ** caching_cmm.c: the methods *)

(** check_ttl: caching_cmm.c 223-248. *)
Definition check_ttl (v : mlocal) (b : nat) : M (mlocal * bool) :=
  let* never := ask SCond in
  if never then ret (v, true) else
  creation_time v b;;
  let* over := ask SCond in
  if over then ret (v, true) else
  let* expired := ask SCond in
  if expired then ret (v, false) else
  let* v := set_hint v b in ret (v, true).
(** set_ttl_on_miss: caching_cmm.c 478-487, and the release of the entry: 575-579, 641-645. *)
Definition after_put (v : mlocal) (h : option nat) : M mlocal :=
  match h with
  | None => ret v
  | Some b =>
      let* never := ask SCond in
      let* v := (if never then ret v else
                 creation_time v b;;
                 let* over := ask SCond in
                 if over then ret v else set_hint v b) in
      release_entry v b false
  end.

(** The cached entry, if it can be used: caching_cmm.c 517-558.  [None] is the label [cache_miss] with no entry left. *)
Definition try_hit (v : mlocal) (x : mctx) (hit : nat) : M (mlocal * mctx * option mmat) :=
  let* '(v, f) := find_entry v hit in
  match f with
  | None => ret (v, x, None)
  | Some (b, is_encrypt) =>
      let* '(v, x, o) :=
        (if negb is_encrypt then ret (v, x, None) else
         let* '(v, ok) := check_ttl v b in
         if negb ok then ret (v, x, None) else
         let* ok := update_usage v b in
         if negb ok then ret (v, x, None) else
         let* over := ask SCond in
         if over then ret (v, x, None) else
         let* '(x, o) := get_enc v b x in ret (v, x, o)) in
      let* inval := match o with None => ret true | Some _ => ask SCond end in
      let* v := release_entry v b inval in
      ret (v, x, o)
  end.
(** generate_enc_materials: caching_cmm.c 489-583.  [hit] and [dup]: the places in the table of the entries found. *)
Definition caching_generate (q : mcach) (v : mlocal) (x : mctx) (hit dup : nat) : M (mlocal * mctx * option mmat) :=
  touch (q_blk q);;
  let* bypass := ask SCond in
  if bypass then let* '(x, o) := generate_enc_materials (q_up q) x in ret (v, x, o) else
  touch (q_part q);;
  let* ok := hash_enc_request x in
  if negb ok then ret (v, x, None) else
  let* '(v, x, o) := try_hit v x hit in
  match o with
  | Some o => ret (v, x, Some o)
  | None =>
      let* '(x, o) := generate_enc_materials (q_up q) x in
      match o with
      | None => ret (v, x, None)
      | Some o =>
          let* cacheable := ask SCond in
          if cacheable then
            let* '(v, h) := put_enc v o x dup in
            let* v := after_put v h in ret (v, x, Some o)
          else ret (v, x, Some o)
      end
  end.

(** The cached entry: caching_cmm.c 606-628. *)
Definition try_hit_dec (v : mlocal) (hit : nat) : M (mlocal * option mmat) :=
  let* '(v, f) := find_entry v hit in
  match f with
  | None => ret (v, None)
  | Some (b, is_encrypt) =>
      let* '(v, o) :=
        (if is_encrypt then ret (v, None) else
         let* '(v, ok) := check_ttl v b in
         if negb ok then ret (v, None) else
         let* o := get_dec v b in ret (v, o)) in
      let* v := release_entry v b (match o with None => true | Some _ => false end) in
      ret (v, o)
  end.
(** decrypt_materials: caching_cmm.c 585-648, on a request with the context [x] and [n] EDKs. *)
Definition caching_decrypt (q : mcach) (v : mlocal) (x : mctx) (n : nat) (hit dup : nat) : M (mlocal * option mmat) :=
  touch (q_blk q);;
  let* bypass := ask SCond in
  if bypass then let* o := decrypt_materials (q_up q) n in ret (v, o) else
  touch (q_part q);;
  let* ok := hash_dec_request x n in
  if negb ok then ret (v, None) else
  let* '(v, o) := try_hit_dec v hit in
  match o with
  | Some o => ret (v, Some o)
  | None =>
      let* o := decrypt_materials (q_up q) n in
      match o with
      | None => ret (v, None)
      | Some o => let* '(v, h) := put_dec v o dup in
                  let* v := after_put v h in ret (v, Some o)
      end
  end.

(** aws_cryptosdk_cmm_release with destroy_caching_cmm: caching_cmm.c 52-59. *)
Definition caching_drop (q : mcach) (v : mlocal) : M unit :=
  let* last := unref (q_blk q) in
  if last then release (q_part q);; cache_release v;; cmm_release (q_up q);; release (q_blk q) else ret tt.

(** ** A client *)

(** It has a cache, a caching CMM, and materials and entries that it got from them. *)
Record mclient := mk_mclient { z_cache : mlocal; z_cmm : mcach; z_hands : list nat; z_encs : list mmat; z_decs : list mmat }.

(** What it may do: ask the CMM for materials (with a context of [n] elements, or [n] EDKs); give materials back; and use the cache
    itself: put materials into it, look for an entry, and use and release the entries that it has. *)
Inductive lop :=
| LGenerate (n hit dup : nat)
| LDecrypt (n edks hit dup : nat)
| LDropEnc (i : nat)
| LDropDec (i : nat)
| LPutEnc (i n dup : nat)
| LPutDec (i dup : nat)
| LFind (hit : nat)
| LGetEnc (j n : nat)
| LGetDec (j : nat)
| LUsage (j : nat)
| LHint (j : nat)
| LRelease (j : nat) (inval : bool)
| LCount
| LClear.

(** A context of [n] elements, or fewer. *)
Fixpoint add_elems (x : mctx) (n : nat) : M mctx :=
  match n with
  | 0 => ret x
  | S n =>
      let* k := buf_init in
      match k with
      | None => ret x
      | Some k => let* x' := ctx_put x k None in
                  match x' with None => buf_clean_up k;; ret x | Some x' => add_elems x' n end
      end
  end.
Definition with_ctx {A} (n : nat) (none : A) (f : mctx -> M (mctx * A)) : M A :=
  let* x := ctx_init in
  match x with
  | None => ret none
  | Some x => let* x := add_elems x n in
              let* '(x, a) := f x in
              ctx_clean_up x;; ret a
  end.

Fixpoint drop_nth {A} (i : nat) (l : list A) : list A :=
  match l, i with [], _ => [] | _ :: r, 0 => r | x :: r, S i => x :: drop_nth i r end.
Definition opt_cons {A} (o : option A) (l : list A) : list A := match o with None => l | Some a => a :: l end.

Definition do_lop (c : mclient) (o : lop) : M mclient :=
  let '(mk_mclient v q hs es ds) := c in
  match o with
  | LGenerate n hit dup =>
      let* '(v, e) := with_ctx n (v, None) (fun x => let* '(v, x, e) := caching_generate q v x hit dup in ret (x, (v, e))) in
      ret (mk_mclient v q hs (opt_cons e es) ds)
  | LDecrypt n edks hit dup =>
      let* '(v, e) := with_ctx n (v, None) (fun x => let* r := caching_decrypt q v x edks hit dup in ret (x, r)) in
      ret (mk_mclient v q hs es (opt_cons e ds))
  | LDropEnc i =>
      match nth_error es i with
      | None => ret c
      | Some e => enc_materials_destroy (Some e);; ret (mk_mclient v q hs (drop_nth i es) ds)
      end
  | LDropDec i =>
      match nth_error ds i with
      | None => ret c
      | Some e => dec_materials_destroy (Some e);; ret (mk_mclient v q hs es (drop_nth i ds))
      end
  | LPutEnc i n dup =>
      match nth_error es i with
      | None => ret c
      | Some e => let* '(v, h) := with_ctx n (v, None) (fun x => let* r := put_enc v e x dup in ret (x, r)) in
                  ret (mk_mclient v q (opt_cons h hs) es ds)
      end
  | LPutDec i dup =>
      match nth_error ds i with
      | None => ret c
      | Some e => let* '(v, h) := put_dec v e dup in ret (mk_mclient v q (opt_cons h hs) es ds)
      end
  | LFind hit =>
      let* '(v, f) := find_entry v hit in
      ret (mk_mclient v q (opt_cons (option_map fst f) hs) es ds)
  | LGetEnc j n =>
      match nth_error hs j with
      | None => ret c
      | Some b => let* e := with_ctx n None (fun x => get_enc v b x) in ret (mk_mclient v q hs (opt_cons e es) ds)
      end
  | LGetDec j =>
      match nth_error hs j with
      | None => ret c
      | Some b => let* e := get_dec v b in ret (mk_mclient v q hs es (opt_cons e ds))
      end
  | LUsage j =>
      match nth_error hs j with None => ret c | Some b => update_usage v b;; ret c end
  | LHint j =>
      match nth_error hs j with
      | None => ret c
      | Some b => creation_time v b;; let* v := set_hint v b in ret (mk_mclient v q hs es ds)
      end
  | LRelease j inval =>
      match nth_error hs j with
      | None => ret c
      | Some b => let* v := release_entry v b inval in ret (mk_mclient v q (drop_nth j hs) es ds)
      end
  | LCount => let* v := entry_count v in ret (mk_mclient v q hs es ds)
  | LClear => let* v := clear_cache v in ret (mk_mclient v q hs es ds)
  end.
Fixpoint do_lops (c : mclient) (l : list lop) : M mclient :=
  match l with [] => ret c | o :: r => let* c := do_lop c o in do_lops c r end.

(** It makes a keyring, a cache and a caching CMM, gives up the keyring, and uses the rest. *)
Definition local_start (r : recipe) (capacity : nat) (named : bool) : M (option mclient) :=
  let* k := build r in
  match k with
  | None => ret None
  | Some k =>
      let* v := local_new capacity in
      match v with
      | None => kr_release k;; ret None
      | Some v =>
          let* q := caching_cmm_new_from_keyring (v_blk v) k named in
          kr_release k;;
          match q with
          | None => cache_release v;; ret None
          | Some q => ret (Some (mk_mclient v q [] [] []))
          end
      end
  end.
Definition local_use (r : recipe) (capacity : nat) (named : bool) (ops : list lop) : M (option mclient) :=
  let* c := local_start r capacity named in
  match c with None => ret None | Some c => let* c := do_lops c ops in ret (Some c) end.

(** At the end it releases its entries, then the cache and the CMM (in either order), then its materials. *)
Fixpoint release_all (v : mlocal) (hs : list nat) : M mlocal :=
  match hs with [] => ret v | b :: r => let* v := release_entry v b false in release_all v r end.
Definition local_end (cmm_first : bool) (c : mclient) : M unit :=
  let '(mk_mclient v q hs es ds) := c in
  let* v := release_all v hs in
  (if cmm_first then caching_drop q v;; cache_release v else cache_release v;; caching_drop q v);;
  each (fun e => enc_materials_destroy (Some e)) es;;
  each (fun e => dec_materials_destroy (Some e)) ds.
Definition local_life (r : recipe) (capacity : nat) (named cmm_first : bool) (ops : list lop) : M unit :=
  let* c := local_use r capacity named ops in
  match c with None => ret tt | Some c => local_end cmm_first c end.
