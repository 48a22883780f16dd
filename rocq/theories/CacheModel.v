(** Model of the local materials cache, source/local_cache.c.

    Each vtable method is one atomic operation: it runs under the cache's mutex, or is a single
    atomic instruction, except update_usage_stats, which is three separate steps ([KCheck],
    [KAddBytes], [KAddMsgs]) so that other threads may run in between.
    Simplifications:
    - entry addresses are natural numbers and never reused;
    - the reference count is a [nat], so it cannot wrap;
    - aws-c-common's hash table, linked list and priority queue are a list of pairs, a list and a
      set whose top is the least (expiry time, address);
    - aws_mutex_unlock never fails (the code aborts if it does);
    - destroying the cache itself (lines 477-492) is not an operation of the model;
    - unlocked reads of [zombie] and [expiry_time] (lines 547, 783, 831) are atomic. *)
From Verif Require Import Base EncCtxModel HdrModel CryptoModel SessionModel.

(** NO_EXPIRY and TTL_EXPIRATION_BATCH_SIZE, source/local_cache.c 28-29. *)
Definition NO_EXPIRY : N := UINT64_MAX.
Definition TTL_BATCH : nat := 8.

(** Materials held by an entry (source/local_cache.c 55-70): the copied materials without the
    signature context, the encryption context, and the serialised key of the signature
    context, if there was one. *)
Inductive cached :=
| CachedEnc (m : enc_mat) (ctx : enc_ctx) (key : option (list N))
| CachedDec (m : dec_mat) (key : option (list N)).

Definition is_enc (m : cached) : bool :=
  match m with CachedEnc _ _ _ => true | CachedDec _ _ => false end.

(** struct local_cache_entry, source/local_cache.c 36-92. *)
Record centry := mk_centry {
  ce_id : list N; ce_created : N; ce_expiry : N; ce_mat : cached;
  ce_bytes : N; ce_msgs : N; ce_refs : nat; ce_zombie : bool }.

(** struct aws_cryptosdk_local_cache, source/local_cache.c 94-127: hash table, LRU list (most
    recent first), expiry queue; the heap memory of entries ([None] = not allocated or freed);
    the next fresh address; [c_freed] lists the destroyed entries, newest first (a pure
    observation, the code never reads it). *)
Record cache := mk_cache {
  c_cap : N; c_map : list (list N * nat); c_lru : list nat; c_heap : list nat;
  c_store : nat -> option centry; c_next : nat; c_freed : list nat }.

Definition set_map (x : list (list N * nat)) (c : cache) : cache :=
  mk_cache (c_cap c) x (c_lru c) (c_heap c) (c_store c) (c_next c) (c_freed c).
Definition set_lru (x : list nat) (c : cache) : cache :=
  mk_cache (c_cap c) (c_map c) x (c_heap c) (c_store c) (c_next c) (c_freed c).
Definition set_heap (x : list nat) (c : cache) : cache :=
  mk_cache (c_cap c) (c_map c) (c_lru c) x (c_store c) (c_next c) (c_freed c).
Definition set_store (x : nat -> option centry) (c : cache) : cache :=
  mk_cache (c_cap c) (c_map c) (c_lru c) (c_heap c) x (c_next c) (c_freed c).

Definition upd {A} (f : nat -> A) (p : nat) (x : A) : nat -> A :=
  fun q => if Nat.eqb q p then x else f q.
(** Write the entry at address [p]. *)
Definition put_at (p : nat) (e : centry) (c : cache) : cache :=
  set_store (upd (c_store c) p (Some e)) c.

Definition with_refs (n : nat) (e : centry) : centry :=
  mk_centry (ce_id e) (ce_created e) (ce_expiry e) (ce_mat e) (ce_bytes e) (ce_msgs e) n (ce_zombie e).
Definition with_zombie (e : centry) : centry :=
  mk_centry (ce_id e) (ce_created e) (ce_expiry e) (ce_mat e) (ce_bytes e) (ce_msgs e) (ce_refs e) true.
Definition with_expiry (t : N) (e : centry) : centry :=
  mk_centry (ce_id e) (ce_created e) t (ce_mat e) (ce_bytes e) (ce_msgs e) (ce_refs e) (ce_zombie e).
Definition with_usage (b m : N) (e : centry) : centry :=
  mk_centry (ce_id e) (ce_created e) (ce_expiry e) (ce_mat e) b m (ce_refs e) (ce_zombie e).

Definition without (p : nat) (l : list nat) : list nat := filter (fun q => negb (Nat.eqb q p)) l.

(** aws_hash_table_find and aws_hash_table_remove on the id table. *)
Fixpoint map_find (id : list N) (m : list (list N * nat)) : option nat :=
  match m with
  | [] => None
  | (i, p) :: m' => if bytes_eqb id i then Some p else map_find id m'
  end.
Definition map_remove (id : list N) (m : list (list N * nat)) : list (list N * nat) :=
  filter (fun x => negb (bytes_eqb id (fst x))) m.

(** destroy_cache_entry, source/local_cache.c 413-426: the memory is given back. *)
Definition destroy_entry (p : nat) (c : cache) : cache :=
  mk_cache (c_cap c) (c_map c) (c_lru c) (c_heap c) (upd (c_store c) p None) (c_next c)
           (p :: c_freed c).

(** The reference drop shared by locked_release_entry (357-371) and release_entry (854-865),
    source/local_cache.c.  [None]: use of freed memory or a failed assert (old count 0, or last reference
    of an entry that is still in the cache). *)
Definition drop_ref (p : nat) (c : cache) : option cache :=
  match c_store c p with
  | None => None
  | Some e =>
      match ce_refs e with
      | O => None
      | S O => if ce_zombie e then Some (destroy_entry p c) else None
      | S n => Some (put_at p (with_refs n e) c)
      end
  end.

(** locked_invalidate_entry, source/local_cache.c 222-251. *)
Definition invalidate (p : nat) (skip_hash : bool) (c : cache) : option cache :=
  match c_store c p with
  | None => None
  | Some e =>
      if ce_zombie e then Some c
      else
        let c1 := if ce_expiry e =? NO_EXPIRY then c else set_heap (without p (c_heap c)) c in
        let c2 := if skip_hash then c1 else set_map (map_remove (ce_id e) (c_map c1)) c1 in
        let c3 := set_lru (without p (c_lru c2)) c2 in
        drop_ref p (put_at p (with_zombie e) c3)
  end.

(** ttl_heap_cmp, source/local_cache.c 184-205: earlier expiry first, then the lower address. *)
Definition expiry_of (c : cache) (p : nat) : N :=
  match c_store c p with Some e => ce_expiry e | None => 0 end.
Definition sooner (c : cache) (p q : nat) : bool :=
  (expiry_of c p <? expiry_of c q) || ((expiry_of c p =? expiry_of c q) && Nat.leb p q).
Fixpoint heap_top (c : cache) (l : list nat) : option nat :=
  match l with
  | [] => None
  | p :: l' =>
      match heap_top c l' with
      | None => Some p
      | Some q => if sooner c p q then Some p else Some q
      end
  end.

(** locked_process_ttls, source/local_cache.c 258-276.  If the clock fails ([None]) nothing
    happens; the callers ignore the failure. *)
Fixpoint expire_loop (n : nat) (now : N) (c : cache) : option cache :=
  match n with
  | O => Some c
  | S n' =>
      match heap_top c (c_heap c) with
      | None => Some c
      | Some p =>
          match c_store c p with
          | None => None
          | Some e =>
              if ce_expiry e <=? now then
                match invalidate p false c with
                | None => None
                | Some c' => expire_loop n' now c'
                end
              else Some c
          end
      end
  end.
Definition process_ttls (clock : option N) (c : cache) : option cache :=
  match clock with None => Some c | Some now => expire_loop TTL_BATCH now c end.

(** The eviction loop of locked_insert_entry, source/local_cache.c 315-321; [p] is the entry being
    inserted, which the asserts exclude from eviction.  The bound [n] is the number of
    entries in the table: each round removes one. *)
Fixpoint evict_loop (n : nat) (p : nat) (c : cache) : option cache :=
  if Nlen (c_map c) <=? c_cap c then Some c
  else
    match n with
    | O => None
    | S n' =>
        match rev (c_lru c) with
        | [] => None
        | q :: _ =>
            if Nat.eqb q p then None
            else match invalidate q false c with
                 | None => None
                 | Some c' => evict_loop n' p c'
                 end
        end
    end.

(** What the environment decides during one operation: does aws_mutex_lock succeed, what does the
    clock say (twice: new_entry and locked_process_ttls each read it), do allocations succeed,
    does growing the hash table succeed, does pushing to the expiry queue succeed, and the
    state in which a failing aws_cryptosdk_enc_ctx_clone leaves the caller's context. *)
Record choice := mk_choice {
  ch_lock : bool; ch_clock : option N; ch_clock2 : option N; ch_mem : bool; ch_insert : bool;
  ch_push : bool; ch_ctx : option enc_ctx }.

(** locked_insert_entry, source/local_cache.c 295-325.  The entry at [p] has been allocated and
    filled in by the caller.  [Some (c, false)]: the hash table could not grow. *)
Definition insert_entry (h : choice) (p : nat) (id : list N) (c : cache) : option (cache * bool) :=
  match process_ttls (ch_clock2 h) c with
  | None => None
  | Some c1 =>
      if negb (ch_insert h) then Some (c1, false)
      else
        match (match map_find id (c_map c1) with
               | None => Some c1
               | Some old => invalidate old true c1
               end) with
        | None => None
        | Some c2 =>
            let c3 := set_map ((id, p) :: map_remove id (c_map c2)) c2 in
            let c4 := set_lru (p :: c_lru c3) c3 in
            match evict_loop (length (c_map c4)) p c4 with
            | None => None
            | Some c5 => Some (c5, true)
            end
        end
  end.

(** The rest of put_entry_for_encrypt (638-700) and put_entry_for_decrypt (702-754),
    source/local_cache.c: allocate the entry (new_entry, 377-411: creation time from the clock, no
    expiry, one reference, the cache's own), fill it in, insert it, take a reference for the
    caller.  If any allocation or the copy of the signature key fails ([mat] = None), or the clock
    fails, nothing is inserted. *)
Definition put_entry (h : choice) (mat : option cached) (ub um : N) (id : list N) (c : cache)
  : option (cache * option nat) :=
  if negb (ch_lock h) then Some (c, None)
  else
    match ch_clock h, mat, ch_mem h with
    | Some now, Some m, true =>
        let p := c_next c in
        let e := mk_centry id now NO_EXPIRY m ub um 1 false in
        let c1 := mk_cache (c_cap c) (c_map c) (c_lru c) (c_heap c) (upd (c_store c) p (Some e))
                           (S p) (c_freed c) in
        match insert_entry h p id c1 with
        | None => None
        | Some (c2, false) => Some (destroy_entry p c2, None)
        | Some (c2, true) =>
            match c_store c2 p with
            | None => None
            | Some e2 => Some (put_at p (with_refs (S (ce_refs e2)) e2) c2, Some p)
            end
        end
    | _, _, _ => Some (c, None)
    end.

(** Signature key handling, not modelled here: aws_cryptosdk_sig_get_privkey,
    aws_cryptosdk_sig_sign_start, aws_cryptosdk_sig_get_pubkey and aws_cryptosdk_sig_verify_start
    (source/cipher_openssl.c). *)
Record sigio := mk_sigio {
  si_priv : sigctx -> res (list N);
  si_sign : N -> list N -> res (option sigctx);
  si_pub : sigctx -> res (list N);
  si_verify : N -> list N -> res (option sigctx) }.

(** copy_enc_materials (442-457) and the privkey step (673-677), source/local_cache.c: suite, data
    key, EDKs and keyring trace are copied, the signature context is replaced by its key. *)
Definition cache_enc (io : sigio) (m : enc_mat) (ctx : enc_ctx) : option cached :=
  let m0 := mk_enc_mat (em_key m) (em_trace m) (em_edks m) None (em_alg m) in
  match em_sig m with
  | None => Some (CachedEnc m0 ctx None)
  | Some sc => match si_priv io sc with Ok k => Some (CachedEnc m0 ctx (Some k)) | Err _ => None end
  end.

(** copy_dec_materials (459-475) and the pubkey step (731-735), source/local_cache.c. *)
Definition cache_dec (io : sigio) (m : dec_mat) : option cached :=
  let m0 := mk_dec_mat (dm_key m) (dm_trace m) None (dm_alg m) in
  match dm_sig m with
  | None => Some (CachedDec m0 None)
  | Some sc => match si_pub io sc with Ok k => Some (CachedDec m0 (Some k)) | Err _ => None end
  end.

(** get_enc_materials, source/local_cache.c 559-601: copy, make the caller's context equal to the
    cached one, rebuild the signature context. *)
Definition get_enc (io : sigio) (h : choice) (e : centry) (ctx : enc_ctx) : enc_ctx * res enc_mat :=
  match ce_mat e with
  | CachedDec _ _ => (ctx, Err E_BAD_STATE)
  | CachedEnc m cctx key =>
      if negb (ch_mem h) then (ctx, Err E_OOM)
      else match ch_ctx h with
      | Some x => (x, Err E_OOM)
      | None =>
          let ctx' := enc_ctx_clone ctx cctx in
          match key with
          | None => (ctx', Ok m)
          | Some k =>
              match si_sign io (em_alg m) k with
              | Err e => (ctx', Err e)
              | Ok sc => (ctx', Ok (mk_enc_mat (em_key m) (em_trace m) (em_edks m) sc (em_alg m)))
              end
          end
      end
  end.

(** get_dec_materials, source/local_cache.c 603-636. *)
Definition get_dec (io : sigio) (h : choice) (e : centry) : res dec_mat :=
  match ce_mat e with
  | CachedEnc _ _ _ => Err E_BAD_STATE
  | CachedDec m key =>
      if negb (ch_mem h) then Err E_OOM
      else match key with
           | None => Ok m
           | Some k =>
               match si_verify io (dm_alg m) k with
               | Err e => Err e
               | Ok sc => Ok (mk_dec_mat (dm_key m) (dm_trace m) sc (dm_alg m))
               end
           end
  end.

(** locked_release_entry, source/local_cache.c 327-375. *)
Definition locked_release (p : nat) (inval : bool) (c : cache) : option cache :=
  match drop_ref p c with
  | None => None
  | Some c1 =>
      match c_store c1 p with
      | None => Some c1
      | Some e => if inval && negb (ce_zombie e) then invalidate p false c1 else Some c1
      end
  end.

(** clear_cache, source/local_cache.c 868-892: every entry of the table is invalidated and then
    deleted from the table through the iterator. *)
Fixpoint clear_loop (ps : list (list N * nat)) (c : cache) : option cache :=
  match ps with
  | [] => Some (set_map [] c)
  | (_, p) :: ps' =>
      match invalidate p true c with
      | None => None
      | Some c' => clear_loop ps' c'
      end
  end.

(** The cache operations (struct aws_cryptosdk_materials_cache_vt, include/aws/cryptosdk/cache.h
    93-296).  An entry is named by its address: the handle the caller holds. *)
Inductive cop :=
| KFind (id : list N)
| KPutEnc (m : enc_mat) (bytes msgs : N) (ctx : enc_ctx) (id : list N)
| KPutDec (m : dec_mat) (id : list N)
| KCheck (p : nat)
| KAddBytes (p : nat) (n : N)
| KAddMsgs (p : nat) (n : N)
| KGetEnc (p : nat) (ctx : enc_ctx)
| KGetDec (p : nat)
| KCreated (p : nat)
| KHint (p : nat) (t : N)
| KRelease (p : nat) (inval : bool)
| KClear
| KCount.

(** Results.  [RLeak]: release_entry could not lock the mutex and leaked the handle. *)
Inductive resp :=
| RFound (r : option (nat * bool))
| RPut (r : option nat)
| RBool (b : bool)
| RNum (n : N)
| REnc (ctx : enc_ctx) (r : res enc_mat)
| RDec (r : res dec_mat)
| RUnit
| RLeak
| RClock (t : option N)
| RMem (e : option err).

(** One operation.  [None] is undefined behaviour: access to a freed entry or a failed assert. *)
Definition cstep (io : sigio) (h : choice) (o : cop) (c : cache) : option (cache * resp) :=
  match o with
  (* find_entry, source/local_cache.c 511-538, and locked_find_entry, 278-293 *)
  | KFind id =>
      if negb (ch_lock h) then Some (c, RFound None)
      else
        match process_ttls (ch_clock h) c with
        | None => None
        | Some c1 =>
            match map_find id (c_map c1) with
            | None => Some (c1, RFound None)
            | Some p =>
                match c_store c1 p with
                | None => None
                | Some e =>
                    let c2 := set_lru (p :: without p (c_lru c1)) c1 in
                    Some (put_at p (with_refs (S (ce_refs e)) e) c2,
                          RFound (Some (p, is_enc (ce_mat e))))
                end
            end
        end
  | KPutEnc m ub um ctx id =>
      match put_entry h (cache_enc io m ctx) ub um id c with
      | None => None
      | Some (c', r) => Some (c', RPut r)
      end
  | KPutDec m id =>
      match put_entry h (cache_dec io m) 0 0 id c with
      | None => None
      | Some (c', r) => Some (c', RPut r)
      end
  (* update_usage_stats, source/local_cache.c 540-557: the check, then two atomic additions, each
     returning the new sum *)
  | KCheck p =>
      match c_store c p with
      | None => None
      | Some e => Some (c, RBool (negb (ce_zombie e) && is_enc (ce_mat e)))
      end
  | KAddBytes p n =>
      match c_store c p with
      | None => None
      | Some e => let s := add64 (ce_bytes e) n in
                  Some (put_at p (with_usage s (ce_msgs e) e) c, RNum s)
      end
  | KAddMsgs p n =>
      match c_store c p with
      | None => None
      | Some e => let s := add64 (ce_msgs e) n in
                  Some (put_at p (with_usage (ce_bytes e) s e) c, RNum s)
      end
  | KGetEnc p ctx =>
      match c_store c p with
      | None => None
      | Some e => let (ctx', r) := get_enc io h e ctx in Some (c, REnc ctx' r)
      end
  | KGetDec p =>
      match c_store c p with
      | None => None
      | Some e => Some (c, RDec (get_dec io h e))
      end
  (* get_creation_time, source/local_cache.c 756-765 *)
  | KCreated p =>
      match c_store c p with
      | None => None
      | Some e => Some (c, RNum (ce_created e))
      end
  (* set_expiration_hint, source/local_cache.c 767-816 *)
  | KHint p t =>
      match c_store c p with
      | None => None
      | Some e =>
          if ce_zombie e || (ce_expiry e <=? t) then Some (c, RUnit)
          else if negb (ch_lock h) then Some (c, RUnit)
          else
            let c1 := if ce_expiry e <? NO_EXPIRY then set_heap (without p (c_heap c)) c else c in
            if ch_push h
            then Some (set_heap (p :: c_heap c1) (put_at p (with_expiry t e) c1), RUnit)
            else Some (put_at p (with_expiry NO_EXPIRY e) c1, RUnit)
      end
  (* release_entry, source/local_cache.c 818-866 *)
  | KRelease p inval =>
      match c_store c p with
      | None => None
      | Some e =>
          if inval && negb (ce_zombie e) then
            if negb (ch_lock h) then Some (c, RLeak)
            else match locked_release p true c with None => None | Some c' => Some (c', RUnit) end
          else match drop_ref p c with None => None | Some c' => Some (c', RUnit) end
      end
  | KClear =>
      if negb (ch_lock h) then Some (c, RUnit)
      else match clear_loop (c_map c) c with None => None | Some c' => Some (c', RUnit) end
  (* entry_count, source/local_cache.c 494-509 *)
  | KCount => Some (c, RNum (if ch_lock h then Nlen (c_map c) else UINT64_MAX))
  end.

(** aws_cryptosdk_materials_cache_local_new, source/local_cache.c 918-965: capacity at least 2. *)
Definition new_cache (capacity : N) : cache :=
  mk_cache (if capacity <? 2 then 2 else capacity) [] [] [] (fun _ => None) 0 [].
