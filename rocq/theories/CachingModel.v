(** Model of the caching CMM, source/caching_cmm.c.

    The two CMM methods are programs over the cache operations of CacheModel.v, the CMM's own
    clock, memory and the upstream CMM.  A program stops at each of these interactions, so that
    calls made by different threads can be interleaved in every way.
    Not modelled: construction and reference counting of the CMM object (lines 52-59, 162-218),
    except the argument checks. *)
From Coq Require Import String.
From Verif Require Import Base AlgModel EncCtxModel HdrModel CryptoModel SessionModel KeyringModel
  CacheModel.
Import List.
Open Scope list_scope. Open Scope N_scope.

(** struct caching_cmm, source/caching_cmm.c 25-35 (the configuration part). *)
Record caching := mk_caching {
  cm_partition : list N; cm_limit_msgs : N; cm_limit_bytes : N; cm_ttl : N }.

(** include/aws/cryptosdk/cache.h: AWS_CRYPTOSDK_CACHE_MAX_LIMIT_MESSAGES; INT64_MAX. *)
Definition MAX_LIMIT_MESSAGES : N := 2 ^ 32.
Definition INT64_MAX : N := 2 ^ 63 - 1.

(** aws_cryptosdk_caching_cmm_set_limit_bytes, source/caching_cmm.c 108-120. *)
Definition set_limit_bytes (n : N) (m : caching) : res caching :=
  if INT64_MAX <? n then Err E_INVALID_ARGUMENT
  else Ok (mk_caching (cm_partition m) (cm_limit_msgs m) n (cm_ttl m)).

(** aws_cryptosdk_caching_cmm_set_limit_messages, source/caching_cmm.c 122-134. *)
Definition set_limit_messages (n : N) (m : caching) : res caching :=
  if (n =? 0) || (MAX_LIMIT_MESSAGES <? n) then Err E_INVALID_ARGUMENT
  else Ok (mk_caching (cm_partition m) n (cm_limit_bytes m) (cm_ttl m)).

(** convert_ttl_to_nanos, source/caching_cmm.c 139-146; [unit] is the enum value: ticks per second
    (aws-c-common clock.h: 1, 1000, 1000000, 1000000000). *)
Definition convert_ttl (ttl unit : N) : N :=
  if (ttl =? 0) || negb ((unit =? 1) || (unit =? 1000) || (unit =? 1000000) || (unit =? 1000000000))
  then 0
  else N.min UINT64_MAX ((1000000000 / unit) * ttl).

(** aws_cryptosdk_caching_cmm_set_ttl, source/caching_cmm.c 148-160. *)
Definition set_ttl (ttl unit : N) (m : caching) : res caching :=
  let t := convert_ttl ttl unit in
  if t =? 0 then Err E_INVALID_ARGUMENT
  else Ok (mk_caching (cm_partition m) (cm_limit_msgs m) (cm_limit_bytes m) t).

(** aws_cryptosdk_caching_cmm_new_from_cmm, source/caching_cmm.c 162-201: limits of a fresh CMM;
    [partition] is the result of hash_or_generate_partition_id (68-99). *)
Definition caching_new (partition : list N) (ttl unit : N) : res caching :=
  let t := convert_ttl ttl unit in
  if t =? 0 then Err E_INVALID_ARGUMENT
  else Ok (mk_caching partition MAX_LIMIT_MESSAGES INT64_MAX t).

(** can_cache_algorithm, source/caching_cmm.c 61-66; [None]: NULL dereference for an unknown
    suite. *)
Definition can_cache (alg : N) : option bool :=
  match alg_lookup alg with
  | None => None
  | Some p => Some (match ap_md_name p with None => false | Some _ => true end)
  end.

(** hash_enc_request, source/caching_cmm.c 250-323, without the failures of the hash functions and
    of the allocator.  [sha] is SHA-512. *)
Definition enc_cache_id (sha : list N -> list N) (m : caching) (rq : enc_request) : res (list N) :=
  do n <- enc_ctx_size (rq_ctx rq);
  do ser <- enc_ctx_serialize n 0 (rq_ctx rq);
  let flag := if rq_alg rq =? 0 then [0] else 1 :: be_bytes 2 (rq_alg rq) in
  Ok (sha (cm_partition m ++ flag ++ sha ser)).

(** hash_edk_field and hash_edk_for_decrypt, source/caching_cmm.c 335-369. *)
Definition edk_field (f : list N) : res (list N) :=
  if UINT16_MAX <? Nlen f then Err E_LIMIT_EXCEEDED else Ok (be_bytes 2 (Nlen f) ++ f).
Definition edk_hash_input (e : edk) : res (list N) :=
  do a <- edk_field (edk_provider_id e);
  do b <- edk_field (edk_provider_info e);
  do c <- edk_field (edk_ciphertext e);
  Ok (a ++ b ++ c).
Fixpoint edk_hashes (sha : list N -> list N) (es : list edk) : res (list (list N)) :=
  match es with
  | [] => Ok []
  | e :: es' =>
      do i <- edk_hash_input e;
      do l <- edk_hashes sha es';
      Ok (sha i :: l)
  end.

(** aws_array_list_sort with edk_hash_entry_cmp (memcmp), source/caching_cmm.c 329-333, 441. *)
Fixpoint digest_insert (d : list N) (l : list (list N)) : list (list N) :=
  match l with
  | [] => [d]
  | x :: l' => match bytes_compare d x with Gt => x :: digest_insert d l' | _ => d :: l end
  end.
Fixpoint digest_sort (l : list (list N)) : list (list N) :=
  match l with [] => [] | d :: l' => digest_insert d (digest_sort l') end.

(** hash_dec_request, source/caching_cmm.c 371-475: partition, suite, sorted EDK hashes, 64 zero
    bytes, hash of the context. *)
Definition dec_cache_id (sha : list N -> list N) (m : caching) (rq : dec_request) : res (list N) :=
  do n <- enc_ctx_size (dq_ctx rq);
  do ser <- enc_ctx_serialize n 0 (dq_ctx rq);
  do hs <- edk_hashes sha (dq_edks rq);
  Ok (sha (cm_partition m ++ be_bytes 2 (dq_alg rq) ++ concat (digest_sort hs)
           ++ repeat 0 64 ++ sha ser)).

(** * Programs *)

(** Interactions: a cache operation, the CMM's clock, an allocation or hash operation that may fail,
    a call of the upstream CMM. *)
Inductive xop :=
| XCache (o : cop)
| XClock
| XMem
| XUpEnc (rq : enc_request)
| XUpDec (rq : dec_request).

(** Result of a call: for generate_enc_materials also the encryption context of the request
    afterwards.  [JDone]: a call without a result (clearing the cache).  [JStuck] is a response
    of the wrong kind; it cannot occur in an execution. *)
Inductive jres :=
| JEnc (ctx : enc_ctx) (r : cres enc_mat)
| JDec (r : cres dec_mat)
| JDone
| JStuck.

Inductive prog :=
| Ret (r : jres)
| Do (o : xop) (k : resp -> prog).

(** check_ttl, source/caching_cmm.c 223-248. *)
Definition check_ttl (m : caching) (p : nat) (k : bool -> prog) : prog :=
  if cm_ttl m =? UINT64_MAX then k true
  else Do (XCache (KCreated p)) (fun r =>
    match r with
    | RNum created =>
        let expiration := add64 created (cm_ttl m) in
        if expiration <? created then k true
        else Do XClock (fun r =>
          match r with
          | RClock None => k false
          | RClock (Some now) =>
              if expiration <=? now then k false
              else Do (XCache (KHint p expiration)) (fun _ => k true)
          | _ => Ret JStuck
          end)
    | _ => Ret JStuck
    end).

(** set_ttl_on_miss, source/caching_cmm.c 477-486, for a non-NULL entry. *)
Definition set_ttl_on_miss (m : caching) (p : nat) (k : prog) : prog :=
  if cm_ttl m =? UINT64_MAX then k
  else Do (XCache (KCreated p)) (fun r =>
    match r with
    | RNum created =>
        let exp_time := add64 created (cm_ttl m) in
        if created <? exp_time then Do (XCache (KHint p exp_time)) (fun _ => k) else k
    | _ => Ret JStuck
    end).

(** aws_cryptosdk_materials_cache_update_usage_stats on the local cache: the check and the two
    additions; [None] is failure. *)
Definition update_usage (p : nat) (bytes msgs : N) (k : option (N * N) -> prog) : prog :=
  Do (XCache (KCheck p)) (fun r =>
    match r with
    | RBool false => k None
    | RBool true =>
        Do (XCache (KAddBytes p bytes)) (fun r =>
          match r with
          | RNum b =>
              Do (XCache (KAddMsgs p msgs)) (fun r =>
                match r with RNum n => k (Some (b, n)) | _ => Ret JStuck end)
          | _ => Ret JStuck
          end)
    | _ => Ret JStuck
    end).

Definition release_opt (p : option nat) (inval : bool) (k : prog) : prog :=
  match p with
  | None => k
  | Some p => Do (XCache (KRelease p inval)) (fun _ => k)
  end.

(** The request with the encryption context as it is now (the context is changed in place). *)
Definition with_ctx (ctx : enc_ctx) (rq : enc_request) : enc_request :=
  mk_enc_request ctx (rq_alg rq) (rq_psize rq) (rq_policy rq).

(** generate_enc_materials, source/caching_cmm.c 549-580 (cache_miss). *)
Definition gen_miss (m : caching) (rq : enc_request) (id : list N) (found : option nat) : prog :=
  release_opt found true
    (Do (XUpEnc rq) (fun r =>
      match r with
      | REnc ctx (Err e) => Ret (JEnc ctx (CErr e))
      | REnc ctx (Ok mat) =>
          match can_cache (em_alg mat) with
          | None => Ret (JEnc ctx CUB)
          | Some false => Ret (JEnc ctx (COk mat))
          | Some true =>
              Do (XCache (KPutEnc mat (rq_psize rq) 1 ctx id)) (fun r =>
                match r with
                | RPut None => Ret (JEnc ctx (COk mat))
                | RPut (Some q) =>
                    set_ttl_on_miss m q
                      (Do (XCache (KRelease q false)) (fun _ => Ret (JEnc ctx (COk mat))))
                | _ => Ret JStuck
                end)
          end
      | _ => Ret JStuck
      end)).

(** generate_enc_materials, source/caching_cmm.c 519-547 (an encrypt entry was found). *)
Definition gen_hit (m : caching) (rq : enc_request) (id : list N) (p : nat) : prog :=
  check_ttl m p (fun fresh =>
    if negb fresh then gen_miss m rq id (Some p)
    else update_usage p (rq_psize rq) 1 (fun u =>
      match u with
      | None => gen_miss m rq id (Some p)
      | Some (bytes, msgs) =>
          if (cm_limit_bytes m <? bytes) || (cm_limit_msgs m <? msgs) then gen_miss m rq id (Some p)
          else
            let should_invalidate := msgs =? cm_limit_msgs m in
            Do (XCache (KGetEnc p (rq_ctx rq))) (fun r =>
              match r with
              | REnc ctx (Err _) => gen_miss m (with_ctx ctx rq) id (Some p)
              | REnc ctx (Ok mat) =>
                  Do (XCache (KRelease p should_invalidate)) (fun _ => Ret (JEnc ctx (COk mat)))
              | _ => Ret JStuck
              end)
      end)).

(** generate_enc_materials, source/caching_cmm.c 488-581. *)
Definition gen_prog (sha : list N -> list N) (m : caching) (rq : enc_request) : prog :=
  let upstream := Do (XUpEnc rq) (fun r =>
    match r with
    | REnc ctx (Ok mat) => Ret (JEnc ctx (COk mat))
    | REnc ctx (Err e) => Ret (JEnc ctx (CErr e))
    | _ => Ret JStuck
    end) in
  let go := Do XMem (fun r =>
    match r with
    | RMem (Some e) => Ret (JEnc (rq_ctx rq) (CErr e))
    | RMem None =>
        match enc_cache_id sha m rq with
        | Err e => Ret (JEnc (rq_ctx rq) (CErr e))
        | Ok id =>
            Do (XCache (KFind id)) (fun r =>
              match r with
              | RFound (Some (p, true)) => gen_hit m rq id p
              | RFound (Some (p, false)) => gen_miss m rq id (Some p)
              | RFound None => gen_miss m rq id None
              | _ => Ret JStuck
              end)
        end
    | _ => Ret JStuck
    end) in
  if cm_limit_bytes m <? rq_psize rq then upstream
  else if rq_alg rq =? 0 then go
  else match can_cache (rq_alg rq) with
       | None => Ret (JEnc (rq_ctx rq) CUB)
       | Some false => upstream
       | Some true => go
       end.

(** decrypt_materials, source/caching_cmm.c 623-647 (cache_miss). *)
Definition dec_miss (m : caching) (rq : dec_request) (id : list N) (found : option nat) : prog :=
  release_opt found true
    (Do (XUpDec rq) (fun r =>
      match r with
      | RDec (Err e) => Ret (JDec (CErr e))
      | RDec (Ok mat) =>
          Do (XCache (KPutDec mat id)) (fun r =>
            match r with
            | RPut None => Ret (JDec (COk mat))
            | RPut (Some q) =>
                set_ttl_on_miss m q
                  (Do (XCache (KRelease q false)) (fun _ => Ret (JDec (COk mat))))
            | _ => Ret JStuck
            end)
      | _ => Ret JStuck
      end)).

(** decrypt_materials, source/caching_cmm.c 583-647. *)
Definition dec_prog (sha : list N -> list N) (m : caching) (rq : dec_request) : prog :=
  match can_cache (dq_alg rq) with
  | None => Ret (JDec CUB)
  | Some false =>
      Do (XUpDec rq) (fun r =>
        match r with
        | RDec (Ok mat) => Ret (JDec (COk mat))
        | RDec (Err e) => Ret (JDec (CErr e))
        | _ => Ret JStuck
        end)
  | Some true =>
      Do XMem (fun r =>
        match r with
        | RMem (Some e) => Ret (JDec (CErr e))
        | RMem None =>
            match dec_cache_id sha m rq with
            | Err e => Ret (JDec (CErr e))
            | Ok id =>
                Do (XCache (KFind id)) (fun r =>
                  match r with
                  | RFound (Some (p, false)) =>
                      check_ttl m p (fun fresh =>
                        if negb fresh then dec_miss m rq id (Some p)
                        else Do (XCache (KGetDec p)) (fun r =>
                          match r with
                          | RDec (Err _) => dec_miss m rq id (Some p)
                          | RDec (Ok mat) =>
                              Do (XCache (KRelease p false)) (fun _ => Ret (JDec (COk mat)))
                          | _ => Ret JStuck
                          end))
                  | RFound (Some (p, true)) => dec_miss m rq id (Some p)
                  | RFound None => dec_miss m rq id None
                  | _ => Ret JStuck
                  end)
            end
        | _ => Ret JStuck
        end)
  end.
