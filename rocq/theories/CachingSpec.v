(** Specification vocabulary for the caching CMM: any number of calls, made by any threads on any
    caching CMMs sharing one cache, interleaved in any way. *)
From Verif Require Import Base EncCtxModel HdrModel CryptoModel SessionModel KeyringModel WireSpec
  CacheModel CacheSpec CachingModel.
From Coq Require Import Permutation.

(** A call: generate_enc_materials or decrypt_materials of some caching CMM, or the application
    clearing the cache. *)
Inductive job :=
| GenJob (m : caching) (rq : enc_request)
| DecJob (m : caching) (rq : dec_request)
| ClearJob.

Definition prog_of (sha : list N -> list N) (j : job) : prog :=
  match j with
  | GenJob m rq => gen_prog sha m rq
  | DecJob m rq => dec_prog sha m rq
  | ClearJob => Do (XCache KClear) (fun _ => Ret JDone)
  end.

(** One interaction: which call, what it asked for, the answer, and the environment's choices
    during it. *)
Record event := mk_ev { ev_call : nat; ev_op : xop; ev_resp : resp; ev_env : choice }.

(** The interactions of one call. *)
Definition trace (j : nat) (h : list event) : list (xop * resp) :=
  map (fun e => (ev_op e, ev_resp e)) (filter (fun e => Nat.eqb (ev_call e) j) h).

(** The cache operations of a history. *)
Definition cache_ops (h : list event) : list (cop * resp) :=
  flat_map (fun e => match ev_op e with XCache o => [(o, ev_resp e)] | _ => [] end) h.

(** [follows p t p']: program [p] can make the interactions [t] and is then at [p']. *)
Inductive follows (p : prog) : list (xop * resp) -> prog -> Prop :=
| follows_nil : follows p [] p
| follows_step : forall t o k r, follows p t (Do o k) -> follows p (t ++ [(o, r)]) (k r).

(** The possible answers: the cache answers according to its model, the clock, the memory allocator
    and the upstream CMM in any way they like. *)
Definition answers (io : sigio) (ch : choice) (o : xop) (c : cache) (c' : cache) (r : resp) : Prop :=
  match o with
  | XCache o => cstep io ch o c = Some (c', r)
  | XClock => c' = c /\ exists t, r = RClock t
  | XMem => c' = c /\ exists e, r = RMem e
  | XUpEnc _ => c' = c /\ exists ctx x, r = REnc ctx x
  | XUpDec _ => c' = c /\ exists x, r = RDec x
  end.

(** Executions: histories (oldest first) of interleaved calls on a cache that starts empty, under
    any environment satisfying [P]. *)
Inductive exec (io : sigio) (sha : list N -> list N) (P : choice -> Prop) (cap : N) (jobs : nat -> job)
  : list event -> cache -> Prop :=
| exec_nil : exec io sha P cap jobs [] (new_cache cap)
| exec_step : forall h c j o k ch c' r,
    exec io sha P cap jobs h c ->
    follows (prog_of sha (jobs j)) (trace j h) (Do o k) ->
    P ch -> answers io ch o c c' r ->
    exec io sha P cap jobs (h ++ [mk_ev j o r ch]) c'.

(** Call [j] has returned [r]. *)
Definition returns (sha : list N -> list N) (jobs : nat -> job) (h : list event) (j : nat) (r : jres)
  : Prop := follows (prog_of sha (jobs j)) (trace j h) (Ret r).

(** Call [j] has begun and has not returned. *)
Definition in_progress (sha : list N -> list N) (jobs : nat -> job) (h : list event) (j : nat) : Prop :=
  trace j h <> [] /\ exists o k, follows (prog_of sha (jobs j)) (trace j h) (Do o k).

(** At no time are more than [n] calls in progress. *)
Definition overlap_at_most (n : nat) (sha : list N -> list N) (jobs : nat -> job) (h : list event)
  : Prop :=
  forall h1 h2 l, h = h1 ++ h2 -> NoDup l -> (forall j, In j l -> in_progress sha jobs h1 j) ->
    (length l <= n)%nat.

(** Call [j] asked the upstream CMM. *)
Definition asked_upstream (h : list event) (j : nat) : Prop :=
  exists o r, In (o, r) (trace j h) /\
  match o with XUpEnc _ => True | XUpDec _ => True | _ => False end.

(** Call [j] obtained encryption materials from entry [p]. *)
Definition served (h : list event) (j p : nat) : Prop :=
  exists ctx ctx' m, In (XCache (KGetEnc p ctx), REnc ctx' (Ok m)) (trace j h).
Definition served_dec (h : list event) (j p : nat) : Prop :=
  exists m, In (XCache (KGetDec p), RDec (Ok m)) (trace j h).

(** Declared plaintext size of a call. *)
Definition size_of (j : job) : N := match j with GenJob _ rq => rq_psize rq | _ => 0 end.
Definition total_size (jobs : nat -> job) (l : list nat) : N :=
  fold_right (fun j a => size_of (jobs j) + a) 0 l.

(** Handles that could not be given back because locking the mutex failed. *)
Definition leaked (h : list (cop * resp)) (p : nat) : nat :=
  length (filter (fun x => match x with (KRelease q _, RLeak) => Nat.eqb q p | _ => false end) h).

(** Equivalent requests. *)
Definition same_enc_request (m1 m2 : caching) (r1 r2 : enc_request) : Prop :=
  cm_partition m1 = cm_partition m2 /\ rq_alg r1 = rq_alg r2 /\ same_map (rq_ctx r1) (rq_ctx r2).
Definition same_dec_request (m1 m2 : caching) (r1 r2 : dec_request) : Prop :=
  cm_partition m1 = cm_partition m2 /\ dq_alg r1 = dq_alg r2 /\ same_map (dq_ctx r1) (dq_ctx r2)
  /\ Permutation (dq_edks r1) (dq_edks r2).

(** The byte strings hashed while computing the cache id of a request. *)
Definition enc_hashed (sha : list N -> list N) (m : caching) (rq : enc_request) : list (list N) :=
  match enc_ctx_serialize 65535 0 (rq_ctx rq) with
  | Ok ser => [ser; cm_partition m ++ (if rq_alg rq =? 0 then [0] else 1 :: be_bytes 2 (rq_alg rq)) ++ sha ser]
  | Err _ => []
  end.
Definition dec_hashed (sha : list N -> list N) (m : caching) (rq : dec_request) : list (list N) :=
  match enc_ctx_serialize 65535 0 (dq_ctx rq), edk_hashes sha (dq_edks rq) with
  | Ok ser, Ok hs =>
      ser :: map wire_edk (dq_edks rq) ++
      [cm_partition m ++ be_bytes 2 (dq_alg rq) ++ concat (digest_sort hs) ++ repeat 0 64 ++ sha ser]
  | _, _ => []
  end.
(** The hash behaves on the strings [l]: 64 bytes of output, no collision. *)
Definition good_hash (sha : list N -> list N) (l : list (list N)) : Prop :=
  (forall x, In x l -> length (sha x) = 64%nat)
  /\ forall x y, In x l -> In y l -> sha x = sha y -> x = y.

(** The same materials, the signature context rebuilt from its serialised key. *)
Definition same_enc_mat (io : sigio) (m0 m : enc_mat) : Prop :=
  em_key m = em_key m0 /\ em_edks m = em_edks m0 /\ em_alg m = em_alg m0 /\ em_trace m = em_trace m0 /\
  match em_sig m0 with
  | None => em_sig m = None
  | Some sc => exists k, si_priv io sc = Ok k /\ si_sign io (em_alg m0) k = Ok (em_sig m)
  end.
Definition same_dec_mat (io : sigio) (m0 m : dec_mat) : Prop :=
  dm_key m = dm_key m0 /\ dm_alg m = dm_alg m0 /\ dm_trace m = dm_trace m0 /\
  match dm_sig m0 with
  | None => dm_sig m = None
  | Some sc => exists k, si_pub io sc = Ok k /\ si_verify io (dm_alg m0) k = Ok (dm_sig m)
  end.

(** Encryption contexts are tables: in requests and in the answers of the upstream CMM no key
    occurs twice. *)
Definition tables (jobs : nat -> job) (h : list event) : Prop :=
  (forall j m rq, jobs j = GenJob m rq -> distinct_keys (rq_ctx rq))
  /\ (forall j m rq, jobs j = DecJob m rq -> distinct_keys (dq_ctx rq))
  /\ forall j rq ctx r, In (XUpEnc rq, REnc ctx r) (trace j h) -> distinct_keys ctx.

(** The caching CMM a call is made on. *)
Definition cmm_of (j : job) : option caching :=
  match j with GenJob m _ => Some m | DecJob m _ => Some m | ClearJob => None end.

(** The request passed on: the same except possibly for the context, which a failed attempt to use
    the cache may have changed. *)
Definition passed_on (rq rq' : enc_request) (t : list (xop * resp)) : Prop :=
  rq_alg rq' = rq_alg rq /\ rq_psize rq' = rq_psize rq /\ rq_policy rq' = rq_policy rq /\
  (rq_ctx rq' = rq_ctx rq \/
   exists p e, In (XCache (KGetEnc p (rq_ctx rq)), REnc (rq_ctx rq') (Err e)) t).

(** An interaction that asked the upstream CMM or obtained materials from the cache. *)
Definition used_source (x : xop * resp) : Prop :=
  match x with
  | (XUpEnc _, _) => True
  | (XUpDec _, _) => True
  | (XCache (KGetEnc _ _), REnc _ (Ok _)) => True
  | (XCache (KGetDec _), RDec (Ok _)) => True
  | _ => False
  end.

(** What a call hashes for its cache id; [no_collision]: the hash behaves on everything hashed by
    any two calls. *)
Definition hashed_by (sha : list N -> list N) (j : job) : list (list N) :=
  match j with GenJob m rq => enc_hashed sha m rq | DecJob m rq => dec_hashed sha m rq | ClearJob => [] end.
Definition no_collision (sha : list N -> list N) (jobs : nat -> job) : Prop :=
  forall j1 j2, good_hash sha (hashed_by sha (jobs j1) ++ hashed_by sha (jobs j2)).
(** Partition ids are 64 bytes, suite ids 16 bits (their C types). *)
Definition typed (jobs : nat -> job) : Prop :=
  (forall j m rq, jobs j = GenJob m rq -> length (cm_partition m) = 64%nat /\ rq_alg rq < 65536)
  /\ forall j m rq, jobs j = DecJob m rq -> length (cm_partition m) = 64%nat /\ dq_alg rq < 65536.

(** Locking the mutex always succeeds. *)
Definition locks (ch : choice) : Prop := ch_lock ch = true.
(** Bounds on the configured limits. *)
Definition within_limits (jobs : nat -> job) (B M : N) : Prop :=
  forall j m rq, jobs j = GenJob m rq -> cm_limit_bytes m <= B /\ cm_limit_msgs m <= M.
