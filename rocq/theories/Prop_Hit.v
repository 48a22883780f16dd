(** C71: entries stay in the cache until there is a reason to remove them, and are used.
    C72: configuration of the caching CMM.
    Specification: CacheSpec.v, CachingSpec.v, CacheHitSpec.v.  Example data: CacheExamples.v,
    CacheHitExamples.v. *)
From Verif Require Import Base BaseProofs AlgModel EncCtxModel HdrModel CryptoModel SessionModel KeyringModel
  WireSpec CacheModel CacheSpec CachingModel CachingSpec CacheHitSpec CacheProofs CachingProofs CacheHit CacheConf
  SessionExamples StreamExamples CacheExamples CacheHitExamples.
From Coq Require Import Permutation.
Import List ListNotations.
Open Scope list_scope. Open Scope N_scope.

(** ** C71 *)
(** An operation removes an entry from the cache only by clearing it, on request, by replacing it, to make room in a
    full cache, or because its time has come. *)
Theorem C71_leaves_for_a_reason : forall io P cap h c o ch c' r id p e,
  runs io P (new_cache cap) h c -> legal (h ++ [(o, r)]) ->
  cstep io ch o c = Some (c', r) -> live c id p -> c_store c p = Some e -> ~ live c' id p ->
  may_remove o ch c id p e.
Proof. exact leaves_lemma. Qed.
Print Assumptions C71_leaves_for_a_reason.

(** A lookup finds the entry that is in the cache under the id, unless locking fails or the entry's time has come. *)
Theorem C71_lookup_finds : forall io P cap h c ch id p e,
  runs io P (new_cache cap) h c -> legal h -> live c id p -> c_store c p = Some e ->
  ch_lock ch = true -> (forall now, ch_clock ch = Some now -> now < ce_expiry e \/ ce_expiry e = NO_EXPIRY) ->
  exists c', cstep io ch (KFind id) c = Some (c', RFound (Some (p, is_enc (ce_mat e)))) /\ live c' id p.
Proof. exact lookup_lemma. Qed.
Print Assumptions C71_lookup_finds.

(** A put in an environment that works stores the entry under the id, with the materials and the usage given, whatever
    else it has to remove. *)
Theorem C71_put_stores : forall io P cap h c ch o id mat now,
  runs io P (new_cache cap) h c -> legal h ->
  match o with
  | KPutEnc m b n ctx i => id = i /\ cache_enc io m ctx = Some mat
  | KPutDec m i => id = i /\ cache_dec io m = Some mat
  | _ => False
  end ->
  ch_lock ch = true -> ch_mem ch = true -> ch_insert ch = true -> ch_clock ch = Some now ->
  exists c' p e, cstep io ch o c = Some (c', RPut (Some p)) /\ live c' id p /\ c_store c' p = Some e
    /\ ce_mat e = mat /\ ce_created e = now /\ ce_expiry e = NO_EXPIRY
    /\ match o with KPutEnc _ b n _ _ => ce_bytes e = b /\ ce_msgs e = n | _ => True end.
Proof. exact put_lemma. Qed.
Print Assumptions C71_put_stores.

(** Clearing removes everything. *)
Theorem C71_clear_empties : forall io P cap h c ch,
  runs io P (new_cache cap) h c -> legal h -> ch_lock ch = true ->
  exists c', cstep io ch KClear c = Some (c', RUnit) /\ (forall id p, ~ live c' id p) /\ c_lru c' = [] /\ c_heap c' = []
    /\ forall ch', ch_lock ch' = true -> cstep io ch' KCount c' = Some (c', RNum 0).
Proof. exact clear_lemma. Qed.
Print Assumptions C71_clear_empties.

(** A call made alone, in an environment that works, uses the entry that is in the cache for its request if the limits
    allow it: the upstream CMM is not asked.  When the call returns, the entry is still there, with one message and the
    plaintext of the request added to its usage, and the same references; if that was the last message allowed, it has
    been removed. *)
Theorem C71_encrypt_entry_is_used : forall io sha P cap jobs h1 h2 c1 c j m rq id p e m0 ctx0 key t0 t1,
  exec io sha P cap jobs h1 c1 -> exec io sha P cap jobs (h1 ++ h2) c ->
  trace j h1 = [] -> alone j h2 -> Forall (smooth t0 t1) h2 ->
  jobs j = GenJob m rq -> c_types m -> known_suite (rq_alg rq) -> enc_cache_id sha m rq = Ok id ->
  live c1 id p -> c_store c1 p = Some e -> ce_mat e = CachedEnc m0 ctx0 key ->
  t1 < ce_expiry e \/ ce_expiry e = NO_EXPIRY -> ce_created e < two64 -> usable m (ce_created e) t1 ->
  ce_bytes e + rq_psize rq <= cm_limit_bytes m -> ce_msgs e + 1 <= cm_limit_msgs m ->
  (forall k, key = Some k -> exists sc, si_sign io (em_alg m0) k = Ok sc) ->
  ~ asked_upstream (h1 ++ h2) j /\
  forall r, returns sha jobs (h1 ++ h2) j r ->
    served (h1 ++ h2) j p /\ (exists ctx mat, r = JEnc ctx (COk mat))
    /\ (ce_msgs e + 1 < cm_limit_msgs m -> kept m c id p e (rq_psize rq) 1)
    /\ (ce_msgs e + 1 = cm_limit_msgs m -> ~ live c id p).
Proof. exact enc_entry_used. Qed.
Print Assumptions C71_encrypt_entry_is_used.

Theorem C71_decrypt_entry_is_used : forall io sha P cap jobs h1 h2 c1 c j m rq id p e m0 key t0 t1,
  exec io sha P cap jobs h1 c1 -> exec io sha P cap jobs (h1 ++ h2) c ->
  trace j h1 = [] -> alone j h2 -> Forall (smooth t0 t1) h2 ->
  jobs j = DecJob m rq -> c_types m -> can_cache (dq_alg rq) <> None -> dec_cache_id sha m rq = Ok id ->
  live c1 id p -> c_store c1 p = Some e -> ce_mat e = CachedDec m0 key ->
  t1 < ce_expiry e \/ ce_expiry e = NO_EXPIRY -> ce_created e < two64 -> usable m (ce_created e) t1 ->
  (forall k, key = Some k -> exists sc, si_verify io (dm_alg m0) k = Ok sc) ->
  ~ asked_upstream (h1 ++ h2) j /\
  forall r, returns sha jobs (h1 ++ h2) j r ->
    served_dec (h1 ++ h2) j p /\ (exists mat, r = JDec (COk mat)) /\ kept m c id p e 0 0.
Proof. exact dec_entry_used. Qed.
Print Assumptions C71_decrypt_entry_is_used.

(** The second of two equal requests, made one after the other after any history, is answered without the upstream CMM
    and with the materials of the first. *)
Theorem C71_second_encryption : forall io sha P cap jobs h1 h2 h3 c j0 j m0 m rq0 rq ctx mat t0 t1,
  exec io sha P cap jobs (h1 ++ h2 ++ h3) c -> j <> j0 ->
  trace j0 h1 = [] -> alone j0 h2 -> trace j h1 = [] -> alone j h3 -> Forall (smooth t0 t1) (h2 ++ h3) ->
  jobs j0 = GenJob m0 rq0 -> jobs j = GenJob m rq -> c_types m0 -> c_types m -> same_enc_request m0 m rq0 rq ->
  distinct_keys (rq_ctx rq0) -> distinct_keys (rq_ctx rq) -> distinct_keys ctx ->
  returns sha jobs (h1 ++ h2) j0 (JEnc ctx (COk mat)) -> asked_upstream (h1 ++ h2) j0 -> enc_resumes io mat ->
  t1 < two64 -> t1 < t0 + cm_ttl m0 -> t1 < t0 + cm_ttl m ->
  rq_psize rq0 <= cm_limit_bytes m0 -> rq_psize rq0 + rq_psize rq <= cm_limit_bytes m -> 2 <= cm_limit_msgs m ->
  ~ asked_upstream (h1 ++ h2 ++ h3) j /\
  forall r, returns sha jobs (h1 ++ h2 ++ h3) j r ->
    exists ctx' mat', r = JEnc ctx' (COk mat') /\ same_enc_mat io mat mat' /\ same_map ctx' ctx.
Proof. exact second_encryption. Qed.
Print Assumptions C71_second_encryption.

Theorem C71_second_decryption : forall io sha P cap jobs h1 h2 h3 c j0 j m0 m rq0 rq mat t0 t1,
  exec io sha P cap jobs (h1 ++ h2 ++ h3) c -> j <> j0 ->
  trace j0 h1 = [] -> alone j0 h2 -> trace j h1 = [] -> alone j h3 -> Forall (smooth t0 t1) (h2 ++ h3) ->
  jobs j0 = DecJob m0 rq0 -> jobs j = DecJob m rq -> c_types m0 -> c_types m -> same_dec_request m0 m rq0 rq ->
  distinct_keys (dq_ctx rq0) -> distinct_keys (dq_ctx rq) ->
  returns sha jobs (h1 ++ h2) j0 (JDec (COk mat)) -> asked_upstream (h1 ++ h2) j0 -> dec_resumes io mat ->
  t1 < two64 -> t1 < t0 + cm_ttl m0 -> t1 < t0 + cm_ttl m ->
  ~ asked_upstream (h1 ++ h2 ++ h3) j /\
  forall r, returns sha jobs (h1 ++ h2 ++ h3) j r -> exists mat', r = JDec (COk mat') /\ same_dec_mat io mat mat'.
Proof. exact second_decryption. Qed.
Print Assumptions C71_second_decryption.

(** Any number of equal requests, made one after the other after any history, cost one request to the upstream CMM as
    long as the limits on messages and bytes are not exceeded. *)
Theorem C71_many_encryptions : forall io sha P cap jobs h1 h2 hs c j0 js m0 rq0 ctx mat t0 t1,
  exec io sha P cap jobs (h1 ++ h2 ++ concat hs) c -> NoDup (j0 :: js) ->
  (forall j, In j (j0 :: js) -> trace j h1 = []) -> Forall2 alone (j0 :: js) (h2 :: hs) ->
  Forall (smooth t0 t1) h2 -> Forall (Forall (smooth t0 t1)) hs ->
  jobs j0 = GenJob m0 rq0 -> c_types m0 -> distinct_keys (rq_ctx rq0) -> distinct_keys ctx ->
  returns sha jobs (h1 ++ h2) j0 (JEnc ctx (COk mat)) -> asked_upstream (h1 ++ h2) j0 -> enc_resumes io mat ->
  t1 < two64 -> t1 < t0 + cm_ttl m0 -> rq_psize rq0 <= cm_limit_bytes m0 ->
  (forall j, In j js -> exists m rq, jobs j = GenJob m rq /\ c_types m /\ same_enc_request m0 m rq0 rq
     /\ distinct_keys (rq_ctx rq) /\ t1 < t0 + cm_ttl m /\ asked_bytes jobs (j0 :: js) <= cm_limit_bytes m
     /\ Nlen (j0 :: js) <= cm_limit_msgs m) ->
  (forall j, In j js -> exists r, returns sha jobs (h1 ++ h2 ++ concat hs) j r) ->
  forall j, In j js -> ~ asked_upstream (h1 ++ h2 ++ concat hs) j /\
    exists ctx' mat', returns sha jobs (h1 ++ h2 ++ concat hs) j (JEnc ctx' (COk mat'))
      /\ same_enc_mat io mat mat' /\ same_map ctx' ctx.
Proof. exact many_encryptions. Qed.
Print Assumptions C71_many_encryptions.

Theorem C71_many_decryptions : forall io sha P cap jobs h1 h2 hs c j0 js m0 rq0 mat t0 t1,
  exec io sha P cap jobs (h1 ++ h2 ++ concat hs) c -> NoDup (j0 :: js) ->
  (forall j, In j (j0 :: js) -> trace j h1 = []) -> Forall2 alone (j0 :: js) (h2 :: hs) ->
  Forall (smooth t0 t1) h2 -> Forall (Forall (smooth t0 t1)) hs ->
  jobs j0 = DecJob m0 rq0 -> c_types m0 -> distinct_keys (dq_ctx rq0) ->
  returns sha jobs (h1 ++ h2) j0 (JDec (COk mat)) -> asked_upstream (h1 ++ h2) j0 -> dec_resumes io mat ->
  t1 < two64 -> t1 < t0 + cm_ttl m0 ->
  (forall j, In j js -> exists m rq, jobs j = DecJob m rq /\ c_types m /\ same_dec_request m0 m rq0 rq
     /\ distinct_keys (dq_ctx rq) /\ t1 < t0 + cm_ttl m) ->
  (forall j, In j js -> exists r, returns sha jobs (h1 ++ h2 ++ concat hs) j r) ->
  forall j, In j js -> ~ asked_upstream (h1 ++ h2 ++ concat hs) j /\
    exists mat', returns sha jobs (h1 ++ h2 ++ concat hs) j (JDec (COk mat')) /\ same_dec_mat io mat mat'.
Proof. exact many_decryptions. Qed.
Print Assumptions C71_many_decryptions.

(** Calls 1 and 2 are served from the entry of call 0, the third using up both limits; calls 4 and 5 from that of call
    3. *)
Example C71_many_example : (exists c, exec toy_io len_hash locks 10 t_jobs ([] ++ tt1 ++ concat [tt2; tt3]) c)
  /\ Forall2 alone [0%nat; 1%nat; 2%nat] [tt1; tt2; tt3] /\ Forall (smooth 10 34) tt1 /\ Forall (Forall (smooth 10 34)) [tt2; tt3]
  /\ returns len_hash t_jobs ([] ++ tt1) 0 (JEnc a_ctx (COk a_mat)) /\ asked_upstream ([] ++ tt1) 0 /\ enc_resumes toy_io a_mat
  /\ 34 < 10 + cm_ttl a_cmm /\ same_enc_request a_cmm a_cmm (a_rq 300) (a_rq 400)
  /\ asked_bytes t_jobs [0%nat; 1%nat; 2%nat] = cm_limit_bytes a_cmm /\ Nlen [0%nat; 1%nat; 2%nat] = cm_limit_msgs a_cmm
  /\ returns len_hash t_jobs ([] ++ tt1 ++ concat [tt2; tt3]) 1 (JEnc a_ctx' (COk a_mat))
  /\ returns len_hash t_jobs ([] ++ tt1 ++ concat [tt2; tt3]) 2 (JEnc a_ctx' (COk a_mat)).
Proof. exact many_enc_example. Qed.

Example C71_many_decrypt_example :
  (exists c, exec toy_io len_hash locks 10 t_jobs ((tt1 ++ tt2 ++ tt3) ++ tt4 ++ concat [tt5; tt6]) c)
  /\ Forall2 alone [3%nat; 4%nat; 5%nat] [tt4; tt5; tt6]
  /\ (forall j, In j [3%nat; 4%nat; 5%nat] -> trace j (tt1 ++ tt2 ++ tt3) = [])
  /\ Forall (smooth 40 53) tt4 /\ Forall (Forall (smooth 40 53)) [tt5; tt6]
  /\ returns len_hash t_jobs ((tt1 ++ tt2 ++ tt3) ++ tt4) 3 (JDec (COk a_dmat))
  /\ asked_upstream ((tt1 ++ tt2 ++ tt3) ++ tt4) 3 /\ dec_resumes toy_io a_dmat
  /\ 53 < 40 + cm_ttl a_cmm /\ 53 < 40 + cm_ttl b_cmm
  /\ same_dec_request a_cmm b_cmm (mk_dec_request 0x0578 [edk1; edk2] toy_ctx)
                                  (mk_dec_request 0x0578 [edk2; edk1] (rev toy_ctx))
  /\ returns len_hash t_jobs ((tt1 ++ tt2 ++ tt3) ++ tt4 ++ concat [tt5; tt6]) 4 (JDec (COk a_dmat))
  /\ returns len_hash t_jobs ((tt1 ++ tt2 ++ tt3) ++ tt4 ++ concat [tt5; tt6]) 5 (JDec (COk a_dmat)).
Proof. exact many_dec_example. Qed.

(** Call 0 asks the upstream CMM and call 1, for an equal request, is served; then the same for decryption, with EDKs
    and context in another order. *)
Example C71_encrypt_example : (exists c, exec toy_io len_hash locks 10 a_jobs ([] ++ s1 ++ s2) c)
  /\ alone 0 s1 /\ alone 1 s2 /\ Forall (smooth 10 31) (s1 ++ s2)
  /\ a_jobs 0%nat = GenJob a_cmm (a_rq 300) /\ a_jobs 1%nat = GenJob a_cmm (a_rq 400) /\ c_types a_cmm
  /\ same_enc_request a_cmm a_cmm (a_rq 300) (a_rq 400) /\ distinct_keys toy_ctx /\ distinct_keys a_ctx
  /\ returns len_hash a_jobs s1 0 (JEnc a_ctx (COk a_mat)) /\ asked_upstream s1 0 /\ enc_resumes toy_io a_mat
  /\ 31 < 10 + cm_ttl a_cmm /\ rq_psize (a_rq 300) + rq_psize (a_rq 400) <= cm_limit_bytes a_cmm
  /\ 2 <= cm_limit_msgs a_cmm
  /\ returns len_hash a_jobs (s1 ++ s2) 1 (JEnc a_ctx' (COk a_mat)) /\ served (s1 ++ s2) 1 0
  /\ (exists c id e, exec toy_io len_hash locks 10 a_jobs s1 c /\ enc_cache_id len_hash a_cmm (a_rq 400) = Ok id
        /\ live c id 0 /\ c_store c 0%nat = Some e /\ is_enc (ce_mat e) = true /\ usable a_cmm (ce_created e) 31
        /\ 31 < ce_expiry e /\ ce_bytes e + 400 <= cm_limit_bytes a_cmm /\ ce_msgs e + 1 <= cm_limit_msgs a_cmm).
Proof. exact enc_example. Qed.

Example C71_decrypt_example : (exists c, exec toy_io len_hash locks 10 a_jobs ((s1 ++ s2) ++ s3 ++ s4) c)
  /\ alone 2 s3 /\ alone 3 s4 /\ trace 2 (s1 ++ s2) = [] /\ trace 3 (s1 ++ s2) = [] /\ Forall (smooth 40 51) (s3 ++ s4)
  /\ a_jobs 2%nat = DecJob a_cmm (mk_dec_request 0x0578 [edk1; edk2] toy_ctx)
  /\ a_jobs 3%nat = DecJob b_cmm (mk_dec_request 0x0578 [edk2; edk1] (rev toy_ctx)) /\ c_types a_cmm /\ c_types b_cmm
  /\ same_dec_request a_cmm b_cmm (mk_dec_request 0x0578 [edk1; edk2] toy_ctx)
                                  (mk_dec_request 0x0578 [edk2; edk1] (rev toy_ctx))
  /\ distinct_keys toy_ctx /\ distinct_keys (rev toy_ctx)
  /\ returns len_hash a_jobs ((s1 ++ s2) ++ s3) 2 (JDec (COk a_dmat)) /\ asked_upstream ((s1 ++ s2) ++ s3) 2
  /\ dec_resumes toy_io a_dmat /\ 51 < 40 + cm_ttl a_cmm /\ 51 < 40 + cm_ttl b_cmm
  /\ returns len_hash a_jobs ((s1 ++ s2) ++ s3 ++ s4) 3 (JDec (COk a_dmat)).
Proof. exact dec_example. Qed.

(** In a full cache of capacity 2, a put removes an entry, a lookup keeps the other. *)
Example C71_cache_example : runs toy_io any_env (new_cache 2) l_hist l_cache /\ legal l_hist
  /\ (exists e, live l_cache [1] 1 /\ c_store l_cache 1%nat = Some e
      /\ (exists c', cstep toy_io (env_at 5) (KFind [1]) l_cache = Some (c', RFound (Some (1%nat, is_enc (ce_mat e))))))
  /\ (exists c', cstep toy_io (env_at 5) (KPutEnc a_mat 1 1 toy_ctx [77]) l_cache = Some (c', RPut (Some 2%nat))
       /\ ~ live c' [1] 1 /\ live c' [0] 0 /\ live c' [77] 2)
  /\ (exists c', cstep toy_io (env_at 5) KClear l_cache = Some (c', RUnit) /\ c_map c' = []).
Proof. exact cache_example. Qed.

(** ** C72 *)
(** What creation and the setters accept, and what they change. *)
Theorem C72_limit_bytes : forall n m,
  match set_limit_bytes n m with
  | Ok m' => n <= 2 ^ 63 - 1 /\ cm_limit_bytes m' = n /\ cm_limit_msgs m' = cm_limit_msgs m /\ cm_ttl m' = cm_ttl m
             /\ cm_partition m' = cm_partition m
  | Err e => e = E_INVALID_ARGUMENT /\ 2 ^ 63 - 1 < n
  end.
Proof. exact set_bytes_spec. Qed.
Print Assumptions C72_limit_bytes.

Theorem C72_limit_messages : forall n m,
  match set_limit_messages n m with
  | Ok m' => 1 <= n <= 2 ^ 32 /\ cm_limit_msgs m' = n /\ cm_limit_bytes m' = cm_limit_bytes m /\ cm_ttl m' = cm_ttl m
             /\ cm_partition m' = cm_partition m
  | Err e => e = E_INVALID_ARGUMENT /\ (n = 0 \/ 2 ^ 32 < n)
  end.
Proof. exact set_msgs_spec. Qed.
Print Assumptions C72_limit_messages.

Theorem C72_time_limit : forall ttl unit m,
  match set_ttl ttl unit m with
  | Ok m' => ttl <> 0 /\ time_unit unit /\ lasts (cm_ttl m') ttl unit /\ cm_limit_bytes m' = cm_limit_bytes m
             /\ cm_limit_msgs m' = cm_limit_msgs m /\ cm_partition m' = cm_partition m
  | Err e => e = E_INVALID_ARGUMENT /\ (ttl = 0 \/ ~ time_unit unit)
  end.
Proof. exact set_ttl_spec. Qed.
Print Assumptions C72_time_limit.

Theorem C72_creation : forall part ttl unit,
  match caching_new part ttl unit with
  | Ok m => ttl <> 0 /\ time_unit unit /\ lasts (cm_ttl m) ttl unit /\ cm_limit_bytes m = 2 ^ 63 - 1
            /\ cm_limit_msgs m = 2 ^ 32 /\ cm_partition m = part
  | Err e => e = E_INVALID_ARGUMENT /\ (ttl = 0 \/ ~ time_unit unit)
  end.
Proof. exact new_spec. Qed.
Print Assumptions C72_creation.

(** However an application configures a caching CMM, its limits stay within the documented ranges. *)
Theorem C72_configured_ranges : forall m, configured m ->
  1 <= cm_limit_msgs m <= 2 ^ 32 /\ cm_limit_bytes m <= 2 ^ 63 - 1 /\ 1 <= cm_ttl m <= 2 ^ 64 - 1.
Proof. exact configured_bounds. Qed.
Print Assumptions C72_configured_ranges.

(** So the usage limits (C36) hold for all configurations when calls do not overlap: no counter can wrap. *)
Theorem C72_sequential_limits : forall io sha cap jobs h c,
  exec io sha locks cap jobs h c -> overlap_at_most 1 sha jobs h -> all_configured jobs ->
  forall p j0 mat b n ctx id ch, In (mk_ev j0 (XCache (KPutEnc mat b n ctx id)) (RPut (Some p)) ch) h ->
  forall l, l <> [] -> NoDup l -> (forall j, In j l -> served h j p) ->
  (exists j m rq, In j l /\ jobs j = GenJob m rq /\ b + total_size jobs l <= cm_limit_bytes m)
  /\ (exists j m rq, In j l /\ jobs j = GenJob m rq /\ n + Nlen l <= cm_limit_msgs m).
Proof. exact configured_sequential. Qed.
Print Assumptions C72_sequential_limits.

Example C72_example : (exists m, caching_new part_id 90 1 = Ok m /\ cm_ttl m = 90000000000 /\ configured m
    /\ (exists m', set_limit_messages 5 m = Ok m' /\ configured m' /\ set_limit_messages (2 ^ 32 + 1) m' = Err E_INVALID_ARGUMENT)
    /\ (exists m', set_ttl (2 ^ 62) 1000 m = Ok m' /\ cm_ttl m' = UINT64_MAX)
    /\ set_ttl 3 60 m = Err E_INVALID_ARGUMENT /\ set_limit_bytes (2 ^ 63) m = Err E_INVALID_ARGUMENT)
  /\ all_configured a_jobs.
Proof. exact conf_example. Qed.

Example C72_sequential_example : (exists c, exec toy_io len_hash locks 10 a_jobs s_hist c)
  /\ overlap_at_most 1 len_hash a_jobs s_hist /\ all_configured a_jobs
  /\ (exists mat ctx id ch, In (mk_ev 0 (XCache (KPutEnc mat 300 1 ctx id)) (RPut (Some 0%nat)) ch) s_hist)
  /\ served s_hist 1 0.
Proof. exact sequential_example. Qed.
