(** Properties C32-C38 and C57: the local materials cache and the caching CMM.
    Specification: CacheSpec.v, CachingSpec.v.  Example data: CacheExamples.v. *)
From Verif Require Import Base BaseProofs AlgModel EncCtxModel HdrModel CryptoModel SessionModel KeyringModel
  WireSpec CacheModel CachingModel CacheSpec CachingSpec CacheProofs CacheTheorems CachingProofs CachingUsage
  CachingOrigin CachingTheorems CachingHash CachingAnswers SessionExamples StreamExamples KeyringExamples CacheExamples.
From Coq Require Import Permutation Lia.
Import List ListNotations.
Open Scope list_scope.
Open Scope N_scope.

(** ** C32 *)
(** After any lawful history: at most capacity entries; table, LRU list and expiry queue agree. *)
Theorem C32_cache_consistent : forall io P cap h c, runs io P (new_cache cap) h c -> legal h ->
  Nlen (c_map c) <= N.max 2 cap
  /\ NoDup (map fst (c_map c)) /\ NoDup (map snd (c_map c))
  /\ Permutation (map snd (c_map c)) (c_lru c)
  /\ NoDup (c_heap c)
  /\ (forall p, In p (c_heap c) <->
        exists id e, live c id p /\ c_store c p = Some e /\ ce_expiry e <> NO_EXPIRY)
  /\ (forall id p, live c id p -> exists e, c_store c p = Some e /\ ce_id e = id /\ ce_zombie e = false).
Proof. exact cache_consistent. Qed.
Print Assumptions C32_cache_consistent.

(** An entry that has left the cache is never found again. *)
Theorem C32_removed_not_found : forall io P cap h c o p, runs io P (new_cache cap) h c ->
  In (o, RPut (Some p)) h -> (forall id, ~ live c id p) ->
  forall h2 c2, runs io P c h2 c2 -> legal (h ++ h2) ->
  (forall id, ~ live c2 id p) /\ forall o b, ~ In (o, RFound (Some (p, b))) h2.
Proof. exact dead_not_found. Qed.
Print Assumptions C32_removed_not_found.

(** A release that invalidates takes the entry out of the cache. *)
Theorem C32_invalidated_is_removed : forall io P cap h c p, runs io P (new_cache cap) (h ++ [(KRelease p true, RUnit)]) c ->
  legal (h ++ [(KRelease p true, RUnit)]) -> forall id, ~ live c id p.
Proof. exact invalidated_dead. Qed.
Print Assumptions C32_invalidated_is_removed.

(** A lookup returns an entry stored under the id asked for. *)
Theorem C32_lookup_returns_the_id : forall io P cap h c id p b,
  runs io P (new_cache cap) (h ++ [(KFind id, RFound (Some (p, b)))]) c ->
  legal (h ++ [(KFind id, RFound (Some (p, b)))]) ->
  live c id p /\ exists e, c_store c p = Some e /\ ce_id e = id /\ ce_zombie e = false /\ b = is_enc (ce_mat e).
Proof. exact found_right_id. Qed.
Print Assumptions C32_lookup_returns_the_id.

(** Capacity 2; the third put evicts entry 1, entry 0 expires, entry 2 is invalidated. *)
Example C32_example : runs toy_io any_env (new_cache 2) b_hist b_cache /\ legal b_hist
  /\ c_map b_cache = [] /\ c_freed b_cache = [1%nat]
  /\ c_map l_cache = [([1], 1%nat); ([0], 0%nat)] /\ c_lru l_cache = [0; 1]%nat.
Proof. split; [exact (proj1 b_runs)|]. split; [exact (proj2 b_runs)|]. vm_compute. auto. Qed.
Example C32_nine_live : runs toy_io any_env (new_cache 100) e_hist e_cache /\ legal e_hist
  /\ Nlen (c_map e_cache) = 9 /\ Nlen (c_heap e_cache) = 9.
Proof. split; [exact (proj1 e_runs)|]. split; [exact (proj2 e_runs)|]. vm_compute. auto. Qed.

(** ** C33 *)
(** After any lawful history: nothing has been destroyed twice; exactly those entries have been destroyed that are neither in
    the cache nor held; what is held or in the cache is in memory; and every further lawful operation is defined. *)
Theorem C33_entry_lifetime : forall io P cap h c, runs io P (new_cache cap) h c -> legal h ->
  NoDup (c_freed c)
  /\ (forall p, (p < c_next c)%nat ->
        (In p (c_freed c) <-> (forall id, ~ live c id p) /\ ~ held h p))
  /\ (forall p, In p (c_freed c) -> c_store c p = None)
  /\ (forall p, held h p -> c_store c p <> None)
  /\ (forall id p, live c id p -> c_store c p <> None)
  /\ forall ch o, (forall p, uses o = Some p -> held h p) -> cstep io ch o c <> None.
Proof. exact entry_lifetime. Qed.
Print Assumptions C33_entry_lifetime.

(** Caching CMMs use the cache lawfully, however their calls interleave. *)
Theorem C33_caching_cmm_is_lawful : forall io sha P cap jobs h c, exec io sha P cap jobs h c ->
  runs io P (new_cache cap) (cache_ops h) c /\ legal (cache_ops h).
Proof. intros. split; [eapply exec_runs|eapply exec_legal]; eassumption. Qed.
Print Assumptions C33_caching_cmm_is_lawful.

(** When all calls have returned, every handle has been given back, except those whose release could not lock the mutex. *)
Theorem C33_caching_cmm_returns_handles : forall io sha P cap jobs h c, exec io sha P cap jobs h c ->
  (forall j, trace j h = [] \/ exists r, returns sha jobs h j r) ->
  forall p, acquired (cache_ops h) p = (released (cache_ops h) p + leaked (cache_ops h) p)%nat.
Proof. exact exec_done_released. Qed.
Print Assumptions C33_caching_cmm_returns_handles.

(** Entries 0 and 2 have left the cache but are still held; entry 1 was evicted while held and destroyed when released. *)
Example C33_example : runs toy_io any_env (new_cache 2) b_hist b_cache /\ legal b_hist
  /\ c_freed b_cache = [1%nat] /\ held b_hist 0 /\ held b_hist 2 /\ ~ held b_hist 1.
Proof. split; [exact (proj1 b_runs)|]. split; [exact (proj2 b_runs)|]. vm_compute. repeat split; lia. Qed.
(** Five calls, partly at the same time, all of which return. *)
Example C33_calls_example : (exists c, exec toy_io len_hash locks 10 a_jobs a_hist c)
  /\ (forall j, trace j a_hist = [] \/ exists r, returns len_hash a_jobs a_hist j r)
  /\ acquired (cache_ops a_hist) 0 = 3%nat.
Proof.
  destruct a_runs as (c & E & F). split; [eauto|]. split; [|vm_compute; reflexivity].
  destruct a_answers as (A0 & A1 & A2 & A3 & A4). intros j.
  destruct j as [|[|[|[|[|j]]]]]; [right; eexists; hnf; rewrite <- A0; apply F|right; eexists; hnf; rewrite <- A1; apply F
    |right; eexists; hnf; rewrite <- A2; apply F|right; eexists; hnf; rewrite <- A3; apply F
    |right; eexists; hnf; rewrite <- A4; apply F|left].
  vm_compute. reflexivity.
Qed.

(** ** C34 *)
(** A lookup whose clock works returns an entry that has not expired, unless eight other expired entries were in the cache
    (only eight are removed at a time). *)
Theorem C34_lookup_expiry_partial : forall io P cap h c ch id c' p b now,
  runs io P (new_cache cap) h c -> legal h ->
  cstep io ch (KFind id) c = Some (c', RFound (Some (p, b))) -> ch_clock ch = Some now ->
  (exists e, c_store c' p = Some e /\ (ce_expiry e = NO_EXPIRY \/ now < ce_expiry e))
  \/ exists D, NoDup D /\ length D = 8%nat /\ ~ In p D /\
       forall q, In q D -> exists i e, live c i q /\ c_store c q = Some e /\ ce_expiry e <= now.
Proof. exact lookup_expiry. Qed.
Print Assumptions C34_lookup_expiry_partial.

(** With nine expired entries a lookup at time 10 returns an entry that expired at time 5. *)
Theorem C34_lookup_refuted : exists io P cap h c id c' p e,
  runs io P (new_cache cap) h c /\ legal h /\
  cstep io (env_at 10) (KFind id) c = Some (c', RFound (Some (p, true))) /\
  c_store c' p = Some e /\ ce_expiry e = 5.
Proof.
  exists toy_io, any_env, 100, e_hist, e_cache, [8]. eexists. exists 8%nat. eexists.
  split; [exact (proj1 e_runs)|]. split; [exact (proj2 e_runs)|]. split; [vm_compute; reflexivity|].
  split; [vm_compute; reflexivity|reflexivity].
Qed.
Print Assumptions C34_lookup_refuted.

(** A caching CMM serves only entries younger than its TTL, by its own clock, read during the call. *)
Theorem C34_cmm_serves_fresh : forall io sha P cap jobs h c j p, exec io sha P cap jobs h c ->
  (served h j p \/ served_dec h j p) ->
  exists m j0 o0 ch0 created, cmm_of (jobs j) = Some m
    /\ In (mk_ev j0 (XCache o0) (RPut (Some p)) ch0) h /\ ch_clock ch0 = Some created
    /\ (cm_ttl m = UINT64_MAX \/ UINT64_MAX < created + cm_ttl m
        \/ exists now, In (XClock, RClock (Some now)) (trace j h) /\ now < created + cm_ttl m).
Proof. exact served_fresh. Qed.
Print Assumptions C34_cmm_serves_fresh.

(** TTL hints only shorten an entry's life, as long as pushing to the expiry queue succeeds. *)
Theorem C34_hints_shorten_partial : forall io cap h c p e,
  runs io (fun ch => ch_push ch = true) (new_cache cap) h c -> c_store c p = Some e ->
  forall h2 c2 e2, runs io (fun ch => ch_push ch = true) c h2 c2 -> legal (h ++ h2) ->
  c_store c2 p = Some e2 -> ce_expiry e2 <= ce_expiry e /\ ce_created e2 = ce_created e.
Proof. exact hints_shorten_run. Qed.
Print Assumptions C34_hints_shorten_partial.

(** When the push fails, the entry loses its expiry time. *)
Theorem C34_hint_lost_refuted : exists io P cap h c o ch c' r p e e',
  runs io P (new_cache cap) h c /\ legal (h ++ [(o, r)]) /\ cstep io ch o c = Some (c', r) /\
  c_store c p = Some e /\ c_store c' p = Some e' /\ ce_expiry e < ce_expiry e'.
Proof.
  exists toy_io, any_env, 100, e_hist, e_cache, (KHint 0 4), (mk_choice true (Some 3) (Some 3) true true false None).
  do 2 eexists. exists 0%nat. do 2 eexists. split; [exact (proj1 e_runs)|].
  split; [apply legal_snoc; [exact (proj2 e_runs)|]; intros p U; injection U as <-; vm_compute; repeat constructor|].
  split; [vm_compute; reflexivity|]. split; [vm_compute; reflexivity|]. split; [vm_compute; reflexivity|]. vm_compute. reflexivity.
Qed.
Print Assumptions C34_hint_lost_refuted.

(** At time 4 entry 3 is found; at time 10 it has expired and is not. *)
Example C34_lookup_example : exists c' e, cstep toy_io (env_at 4) (KFind [3]) e_cache = Some (c', RFound (Some (3%nat, true)))
  /\ c_store c' 3%nat = Some e /\ ce_expiry e = 5
  /\ exists c'', cstep toy_io (env_at 10) (KFind [3]) e_cache = Some (c'', RFound None).
Proof. do 2 eexists. split; [vm_compute; reflexivity|]. split; [vm_compute; reflexivity|]. split; [reflexivity|].
  eexists. vm_compute. reflexivity. Qed.
Example C34_cmm_example : (exists c, exec toy_io len_hash locks 10 a_jobs a_hist c) /\ served a_hist 1 0 /\ served_dec a_hist 3 1
  /\ In (XClock, RClock (Some 30)) (trace 1 a_hist) /\ cm_ttl a_cmm = 100 /\ cm_ttl b_cmm = UINT64_MAX.
Proof.
  destruct a_runs as (c & E & _). split; [eauto|]. split; [exact a_served1|]. split; [exact a_served3|].
  split; [vm_compute; auto 20|]. split; reflexivity.
Qed.
Example C34_hint_example : forall ch, ch = env_at 3 -> exists c' e', cstep toy_io ch (KHint 0 4) e_cache = Some (c', RUnit)
  /\ c_store c' 0%nat = Some e' /\ ce_expiry e' = 4.
Proof. intros ch ->. do 2 eexists. split; [vm_compute; reflexivity|]. split; [vm_compute; reflexivity|reflexivity]. Qed.

(** ** C35 *)
(** If a put makes an entry under another id leave the cache that had not expired, then the cache is full and every
    entry in it has been found or put more recently. *)
Theorem C35_evicts_least_recently_used : forall io P cap h c o ch c' p,
  runs io P (new_cache cap) h c -> legal (h ++ [(o, RPut (Some p))]) ->
  cstep io ch o c = Some (c', RPut (Some p)) ->
  forall q idq, live c idq q -> (forall id, ~ live c' id q) -> put_id o <> Some idq ->
  (forall e t, c_store c q = Some e -> ch_clock2 ch = Some t -> t < ce_expiry e) ->
  Nlen (c_map c') = c_cap c /\
  forall r idr, live c' idr r -> older (h ++ [(o, RPut (Some p))]) q r.
Proof. exact evicts_lru. Qed.
Print Assumptions C35_evicts_least_recently_used.

(** Entry 1 was put after entry 0, but entry 0 was found since: entry 1 is evicted. *)
Example C35_example : let o := KPutEnc a_mat 1 1 toy_ctx [2] in
  runs toy_io any_env (new_cache 2) l_hist l_cache /\ legal (l_hist ++ [(o, RPut (Some 2%nat))]) /\
  exists c', cstep toy_io (env_at 5) o l_cache = Some (c', RPut (Some 2%nat)) /\ live l_cache [1] 1
    /\ (forall id, ~ live c' id 1) /\ live c' [0] 0
    /\ (forall e t, c_store l_cache 1%nat = Some e -> ch_clock2 (env_at 5) = Some t -> t < ce_expiry e).
Proof.
  intros o. split; [exact (proj1 l_runs)|]. split; [apply legal_snoc; [exact (proj2 l_runs)|discriminate]|].
  eexists. split; [vm_compute; reflexivity|]. split; [vm_compute; auto|].
  split; [intros id L; vm_compute in L; intuition discriminate|]. split; [vm_compute; auto|].
  intros e t S T. injection T as <-. vm_compute in S. injection S as <-. reflexivity.
Qed.

(** ** C36 *)
(** Whatever calls interleave: if locking never fails and the limits leave room for the [K] calls in progress, then the
    declared sizes of all messages encrypted with the materials of one entry (the put's own included) stay within
    the byte limit, and their number within the message limit, of one of the calls served. *)
Theorem C36_usage_limits : forall io sha cap jobs h c K B M,
  exec io sha locks cap jobs h c -> overlap_at_most K sha jobs h -> within_limits jobs B M ->
  (N.of_nat K + 1) * B < two64 -> 1 <= M -> M + N.of_nat K < two64 ->
  forall p j0 mat b n ctx id ch, In (mk_ev j0 (XCache (KPutEnc mat b n ctx id)) (RPut (Some p)) ch) h ->
  forall l, l <> [] -> NoDup l -> (forall j, In j l -> served h j p) ->
  (exists j m rq, In j l /\ jobs j = GenJob m rq /\ b + total_size jobs l <= cm_limit_bytes m)
  /\ (exists j m rq, In j l /\ jobs j = GenJob m rq /\ n + Nlen l <= cm_limit_msgs m).
Proof. exact usage_limits. Qed.
Print Assumptions C36_usage_limits.

(** A request larger than the byte limit is passed on and nothing else. *)
Theorem C36_too_large_bypasses_cache : forall io sha P cap jobs h c j m rq, exec io sha P cap jobs h c ->
  jobs j = GenJob m rq -> cm_limit_bytes m < rq_psize rq -> forall o r, In (o, r) (trace j h) -> o = XUpEnc rq.
Proof. exact too_large. Qed.
Print Assumptions C36_too_large_bypasses_cache.

(** Two concurrent calls, no failures, the default limits: the byte counter wraps around and a call is
    served past the limit. *)
Theorem C36_concurrent_refuted : exists io sha cap jobs h c p j0 mat b n ctx id ch j m rq,
  exec io sha locks cap jobs h c /\ overlap_at_most 2 sha jobs h /\ within_limits jobs INT64_MAX MAX_LIMIT_MESSAGES /\
  In (mk_ev j0 (XCache (KPutEnc mat b n ctx id)) (RPut (Some p)) ch) h /\ served h j p /\
  jobs j = GenJob m rq /\ cm_limit_bytes m < b + total_size jobs [j].
Proof.
  destruct w_runs as (c & E). destruct w_put as (id & ch & J).
  exists toy_io, len_hash, 10, w_jobs, w_hist, c, 0%nat, 0%nat, a_mat, 10, 1, a_ctx, id, ch, 2%nat, w_cmm, (a_rq INT64_MAX).
  split; [exact E|]. split; [exact w_overlap|]. split.
  { intros i m rq EJ. do 3 (destruct i as [|i]; [injection EJ as <- <-; vm_compute; split; discriminate|]). discriminate. }
  split; [exact J|]. split; [exact w_served|]. split; [reflexivity|]. vm_compute. reflexivity.
Qed.
Print Assumptions C36_concurrent_refuted.

(** The same with one call at a time, if locking the mutex fails once. *)
Theorem C36_lock_failure_refuted : exists io sha cap jobs h c p j0 mat b n ctx id ch j m rq,
  exec io sha any_env cap jobs h c /\ overlap_at_most 1 sha jobs h /\ within_limits jobs INT64_MAX MAX_LIMIT_MESSAGES /\
  In (mk_ev j0 (XCache (KPutEnc mat b n ctx id)) (RPut (Some p)) ch) h /\ served h j p /\
  jobs j = GenJob m rq /\ cm_limit_bytes m < b + total_size jobs [j].
Proof.
  destruct v_runs as (c & E). destruct v_put as (id & ch & J).
  exists toy_io, len_hash, 10, w_jobs, v_hist, c, 0%nat, 0%nat, a_mat, 10, 1, a_ctx, id, ch, 2%nat, w_cmm, (a_rq INT64_MAX).
  split; [exact E|]. split; [exact v_overlap|]. split.
  { intros i m rq EJ. do 3 (destruct i as [|i]; [injection EJ as <- <-; vm_compute; split; discriminate|]). discriminate. }
  split; [exact J|]. split; [exact v_served|]. split; [reflexivity|]. vm_compute. reflexivity.
Qed.
Print Assumptions C36_lock_failure_refuted.

(** Calls 1 and 4 are served from entry 0, put by a call for 300 bytes; 300 + 400 + 300 bytes, 3 messages. *)
Example C36_example : (exists c, exec toy_io len_hash locks 10 a_jobs a_hist c) /\ overlap_at_most 5 len_hash a_jobs a_hist
  /\ within_limits a_jobs 1200 5
  /\ (exists id ch, In (mk_ev 0 (XCache (KPutEnc a_mat 300 1 a_ctx id)) (RPut (Some 0%nat)) ch) a_hist)
  /\ NoDup [1; 4]%nat /\ (forall j, In j [1; 4]%nat -> served a_hist j 0)
  /\ total_size a_jobs [1; 4]%nat = 700 /\ cm_limit_bytes a_cmm = 1000 /\ cm_limit_msgs a_cmm = 3.
Proof.
  destruct a_runs as (c & E & _). split; [eauto|]. split; [exact a_overlap|]. split; [exact a_limits|]. split; [exact a_put|].
  split; [repeat constructor; cbn; intuition discriminate|].
  split; [intros j [<-|[<-|[]]]; [exact a_served1|exact a_served4]|]. repeat split.
Qed.
Example C36_bypass_example : cm_limit_bytes a_cmm < rq_psize (a_rq 1001)
  /\ prog_of len_hash (GenJob a_cmm (a_rq 1001)) <> prog_of len_hash (GenJob a_cmm (a_rq 1000)).
Proof. split; [vm_compute; reflexivity|]. vm_compute. discriminate. Qed.

(** ** C37 *)
(** Two encryption requests with the same cache id are the same request. *)
Theorem C37_encrypt_id_identifies_request : forall sha m1 m2 r1 r2 id,
  enc_cache_id sha m1 r1 = Ok id -> enc_cache_id sha m2 r2 = Ok id ->
  length (cm_partition m1) = length (cm_partition m2) -> rq_alg r1 < 65536 -> rq_alg r2 < 65536 ->
  distinct_keys (rq_ctx r1) -> distinct_keys (rq_ctx r2) ->
  good_hash sha (enc_hashed sha m1 r1 ++ enc_hashed sha m2 r2) ->
  same_enc_request m1 m2 r1 r2.
Proof. exact enc_id_inj. Qed.
Print Assumptions C37_encrypt_id_identifies_request.

Theorem C37_decrypt_id_identifies_request : forall sha m1 m2 r1 r2 id,
  dec_cache_id sha m1 r1 = Ok id -> dec_cache_id sha m2 r2 = Ok id ->
  length (cm_partition m1) = length (cm_partition m2) -> dq_alg r1 < 65536 -> dq_alg r2 < 65536 ->
  distinct_keys (dq_ctx r1) -> distinct_keys (dq_ctx r2) ->
  good_hash sha (dec_hashed sha m1 r1 ++ dec_hashed sha m2 r2) ->
  same_dec_request m1 m2 r1 r2.
Proof. exact dec_id_inj. Qed.
Print Assumptions C37_decrypt_id_identifies_request.

(** Encryption and decryption requests never share an id. *)
Theorem C37_encrypt_and_decrypt_ids_differ : forall sha m1 m2 r1 r2 id,
  enc_cache_id sha m1 r1 = Ok id -> dec_cache_id sha m2 r2 = Ok id ->
  length (cm_partition m1) = length (cm_partition m2) ->
  good_hash sha (enc_hashed sha m1 r1 ++ dec_hashed sha m2 r2) -> False.
Proof. exact enc_dec_ids_differ. Qed.
Print Assumptions C37_encrypt_and_decrypt_ids_differ.

(** Conversely the id does not depend on the order of the context's entries or of the EDKs. *)
Theorem C37_same_request_same_id : forall sha m1 m2,
  (forall r1 r2, distinct_keys (rq_ctx r1) -> distinct_keys (rq_ctx r2) ->
     same_enc_request m1 m2 r1 r2 -> enc_cache_id sha m1 r1 = enc_cache_id sha m2 r2) /\
  (forall r1 r2 id, distinct_keys (dq_ctx r1) -> distinct_keys (dq_ctx r2) ->
     same_dec_request m1 m2 r1 r2 -> dec_cache_id sha m1 r1 = Ok id -> dec_cache_id sha m2 r2 = Ok id).
Proof. intros sha m1 m2. split; [exact (enc_id_same sha m1 m2)|exact (dec_id_same sha m1 m2)]. Qed.
Print Assumptions C37_same_request_same_id.

Example C37_example :
  let r1 := mk_dec_request 0x0578 [edk1; edk2] toy_ctx in let r2 := mk_dec_request 0x0578 [edk2; edk1] (rev toy_ctx) in
  exists id, dec_cache_id len_hash a_cmm r1 = Ok id /\ dec_cache_id len_hash b_cmm r2 = Ok id
    /\ good_hash len_hash (dec_hashed len_hash a_cmm r1 ++ dec_hashed len_hash b_cmm r2)
    /\ (exists ide, enc_cache_id len_hash a_cmm (a_rq 300) = Ok ide /\ ide <> id)
    /\ good_hash len_hash (enc_hashed len_hash a_cmm (a_rq 300) ++ dec_hashed len_hash b_cmm r2)
    /\ length (cm_partition a_cmm) = length (cm_partition b_cmm).
Proof.
  intros r1 r2. eexists. split; [vm_compute; reflexivity|]. split; [vm_compute; reflexivity|].
  split; [exact (a_no_collision 2%nat 3%nat)|]. split; [eexists; split; [vm_compute; reflexivity|discriminate]|].
  split; [exact (a_no_collision 0%nat 3%nat)|reflexivity].
Qed.

(** ** C38 *)
(** The code means to exclude suites without key derivation from caching; the test never excludes any suite, since the digest
    name of these suites is the string "NULL" and not a null pointer. *)
Theorem C38_every_suite_is_cacheable : forall alg, can_cache alg = None \/ can_cache alg = Some true.
Proof.
  intros alg. unfold can_cache. destruct (alg_lookup alg) as [p|] eqn:E; auto. right.
  unfold alg_lookup in E. repeat match type of E with (if ?b then _ else _) = _ => destruct b; [injection E as <-; reflexivity|] end. discriminate.
Qed.
Print Assumptions C38_every_suite_is_cacheable.

Theorem C38_no_kdf_not_cached_refuted : exists io sha P cap jobs h c j m rq p ctx mat,
  exec io sha P cap jobs h c /\ jobs j = GenJob m rq /\ rq_alg rq = ALG_AES128_NO_KDF /\ em_alg mat = ALG_AES128_NO_KDF /\
  In (XCache (KGetEnc p (rq_ctx rq)), REnc ctx (Ok mat)) (trace j h).
Proof.
  destruct n_runs as (c & E). exists toy_io, len_hash, any_env, 10, n_jobs, n_hist, c, 1%nat, w_cmm, n_rq, 0%nat, toy_ctx, n_mat.
  split; [exact E|]. split; [reflexivity|]. split; [reflexivity|]. split; [reflexivity|exact n_served].
Qed.
Print Assumptions C38_no_kdf_not_cached_refuted.

(** ** C57 *)
(** Materials returned for encryption were issued by the upstream CMM, in this call or in an earlier one for an equivalent request;
    in the latter case the signature context is rebuilt from its serialised key, everything else and the encryption
    context are equal. *)
Theorem C57_encrypt_transparent : forall io sha P cap jobs h c j ctx mat, exec io sha P cap jobs h c -> tables jobs h ->
  typed jobs -> no_collision sha jobs ->
  returns sha jobs h j (JEnc ctx (COk mat)) ->
  exists m rq, jobs j = GenJob m rq /\
  ((exists rq', In (XUpEnc rq', REnc ctx (Ok mat)) (trace j h) /\ passed_on rq rq' (trace j h))
   \/ exists j0 m0 rq0 rq0' ctx0 mat0, jobs j0 = GenJob m0 rq0 /\ same_enc_request m m0 rq rq0
      /\ In (XUpEnc rq0', REnc ctx0 (Ok mat0)) (trace j0 h) /\ passed_on rq0 rq0' (trace j0 h)
      /\ same_enc_mat io mat0 mat /\ distinct_keys ctx /\ same_map ctx ctx0).
Proof. exact enc_transparent. Qed.
Print Assumptions C57_encrypt_transparent.

Theorem C57_decrypt_transparent : forall io sha P cap jobs h c j mat, exec io sha P cap jobs h c -> tables jobs h ->
  typed jobs -> no_collision sha jobs ->
  returns sha jobs h j (JDec (COk mat)) ->
  exists m rq, jobs j = DecJob m rq /\
  (In (XUpDec rq, RDec (Ok mat)) (trace j h)
   \/ exists j0 m0 rq0 mat0, jobs j0 = DecJob m0 rq0 /\ same_dec_request m m0 rq rq0
      /\ In (XUpDec rq0, RDec (Ok mat0)) (trace j0 h) /\ same_dec_mat io mat0 mat).
Proof. exact dec_transparent. Qed.
Print Assumptions C57_decrypt_transparent.

(** A failure comes from the upstream CMM or from computing the cache id, never from the cache. *)
Theorem C57_failures_are_upstream : forall io sha P cap jobs h c j e, exec io sha P cap jobs h c ->
  (forall ctx, returns sha jobs h j (JEnc ctx (CErr e)) ->
   exists m rq, jobs j = GenJob m rq /\
   ((exists rq', In (XUpEnc rq', REnc ctx (Err e)) (trace j h) /\ passed_on rq rq' (trace j h))
    \/ (ctx = rq_ctx rq /\ (In (XMem, RMem (Some e)) (trace j h) \/ enc_cache_id sha m rq = Err e)))) /\
  (returns sha jobs h j (JDec (CErr e)) ->
   exists m rq, jobs j = DecJob m rq /\
   (In (XUpDec rq, RDec (Err e)) (trace j h)
    \/ In (XMem, RMem (Some e)) (trace j h) \/ dec_cache_id sha m rq = Err e)).
Proof.
  intros io sha P cap jobs h c j e E. split; [intros ctx; exact (enc_failure io sha P cap jobs h c j ctx e E)|].
  exact (dec_failure io sha P cap jobs h c j e E).
Qed.
Print Assumptions C57_failures_are_upstream.

(** A call uses the cache's materials or asks the upstream CMM, not both, and asks at most once. *)
Theorem C57_one_source : forall io sha P cap jobs h c j t1 x t2 y t3, exec io sha P cap jobs h c ->
  trace j h = t1 ++ x :: t2 ++ y :: t3 -> used_source x -> ~ used_source y.
Proof. exact one_source. Qed.
Print Assumptions C57_one_source.

(** With a cache that always fails (its mutex cannot be locked) the answers are the upstream CMM's to the very request. *)
Theorem C57_failing_cache : forall io sha cap jobs h c j,
  exec io sha (fun ch => ch_lock ch = false) cap jobs h c ->
  (forall ctx mat m rq, jobs j = GenJob m rq -> returns sha jobs h j (JEnc ctx (COk mat)) ->
     In (XUpEnc rq, REnc ctx (Ok mat)) (trace j h))
  /\ (forall mat m rq, jobs j = DecJob m rq -> returns sha jobs h j (JDec (COk mat)) ->
     In (XUpDec rq, RDec (Ok mat)) (trace j h)).
Proof. exact broken_cache. Qed.
Print Assumptions C57_failing_cache.

(** But if only reloading the cached signing key fails, the request passed on to the upstream CMM carries the cached public key,
    which the default CMM refuses although it accepts the request itself. *)
Theorem C57_fallback_refuted : exists io sha P cap jobs h c j m rq rq',
  exec io sha P cap jobs h c /\ jobs j = GenJob m rq /\
  returns sha jobs h j (JEnc (rq_ctx rq') (CErr E_RESERVED_NAME)) /\
  In (XUpEnc rq', REnc (rq_ctx rq') (Err E_RESERVED_NAME)) (trace j h) /\
  default_cmm_generate toy_ec None None toy_cmm rq' = (rq_ctx rq', CErr E_RESERVED_NAME) /\
  exists ctx mat, default_cmm_generate toy_ec None None toy_cmm rq = (ctx, COk mat).
Proof.
  destruct f_runs as (c & E & F).
  exists f_io, len_hash, any_env, 10, a_jobs, f_hist, c, 1%nat, a_cmm, (a_rq 400), f_rq.
  split; [exact E|]. split; [reflexivity|]. split.
  { assert (R : f_progs 1 = Ret (JEnc (rq_ctx f_rq) (CErr E_RESERVED_NAME))) by (vm_compute; reflexivity).
    unfold returns. rewrite <- R. apply F. }
  split; [exact f_asked|]. split; [vm_compute; reflexivity|]. do 2 eexists. vm_compute. reflexivity.
Qed.
Print Assumptions C57_fallback_refuted.

(** Calls 0 and 2 are answered upstream; 1, 3 and 4 from the cache. *)
Example C57_example : (exists c, exec toy_io len_hash locks 10 a_jobs a_hist c) /\ tables a_jobs a_hist
  /\ typed a_jobs /\ no_collision len_hash a_jobs
  /\ returns len_hash a_jobs a_hist 1 (JEnc a_ctx' (COk a_mat)) /\ returns len_hash a_jobs a_hist 3 (JDec (COk a_dmat))
  /\ ~ asked_upstream a_hist 1 /\ ~ asked_upstream a_hist 3.
Proof.
  destruct a_runs as (c & E & F). split; [eauto|]. split; [exact a_tables|]. split; [exact a_typed|]. split; [exact a_no_collision|].
  destruct a_answers as (A0 & A1 & A2 & A3 & A4).
  split; [unfold returns; rewrite <- A1; apply F|]. split; [unfold returns; rewrite <- A3; apply F|].
  split; intros (o & r & J & U); vm_compute in J;
    repeat (destruct J as [J|J]; [injection J as <- _; exact U|]); destruct J.
Qed.
Example C57_failure_example : (exists c, exec f_io len_hash any_env 10 a_jobs f_hist c)
  /\ In (XUpEnc f_rq, REnc (rq_ctx f_rq) (Err E_RESERVED_NAME)) (trace 1 f_hist).
Proof. destruct f_runs as (c & E & F). split; [eauto|exact f_asked]. Qed.
Example C57_failing_cache_example : (exists c, exec toy_io len_hash (fun ch => ch_lock ch = false) 10 a_jobs g_hist c)
  /\ returns len_hash a_jobs g_hist 0 (JEnc a_ctx (COk a_mat)) /\ length g_hist = 4%nat.
Proof. split; [exact (proj1 g_runs)|]. split; [exact (proj2 g_runs)|]. vm_compute. reflexivity. Qed.
