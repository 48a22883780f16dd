(** Properties C46-C50, C58 and C59: the AWS KMS keyrings.
    Specification: KmsSpec.v.  Example data: KmsExamples.v. *)
From Verif Require Import Base AlgModel EncCtxModel HdrModel CryptoModel SessionModel KeyringModel KmsModel
  WireSpec SessionSpec KeyringSpec KmsSpec SessionExamples StreamExamples KeyringExamples ArnProofs KmsProofs MrkProofs KmsExamples.
From Coq Require Import String Permutation.
Import List.
Open Scope list_scope.
Open Scope N_scope.

(** ** C46 *)
(** KMS is asked to decrypt only EDKs of the list, of provider aws-kms, whose key the keyring permits; the request names that
    key, in its region, with the caller's context and the keyring's grants. *)
Theorem C46_asks_only_permitted : forall k ev edks ctx alg a log a' rc, kms_on_decrypt k ev edks ctx alg a = (log, (a', rc)) ->
  forall rq ans, In (rq, ans) log -> exists e, In e edks /\ edk_provider_id e = text "aws-kms" /\ kms_permits k (edk_provider_info e) /\
    names_region (edk_provider_info e) (kq_region rq) /\
    rq = mk_kms_request (kq_region rq) (edk_provider_info e) (OpDecrypt (edk_ciphertext e)) ctx (kk_grants k).
Proof. exact C46_asks_lemma. Qed.
Print Assumptions C46_asks_only_permitted.

(** A data key is what the last answer of KMS contained, which named the key that was asked for; an answer naming another key
    is an error; otherwise there is no data key. *)
Theorem C46_answer_is_checked : forall k ev edks ctx alg a log a' rc, kms_on_decrypt k ev edks ctx alg a = (log, (a', rc)) -> da_key a = None ->
  match da_key a' with
  | Some b => rc = KrOk /\ exists log' rq x, log = log' ++ [(rq, Some x)] /\ kx_key x = kq_key rq /\ kx_plain x = kb_bytes b
  | None => (exists log' rq x, log = log' ++ [(rq, Some x)] /\ kx_key x <> kq_key rq /\ rc = KrErr E_INVALID_STATE /\ a' = a)
            \/ (exists log' rq x, log = log' ++ [(rq, Some x)] /\ kx_key x = kq_key rq /\
                  (kx_plain x = [] /\ rc = KrOk \/ exists e, kv_fail ev 0 = Some e /\ rc = KrErr e))
            \/ (rc = KrOk /\ a' = a /\ forall rq ans, In (rq, ans) log -> ans = None)
  end.
Proof. exact C46_answer_lemma. Qed.
Print Assumptions C46_answer_is_checked.

(** The EDKs are tried in order: every permitted one before the first that KMS decrypts was asked for and refused. *)
Theorem C46_search_is_complete : forall k ev edks ctx alg a log a' rc, kms_on_decrypt k ev edks ctx alg a = (log, (a', rc)) ->
  exists tried rest, edks = tried ++ rest /\
    (forall j e reg, nth_error tried j = Some e -> kms_eligible k e reg -> kv_client ev j reg = true ->
       In (decrypt_request (kk_grants k) ctx e reg (edk_provider_info e), None) log) /\
    match rest with
    | [] => forall rq ans, In (rq, ans) log -> ans = None
    | e :: _ => exists reg x log', log = log' ++ [(decrypt_request (kk_grants k) ctx e reg (edk_provider_info e), Some x)] /\ kms_eligible k e reg /\
         forall rq ans, In (rq, ans) log' -> ans = None
    end.
Proof. exact C46_complete_lemma. Qed.
Print Assumptions C46_search_is_complete.

(** A discovery filter is built exactly from a partition and at least one account, none of them empty, and it holds these. *)
Theorem C46_built_filter : forall partition accounts f, filter_build partition accounts = Some f <->
  partition <> [] /\ accounts <> [] /\ ~ In [] accounts /\ f = mk_filter partition accounts.
Proof. exact C46_filter_lemma. Qed.
Print Assumptions C46_built_filter.

Example C46_built_filter_example : filter_build (text "aws") [text "111122223333"] = Some (mk_filter (text "aws") [text "111122223333"]) /\
  filter_build (text "aws") [text "111122223333"; []] = None /\ filter_build [] [text "111122223333"] = None /\ filter_build (text "aws") [] = None.
Proof. repeat split; reflexivity. Qed.

(** A keyring with the second key only, given the EDKs of two keys. *)
Example C46_example :
  let '(log, (d, rc)) := kms_on_decrypt kms_b toy_env (ka_edks toy_kms_args) toy_ctx 0x0578 no_dargs in
  map (fun c => kq_key (fst c)) log = [arn_b] /\ map (fun c => kq_region (fst c)) log = [text "eu-central-1"] /\
  da_key d = Some (mk_kbuf 42 (repeat 5 32)) /\ rc = KrOk.
Proof. vm_compute. auto. Qed.
(** Discovery with a filter of another account asks nothing. *)
Example C46_filter_example :
  kms_on_decrypt (mk_kms [] (Some (mk_filter (text "aws") [text "1234"])) []) toy_env (ka_edks toy_kms_args) toy_ctx 0x0578 no_dargs = ([], (no_dargs, KrOk)).
Proof. vm_compute. reflexivity. Qed.
(** A KMS that answers with another key. *)
Example C46_lying_example :
  snd (kms_on_decrypt toy_kms lying_env (ka_edks toy_kms_args) toy_ctx 0x0578 no_dargs) = (no_dargs, KrErr E_INVALID_STATE).
Proof. vm_compute. reflexivity. Qed.

(** ** C47 *)
(** On success: with a data key given, one EDK per key in order, each from an Encrypt of that data key; without, the first key
    generated it and the others encrypted it.  A keyring without keys does nothing. *)
Theorem C47_success_is_complete : forall k ev ctx alg a log a', kms_on_encrypt k ev ctx alg a = (log, (a', KrOk)) -> kms_built k ->
  match kk_ids k, ka_key a with
  | [], _ => log = [] /\ a' = a
  | ids, Some b => exists xs, encrypt_calls (kk_grants k) ctx (kb_bytes b) ids xs log /\
      ka_key a' = Some b /\ ka_edks a' = ka_edks a ++ map answer_edk xs
  | gen :: others, None => exists reg x xs log', names_region gen reg /\
      log = (mk_kms_request reg gen (OpGenerate (suite_key_len alg)) ctx (kk_grants k), Some x) :: log' /\
      encrypt_calls (kk_grants k) ctx (kx_plain x) others xs log' /\
      ka_key a' = match kx_plain x with [] => None | p => Some (mk_kbuf (kv_meta ev) p) end /\
      ka_edks a' = ka_edks a ++ answer_edk x :: map answer_edk xs
  end.
Proof. exact C47_success_lemma. Qed.
Print Assumptions C47_success_is_complete.

(** The builder makes a keyring iff every key id names a region, which is what the theorem above asks for. *)
Theorem C47_builder : forall grants gen more k, kms_build grants gen more = Some k <->
  k = mk_kms (gen :: more) None grants /\ kms_built k.
Proof. exact kms_build_lemma. Qed.
Print Assumptions C47_builder.

(** On failure nothing is added and there is no data key that was not there before, provided that the caller's EDK list can
    grow. *)
Theorem C47_failure_changes_nothing_partial : forall k ev ctx alg a log a' e, kms_on_encrypt k ev ctx alg a = (log, (a', KrErr e)) ->
  (forall n, kv_edks ev n = true) -> a' = a.
Proof. exact C47_failure_lemma. Qed.
Print Assumptions C47_failure_changes_nothing_partial.

(** Without that proviso, EDKs stay in the caller's list after a failure. *)
Theorem C47_unchanged_on_failure_refuted : exists k ev ctx alg a log a' e,
  kms_on_encrypt k ev ctx alg a = (log, (a', KrErr e)) /\ ka_edks a = [] /\ ka_edks a' <> [].
Proof. exists toy_kms, full_env, toy_ctx, 0x0578, no_args. do 3 eexists. split; [vm_compute; reflexivity|]. split; [reflexivity|discriminate]. Qed.
Print Assumptions C47_unchanged_on_failure_refuted.

(** The keyring does not look at the data key that KMS generates: with an empty one it succeeds, adds an EDK and gives no data
    key. *)
Theorem C47_success_gives_a_data_key_refuted : exists k ev ctx alg a log a',
  kms_on_encrypt k ev ctx alg a = (log, (a', KrOk)) /\ kms_built k /\ ka_key a = None /\ ka_key a' = None /\ ka_edks a' <> [].
Proof.
  exists toy_kms, empty_env, toy_ctx, 0x0578, no_args. do 2 eexists. split; [vm_compute; reflexivity|]. split; [exact toy_built|].
  split; [reflexivity|]. split; [reflexivity|discriminate].
Qed.
Print Assumptions C47_success_gives_a_data_key_refuted.

(** The trace records, if memory lasts: generated, encrypted and signed context for the generator, encrypted and signed context
    for the others. *)
Theorem C47_trace_names_every_key : forall k ev ctx alg a log a', kms_on_encrypt k ev ctx alg a = (log, (a', KrOk)) -> kms_built k ->
  (forall n, kv_record ev n = true) -> (forall n, kv_trace ev n = true) ->
  ka_trace a' = ka_trace a ++
    match kk_ids k, ka_key a with
    | gen :: others, None => mk_trace_rec (text "aws-kms") (key_name gen) 11 :: map (fun id => mk_trace_rec (text "aws-kms") (key_name id) 10) others
    | ids, _ => map (fun id => mk_trace_rec (text "aws-kms") (key_name id) 10) ids
    end.
Proof. exact C47_trace_lemma. Qed.
Print Assumptions C47_trace_names_every_key.

(** Encryption never has undefined behaviour. *)
Theorem C47_always_defined : forall k ev ctx alg a log a' rc, kms_on_encrypt k ev ctx alg a = (log, (a', rc)) -> rc <> KrUB.
Proof. exact C47_no_ub_lemma. Qed.
Print Assumptions C47_always_defined.

(** The keyring may be used in a multi-keyring (C39). *)
Theorem C47_keyring_appends : forall k ev, appends (kms_keyring k ev).
Proof. exact kms_appends. Qed.
Print Assumptions C47_keyring_appends.

Example C47_example : kms_built toy_kms /\
  let '(log, (a', rc)) := kms_on_encrypt toy_kms toy_env toy_ctx 0x0578 no_args in
  rc = KrOk /\ map (fun c => kq_key (fst c)) log = [arn_a; arn_b] /\ map edk_provider_info (ka_edks a') = [arn_a; arn_b] /\
  ka_key a' = Some (mk_kbuf 42 (repeat 5 32)) /\ map tr_flags (ka_trace a') = [11; 10].
Proof. split; [exact toy_built|]. vm_compute. auto 10. Qed.
(** The second key fails. *)
Example C47_failure_example : snd (kms_on_encrypt toy_kms broken_env toy_ctx 0x0578 no_args) = (no_args, KrErr E_KMS_FAILURE).
Proof. vm_compute. reflexivity. Qed.

(** ** C48 *)
Theorem C48_match_iff : forall s1 s2, kms_mrk_match_for_decrypt s1 s2 = true <-> s1 = s2 \/ related_mrk s1 s2.
Proof. exact C48_match_lemma. Qed.
Print Assumptions C48_match_iff.

Theorem C48_match_is_an_equivalence :
  (forall a, kms_mrk_match_for_decrypt a a = true) /\
  (forall a b, kms_mrk_match_for_decrypt a b = true -> kms_mrk_match_for_decrypt b a = true) /\
  (forall a b c, kms_mrk_match_for_decrypt a b = true -> kms_mrk_match_for_decrypt b c = true -> kms_mrk_match_for_decrypt a c = true).
Proof. exact C48_equivalence_lemma. Qed.
Print Assumptions C48_match_is_an_equivalence.

(** Keys of different partition, service, account or resource never match; of different regions, only multi-Region keys. *)
Theorem C48_match_never_crosses : forall s1 s2 p1 sv1 r1 ac1 res1 p2 sv2 r2 ac2 res2,
  is_arn s1 p1 sv1 r1 ac1 res1 -> is_arn s2 p2 sv2 r2 ac2 res2 -> kms_mrk_match_for_decrypt s1 s2 = true ->
  p1 = p2 /\ sv1 = sv2 /\ ac1 = ac2 /\ res1 = res2 /\ (r1 <> r2 -> exists id, is_resource res1 (text "key") (text "mrk-" ++ id)).
Proof. exact C48_never_lemma. Qed.
Print Assumptions C48_match_never_crosses.

(** The AWS specification of a multi-Region key says that the resource id is everything after the first slash and starts with
    mrk-.  The code also takes the ARN of a key whose resource id starts with a slash. *)
Theorem C48_only_mrk_resource_ids_refuted : exists p r1 r2 ac id,
  kms_mrk_match_for_decrypt (text "arn:" ++ p ++ text ":kms:" ++ r1 ++ text ":" ++ ac ++ text ":key/" ++ id)
    (text "arn:" ++ p ++ text ":kms:" ++ r2 ++ text ":" ++ ac ++ text ":key/" ++ id) = true /\
  r1 <> r2 /\ ~ exists t, id = text "mrk-" ++ t.
Proof.
  exists (text "aws"), (text "us-east-1"), (text "eu-west-1"), (text "658956600833"), (text "/mrk-80bd8ecd").
  split; [vm_compute; reflexivity|]. split; [discriminate|]. intros [t E]. discriminate.
Qed.
Print Assumptions C48_only_mrk_resource_ids_refuted.

Example C48_example : kms_mrk_match_for_decrypt mrk_us mrk_eu = true /\ kms_mrk_match_for_decrypt mrk_us arn_a = false /\
  related_mrk mrk_us mrk_eu.
Proof. split; [vm_compute; reflexivity|]. split; [vm_compute; reflexivity|]. do 5 eexists. split; [exact us_mrk|exact eu_mrk]. Qed.

(** ** C49 *)
(** KMS is asked only about EDKs of the list for which the keyring may ask, with the region and key it may ask. *)
Theorem C49_asks_only_eligible : forall k ev edks ctx alg a log a' rc, mrk_on_decrypt k ev edks ctx alg a = (log, (a', rc)) ->
  forall rq ans, In (rq, ans) log -> exists e, In e edks /\ mrk_eligible k e (kq_region rq) (kq_key rq) /\
    rq = mk_kms_request (kq_region rq) (kq_key rq) (OpDecrypt (edk_ciphertext e)) ctx (mk_grants k).
Proof. exact C49_asks_lemma. Qed.
Print Assumptions C49_asks_only_eligible.

(** A data key is what the last answer of KMS contained, named the key asked for and has the length of the suite; the answers
    before it were rejected.  Without a data key all were rejected; the result says whether one of them counts as a failure.
    An unknown suite is undefined behaviour as soon as KMS answers. *)
Theorem C49_answer_is_checked : forall k ev edks ctx alg a log a' rc, mrk_on_decrypt k ev edks ctx alg a = (log, (a', rc)) -> da_key a = None ->
  match da_key a' with
  | Some b => rc = KrOk /\ exists log' rq x, log = log' ++ [(rq, Some x)] /\ Forall (rejected_answer alg) log' /\ kx_key x = kq_key rq /\
      kx_plain x = kb_bytes b /\ Nlen (kb_bytes b) = suite_key_len alg /\ suite alg
  | None => (Forall (rejected_answer alg) log /\ a' = a /\ rc = KrErr E_KMS_FAILURE /\ Exists (counted_failure k) log)
            \/ (Forall (rejected_answer alg) log /\ a' = a /\ rc = KrOk /\ ~ Exists (counted_failure k) log)
            \/ (exists e, kv_fail ev 0 = Some e /\ rc = KrErr e)
            \/ (~ suite alg /\ rc = KrUB /\ exists log' rq x, log = log' ++ [(rq, Some x)])
  end.
Proof. exact C49_answer_lemma. Qed.
Print Assumptions C49_answer_is_checked.

(** If there is no data key in the end, KMS was asked about every eligible EDK. *)
Theorem C49_search_is_complete : forall k ev edks ctx alg a log a' rc, mrk_on_decrypt k ev edks ctx alg a = (log, (a', rc)) ->
  da_key a = None -> da_key a' = None -> suite alg -> kv_fail ev 0 = None ->
  forall j e reg key, nth_error edks j = Some e -> mrk_eligible k e reg key -> kv_client ev j reg = true ->
    exists ans, In (decrypt_request (mk_grants k) ctx e reg key, ans) log.
Proof. exact C49_complete_lemma. Qed.
Print Assumptions C49_search_is_complete.

(** With a data key already there, nothing is asked. *)
Theorem C49_idle_with_a_data_key : forall k ev edks ctx alg a log a' rc b, mrk_on_decrypt k ev edks ctx alg a = (log, (a', rc)) ->
  da_key a = Some b -> kb_bytes b <> [] -> log = [] /\ a' = a /\ rc = KrOk.
Proof. exact C49_idle_lemma. Qed.
Print Assumptions C49_idle_with_a_data_key.

(** Called with an unknown suite, the keyring dereferences a null pointer.  (A session never does so.) *)
Theorem C49_always_defined_refuted : exists k ev edks ctx alg a log a', mrk_on_decrypt k ev edks ctx alg a = (log, (a', KrUB)).
Proof. exists mrk_k_us, toy_env, [mrk_edk], toy_ctx, 0, no_dargs. do 2 eexists. vm_compute. reflexivity. Qed.
Print Assumptions C49_always_defined_refuted.

(** A keyring is built for a valid identifier, and for discovery with a filter argument if a region is named. *)
Theorem C49_built : forall grants id k, mrk_build grants id = Some k <-> id <> [] /\ valid_identifier id /\ k = mk_mrk id [] None grants.
Proof. exact C49_built_lemma. Qed.
Print Assumptions C49_built.
Theorem C49_discovery_built : forall grants region f k, mrk_build_discovery grants region f = Some k <-> region <> [] /\ k = mk_mrk [] region f grants.
Proof. exact C49_discovery_built_lemma. Qed.
Print Assumptions C49_discovery_built.
Example C49_built_example : mrk_build [] mrk_us <> None /\ mrk_build [] (text "alias/x") <> None /\ mrk_build [] (text "alias") <> None /\
  mrk_build [] (text "alias/x:y") = None /\ mrk_build [] [] = None /\ mrk_build_discovery [] (text "eu-west-1") None <> None /\
  mrk_build_discovery [] [] None = None.
Proof. vm_compute. repeat split; discriminate. Qed.

(** Without a filter argument the region is not checked: the keyring for the empty region asks for keys without a region. *)
Theorem C49_region_refuted : exists grants ev edks ctx alg a log r rq ans, mrk_on_decrypt (mrk_build_region grants []) ev edks ctx alg a = (log, r) /\
  In (rq, ans) log /\ kq_region rq = [] /\ kq_key rq = text "arn:aws:kms::658956600833:key/mrk-80bd8ecd".
Proof.
  exists [], toy_env, [mrk_edk], toy_ctx, 0x0578, no_dargs. do 4 eexists. split; [vm_compute; reflexivity|].
  split; [left; reflexivity|]. split; vm_compute; reflexivity.
Qed.
Print Assumptions C49_region_refuted.

(** The keyring of the other region decrypts with its own ARN in its own region; discovery with the rewritten ARN. *)
Example C49_example :
  let '(log, (d, rc)) := mrk_on_decrypt mrk_k_eu toy_env [toy_other_edk; mrk_edk] toy_ctx 0x0578 no_dargs in
  map (fun c => (kq_region (fst c), kq_key (fst c))) log = [(text "eu-west-1", mrk_eu)] /\
  da_key d = Some (mk_kbuf 42 (repeat 5 32)) /\ rc = KrOk.
Proof. vm_compute. auto. Qed.
Example C49_discovery_example :
  let '(log, (d, rc)) := mrk_on_decrypt mrk_disc toy_env [mk_edk (text "aws-kms") arn_a [7; 1]; mrk_edk] toy_ctx 0x0578 no_dargs in
  map (fun c => (kq_region (fst c), kq_key (fst c))) log =
    [(text "ap-south-1", text "arn:aws:kms:ap-south-1:658956600833:key/mrk-80bd8ecd")] /\
  da_key d = Some (mk_kbuf 42 (repeat 5 32)) /\ rc = KrOk.
Proof. vm_compute. auto. Qed.
(** KMS answers with another key. *)
Example C49_lying_example : snd (mrk_on_decrypt mrk_k_us lying_env [mrk_edk] toy_ctx 0x0578 no_dargs) = (no_dargs, KrErr E_KMS_FAILURE).
Proof. vm_compute. reflexivity. Qed.

(** ** C50 *)
(** Given clients, and identifiers without the byte 255, a multi-keyring is built iff there is an identifier, all are valid,
    those of the children name a region, and no two have the same multi-Region key id. *)
Theorem C50_built_iff : forall client grants gen ids, (forall n r, client n r = true) ->
  (forall s, In s (all_ids gen ids) -> ~ In 255 s) ->
  (mrk_multi_build client grants gen ids <> None <->
    all_ids gen ids <> [] /\ (forall s, In s (all_ids gen ids) -> s <> [] /\ valid_identifier s) /\
    (forall s, In s ids -> exists r, names_region s r) /\ ~ exists id, same_mrk_twice (all_ids gen ids) id).
Proof. exact C50_builder_lemma. Qed.
Print Assumptions C50_built_iff.

(** Whatever the client supplier does: what was built has the keyrings asked for, and no duplicates. *)
Theorem C50_built_has_no_duplicates : forall client grants gen ids og ks, mrk_multi_build client grants gen ids = Some (og, ks) ->
  og = match gen with Some g => Some (mk_mrk g [] None grants) | None => None end /\ ks = map (fun id => mk_mrk id [] None grants) ids /\
  ((forall s, In s (all_ids gen ids) -> ~ In 255 s) -> ~ exists id, same_mrk_twice (all_ids gen ids) id).
Proof. exact C50_content_lemma. Qed.
Print Assumptions C50_built_has_no_duplicates.

(** The order of the children does not matter, nor which bytes they contain. *)
Theorem C50_order_is_irrelevant : forall client grants gen ids ids', (forall n r, client n r = true) -> Permutation ids ids' ->
  (mrk_multi_build client grants gen ids = None <-> mrk_multi_build client grants gen ids' = None).
Proof. exact C50_order_lemma. Qed.
Print Assumptions C50_order_is_irrelevant.

(** With the byte 255, two different key ids count as the same. *)
Theorem C50_built_iff_for_all_bytes_refuted : exists client grants gen ids, (forall n r, client n r = true) /\
  (forall s, In s (all_ids gen ids) -> s <> [] /\ valid_identifier s) /\ (forall s, In s ids -> exists r, names_region s r) /\
  all_ids gen ids <> [] /\ ids = [mrk_us ++ [255; 1]; mrk_us ++ [255; 2]] /\ mrk_multi_build client grants gen ids = None.
Proof.
  exists (fun _ _ => true), [], None, [mrk_us ++ [255; 1]; mrk_us ++ [255; 2]]. split; [reflexivity|]. split.
  { intros s [<-|[<-|[]]]; (split; [discriminate|]); apply valid_identifier_spec; vm_compute; reflexivity. }
  split. { intros s [<-|[<-|[]]]; eexists; apply parse_region_spec; (split; [reflexivity|discriminate]). }
  split; [discriminate|]. split; [reflexivity|]. vm_compute. reflexivity.
Qed.
Print Assumptions C50_built_iff_for_all_bytes_refuted.

Example C50_example : mrk_multi_build (fun _ _ => true) [] (Some mrk_us) [arn_a; arn_b] <> None /\
  mrk_multi_build (fun _ _ => true) [] (Some mrk_us) [arn_a; mrk_eu] = None /\
  mrk_multi_build (fun _ _ => true) [] None [mrk_eu; arn_a; mrk_us] = None /\
  (forall s, In s [mrk_us; arn_a; arn_b] -> ~ In 255 s).
Proof.
  split; [discriminate|]. split; [vm_compute; reflexivity|]. split; [vm_compute; reflexivity|].
  intros s [<-|[<-|[<-|[]]]]; vm_compute; intuition discriminate.
Qed.

(** ** C58 *)
(** On success of a multi-Region-key aware keyring KMS was asked once, with the keyring's own key; its answer named a valid ARN
    and, if it generated the data key, that has the length of the suite; exactly its EDK was added. *)
Theorem C58_success_is_checked : forall k ev ctx alg a log a', mrk_on_encrypt k ev ctx alg a = (log, (a', KrOk)) ->
  mk_id k <> [] /\ exists reg x, region_or_none (mk_id k) reg /\ valid_key_arn (kx_key x) /\ ka_edks a' = ka_edks a ++ [answer_edk x] /\
  match ka_key a with
  | Some b => log = [(mk_kms_request reg (mk_id k) (OpEncrypt (kb_bytes b)) ctx (mk_grants k), Some x)] /\ ka_key a' = Some b
  | None => suite alg /\ log = [(mk_kms_request reg (mk_id k) (OpGenerate (suite_key_len alg)) ctx (mk_grants k), Some x)] /\
      Nlen (kx_plain x) = suite_key_len alg /\ ka_key a' = Some (mk_kbuf (kv_meta ev) (kx_plain x))
  end /\
  (kv_record ev 0 = true -> (forall n, kv_trace ev n = true) ->
     ka_trace a' = ka_trace a ++ [mk_trace_rec (text "aws-kms") (key_name (mk_id k)) (match ka_key a with Some _ => 10 | None => 11 end)]).
Proof. exact C58_success_lemma. Qed.
Print Assumptions C58_success_is_checked.

Theorem C58_failure_changes_nothing_partial : forall k ev ctx alg a log a' e, mrk_on_encrypt k ev ctx alg a = (log, (a', KrErr e)) ->
  (forall n, kv_edks ev n = true) -> a' = a.
Proof. exact C58_failure_lemma. Qed.
Print Assumptions C58_failure_changes_nothing_partial.

Theorem C58_always_defined : forall k ev ctx alg a log a' rc, mrk_on_encrypt k ev ctx alg a = (log, (a', rc)) -> rc <> KrUB.
Proof. exact C58_no_ub_lemma. Qed.
Print Assumptions C58_always_defined.

Theorem C58_keyring_appends : forall k ev, appends (mrk_keyring k ev).
Proof. exact mrk_appends. Qed.
Print Assumptions C58_keyring_appends.

Example C58_example :
  let '(log, (a', rc)) := mrk_on_encrypt mrk_k_us toy_env toy_ctx 0x0578 no_args in
  rc = KrOk /\ map (fun c => kq_region (fst c)) log = [text "us-east-1"] /\ ka_edks a' = [mrk_edk] /\ ka_key a' = Some (mk_kbuf 42 (repeat 5 32)).
Proof. vm_compute. auto. Qed.
Example C58_failure_example : snd (mrk_on_encrypt mrk_k_us empty_env toy_ctx 0x0578 no_args) = (no_args, KrErr E_KMS_FAILURE) /\
  snd (mrk_on_encrypt mrk_disc toy_env toy_ctx 0x0578 no_args) = (no_args, KrErr E_BAD_STATE).
Proof. vm_compute. auto. Qed.

(** ** C59 *)
(** What a KMS keyring encrypted, any KMS keyring that permits one of its keys decrypts to the same data key, if KMS does its
    job. *)
Theorem C59_kms_round_trip : forall k1 k2 ev1 ev2 ctx alg a log a' b t s, kms_on_encrypt k1 ev1 ctx alg a = (log, (a', KrOk)) ->
  kms_built k1 -> ka_edks a = [] -> ka_key a' = Some b -> kb_bytes b <> [] ->
  In s (kk_ids k1) -> kms_permits k2 s -> names_key log -> honest_kms log ev2 -> calm ev2 ->
  exists log2 d, kms_on_decrypt k2 ev2 (ka_edks a') ctx alg (mk_dargs None t) = (log2, (d, KrOk)) /\ da_key d = Some (mk_kbuf (kv_meta ev2) (kb_bytes b)).
Proof. exact C59_kms_lemma. Qed.
Print Assumptions C59_kms_round_trip.

(** What a multi-Region-key aware keyring encrypted, one that may ask for a related key decrypts, possibly in another region. *)
Theorem C59_mrk_round_trip : forall k1 k2 ev1 ev2 ctx alg a log a' b t e reg key, mrk_on_encrypt k1 ev1 ctx alg a = (log, (a', KrOk)) ->
  suite alg -> ka_key a' = Some b -> Nlen (kb_bytes b) = suite_key_len alg -> ka_edks a' = ka_edks a ++ [e] ->
  mrk_eligible k2 e reg key -> (mk_id k2 = [] -> mk_region k2 <> [] /\ ~ In 58 (mk_region k2)) -> honest_kms log ev2 -> calm ev2 ->
  exists log2 d, mrk_on_decrypt k2 ev2 [e] ctx alg (mk_dargs None t) = (log2, (d, KrOk)) /\ da_key d = Some (mk_kbuf (kv_meta ev2) (kb_bytes b)).
Proof. exact C59_mrk_lemma. Qed.
Print Assumptions C59_mrk_round_trip.

(** The hypotheses hold for the second key alone, and for discovery with a filter. *)
Example C59_kms_example : let '(log, (a', rc)) := kms_on_encrypt toy_kms toy_env toy_ctx 0x0578 no_args in
  rc = KrOk /\ kms_built toy_kms /\ ka_key a' = Some (mk_kbuf 42 (repeat 5 32)) /\ In arn_b (kk_ids toy_kms) /\ kms_permits kms_b arn_b /\ kms_permits kms_disc arn_b /\
  names_key log /\ honest_kms log toy_env /\ calm toy_env.
Proof.
  destruct (kms_on_encrypt toy_kms toy_env toy_ctx 0x0578 no_args) as [log [a' rc]] eqn:E.
  assert (L : forallb undoes log = true /\ forallb same_name log = true /\ rc = KrOk /\ ka_key a' = Some (mk_kbuf 42 (repeat 5 32))).
  { vm_compute in E. injection E as <- <- <-. vm_compute. auto. }
  destruct L as (L1 & L2 & -> & K). split; auto. split; [exact toy_built|]. split; auto. split; [right; now left|].
  split; [split; [intros _; now left|discriminate]|].
  split; [split; [intros X; now destruct X|]|split; [now apply same_names|split; [now apply undoes_honest|exact toy_calm]]].
  intros f F. injection F as <-. apply is_authorized_spec. vm_compute. reflexivity.
Qed.
(** From us-east-1 to eu-west-1, and to a discovery keyring in ap-south-1. *)
Example C59_mrk_example : let '(log, (a', rc)) := mrk_on_encrypt mrk_k_us toy_env toy_ctx 0x0578 no_args in
  rc = KrOk /\ suite 0x0578 /\ ka_edks a' = [mrk_edk] /\ ka_key a' = Some (mk_kbuf 42 (repeat 5 32)) /\
  mrk_eligible mrk_k_eu mrk_edk (text "eu-west-1") mrk_eu /\
  mrk_eligible mrk_disc mrk_edk (text "ap-south-1") (text "arn:aws:kms:ap-south-1:658956600833:key/mrk-80bd8ecd") /\
  honest_kms log toy_env /\ calm toy_env.
Proof.
  destruct (mrk_on_encrypt mrk_k_us toy_env toy_ctx 0x0578 no_args) as [log [a' rc]] eqn:E.
  assert (L : forallb undoes log = true /\ ka_edks a' = [mrk_edk] /\ rc = KrOk /\ ka_key a' = Some (mk_kbuf 42 (repeat 5 32))).
  { vm_compute in E. injection E as <- <- <-. vm_compute. auto. }
  destruct L as (L1 & L2 & -> & K). split; auto. split; [right; vm_compute; auto|]. split; auto. split; auto.
  split; [apply mrk_select_spec; vm_compute; reflexivity|]. split; [apply mrk_select_spec; vm_compute; reflexivity|].
  split; [now apply undoes_honest|exact toy_calm].
Qed.
