(** Properties C39-C45 and C51: keyrings, the default CMM, lists of EDKs and trace records.
    Specification: KeyringSpec.v.  Example data: KeyringExamples.v. *)
From Verif Require Import Base AlgModel EncCtxModel HdrModel FrameModel CryptoModel SessionModel KeyringModel
  WireSpec SessionSpec StreamSpec KeyringSpec SessionExamples StreamExamples KeyringProofs RawKeyringProofs KeyringExamples.
From Coq Require Import Permutation.
Import List.
Open Scope list_scope.
Open Scope N_scope.

(** ** C39 *)
(** A multi-keyring of members that append to the lists they are given: on success every member was called once, in
    order, and the caller's EDK list gained exactly what the members appended; so did the trace, if memory lasted. *)
Theorem C39_multi_encrypt_complete : forall m mem ctx alg a a', Forall appends (members m) ->
  multi_on_encrypt m mem ctx alg a = (a', KrOk) ->
  exists es ts my, called ctx alg (members m) (mk_kargs (ka_key a) [] []) es ts my /\
    ka_key a' = ka_key my /\ ka_key a' <> None /\
    ka_edks a' = ka_edks a ++ concat es /\
    (can_append (mm_trace mem) (length (ka_trace a)) (concat ts) -> ka_trace a' = ka_trace a ++ concat ts).
Proof. exact C39_success_lemma. Qed.
Print Assumptions C39_multi_encrypt_complete.

(** Whatever the members do: when the call fails, the caller's lists are as before, provided that the caller's EDK list can grow. *)
Theorem C39_multi_encrypt_failure_partial : forall m mem ctx alg a a' e,
  multi_on_encrypt m mem ctx alg a = (a', KrErr e) ->
  (forall n, mm_edks mem n = true) -> ka_edks a' = ka_edks a /\ ka_trace a' = ka_trace a.
Proof. exact C39_failure_lemma. Qed.
Print Assumptions C39_multi_encrypt_failure_partial.

(** Without that proviso EDKs stay in the caller's list after a failure. *)
Theorem C39_unchanged_on_failure_refuted : exists m mem ctx alg a a' e,
  multi_on_encrypt m mem ctx alg a = (a', KrErr e) /\ ka_edks a = [] /\ ka_edks a' <> [].
Proof. exists toy_multi, bad_mem, toy_ctx, 0x0578, no_args. eexists _, _. split; [vm_compute; reflexivity|]. split; [reflexivity|discriminate]. Qed.
Print Assumptions C39_unchanged_on_failure_refuted.

(** A generator and two children, of which the last is the generator again. *)
Example C39_example : Forall appends (members toy_multi) /\
  let (a', rc) := multi_on_encrypt toy_multi good_mem toy_ctx 0x0578 no_args in
  rc = KrOk /\ length (ka_edks a') = 3%nat /\ map tr_flags (ka_trace a') = [11; 10; 10] /\ map tr_name (ka_trace a') = [[107; 49]; [107; 50]; [107; 49]].
Proof. split; [repeat constructor; apply aes_appends|]. vm_compute. auto. Qed.
(** A child that fails. *)
Example C39_failure_example : let m := mk_multi (Some (aes_kr toy_aes)) [failing_kr] in
  let (a', rc) := multi_on_encrypt m good_mem toy_ctx 0x0578 no_args in rc = KrErr E_KMS_FAILURE /\ ka_edks a' = [] /\ ka_trace a' = [].
Proof. vm_compute. auto. Qed.

(** ** C40 *)
(** Unless a member meets undefined behaviour: either some member leaves a data key, all before it left none, and the call
    succeeds with what that member left; or no member leaves a data key, and the call succeeds if none failed and
    fails with the last error otherwise. *)
Theorem C40_multi_decrypt_tries_all : forall m edks ctx alg a a' rc, multi_on_decrypt m edks ctx alg a = (a', rc) -> rc <> KrUB ->
  (exists l1 k l2 errs a1 rck b, members m = l1 ++ k :: l2 /\ no_key_from edks ctx alg l1 a errs a1 /\
     keyring_on_decrypt k edks ctx alg a1 = (a', rck) /\ da_key a' = Some b /\ rc = KrOk) \/
  (exists errs, no_key_from edks ctx alg (members m) a errs a' /\
     (errs = [] -> rc = KrOk) /\ (forall es e, errs = es ++ [e] -> rc = KrErr e)).
Proof. exact C40_lemma. Qed.
Print Assumptions C40_multi_decrypt_tries_all.

(** A member that fails but leaves a data key of the wrong length ends the search, although a later member would
    find the data key (the documentation says that failures do not end it). *)
Theorem C40_failures_do_not_stop_refuted : exists k1 k2 edks ctx alg a1 b e,
  keyring_on_decrypt k2 edks ctx alg no_dargs = (a1, KrOk) /\ da_key a1 = Some b /\
  (exists a, keyring_on_decrypt k1 edks ctx alg no_dargs = (a, KrErr e)) /\
  (exists a e', keyring_on_decrypt (multi_keyring (mk_multi None [k1; k2]) good_mem) edks ctx alg no_dargs = (a, KrErr e')).
Proof.
  exists short_key_kr, (aes_kr toy_aes), (ka_edks toy_wrapped), toy_ctx, 0x0578. eexists _, _, _.
  split; [vm_compute; reflexivity|]. split; [reflexivity|]. split; [eexists; vm_compute; reflexivity|eexists _, _; vm_compute; reflexivity].
Qed.
Print Assumptions C40_failures_do_not_stop_refuted.

(** A failing member, one that finds nothing, one that finds the data key. *)
Example C40_example : let m := mk_multi (Some failing_kr) [aes_kr toy_aes2; aes_kr toy_aes] in
  let (a', rc) := multi_on_decrypt m (ka_edks toy_wrapped) toy_ctx 0x0578 no_dargs in
  rc = KrOk /\ option_map kb_bytes (da_key a') = option_map kb_bytes (ka_key toy_wrapped) /\
  snd (multi_on_decrypt m [toy_other_edk] toy_ctx 0x0578 no_dargs) = KrErr E_KMS_FAILURE.
Proof. vm_compute. auto. Qed.

(** ** C41 *)
(** Whatever the keyring does: without a data key but with EDKs it is not called; on success a new data key has
    the length of the suite, and an existing one is in the same buffer with the same length. *)
Theorem C41_interface_encrypt : forall k ctx alg a a' rc, keyring_on_encrypt k ctx alg a = (a', rc) ->
  (ka_key a = None -> ka_edks a <> [] -> a' = a /\ rc = KrErr E_BAD_STATE) /\
  (rc = KrOk ->
     (forall b, ka_key a = None -> ka_key a' = Some b -> suite alg /\ Nlen (kb_bytes b) = suite_key_len alg) /\
     (forall b, ka_key a = Some b -> exists b', ka_key a' = Some b' /\ kb_meta b' = kb_meta b /\ Nlen (kb_bytes b') = Nlen (kb_bytes b))).
Proof. exact C41_encrypt_lemma. Qed.
Print Assumptions C41_interface_encrypt.

(** On decryption an existing data key is refused, and a data key found has the length of the suite. *)
Theorem C41_interface_decrypt : forall k edks ctx alg a a' rc, keyring_on_decrypt k edks ctx alg a = (a', rc) ->
  (da_key a <> None -> a' = a /\ rc = KrErr E_BAD_STATE) /\
  (forall b, rc = KrOk -> da_key a' = Some b -> suite alg /\ Nlen (kb_bytes b) = suite_key_len alg).
Proof. exact C41_decrypt_lemma. Qed.
Print Assumptions C41_interface_decrypt.

(** The bytes of an existing data key can change: only the buffer structure is compared. *)
Theorem C41_data_key_unchanged_refuted : exists k ctx alg a a' b b', keyring_on_encrypt k ctx alg a = (a', KrOk) /\
  ka_key a = Some b /\ ka_key a' = Some b' /\ kb_bytes b' <> kb_bytes b.
Proof.
  exists scribble_kr, [], 0x0578, (mk_kargs (Some (mk_kbuf 7 (repeat 1 32))) [] []). eexists _, _, _.
  split; [vm_compute; reflexivity|]. split; [reflexivity|]. split; [reflexivity|discriminate].
Qed.
Print Assumptions C41_data_key_unchanged_refuted.

(** Success, and each of the refusals. *)
Example C41_example : snd (keyring_on_encrypt (aes_kr toy_aes) toy_ctx 0x0578 no_args) = KrOk /\
  snd (keyring_on_encrypt (aes_kr toy_aes) toy_ctx 0x0578 (mk_kargs None [] [toy_other_edk])) = KrErr E_BAD_STATE /\
  snd (keyring_on_decrypt short_key_kr [] [] 0x0578 no_dargs) = KrErr E_BAD_CIPHERTEXT /\
  snd (keyring_on_decrypt (aes_kr toy_aes) [] [] 0x0578 (mk_dargs (ka_key toy_wrapped) [])) = KrErr E_BAD_STATE.
Proof. vm_compute. auto. Qed.

(** ** C42 *)
(** Encryption materials: the suite is the chosen one; a context with the reserved key is refused and unchanged; on
    success the context gained the reserved key with the new public key if the suite is signed, nothing otherwise, and the
    keyring was called with that context. *)
Theorem C42_default_cmm_generate : forall ec new put c rq alg, suite_choice c rq alg ->
  (In reserved_key (map fst (rq_ctx rq)) -> default_cmm_generate ec new put c rq = (rq_ctx rq, CErr E_RESERVED_NAME)) /\
  (forall ctx m, default_cmm_generate ec new put c rq = (ctx, COk m) ->
     suite alg /\ km_alg m = alg /\
     (exists a, keyring_on_encrypt (dc_keyring c) ctx alg (mk_kargs None [] []) = (a, KrOk) /\
        km_key m = ka_key a /\ km_trace m = ka_trace a /\ km_edks m = ka_edks a) /\
     (In alg signed_suites -> exists sc pub, ec_keygen ec alg = Ok (sc, pub) /\ km_sig m = Some sc /\
        ctx = rq_ctx rq ++ [(reserved_key, pub)] /\ ~ In reserved_key (map fst (rq_ctx rq))) /\
     (~ In alg signed_suites -> km_sig m = None /\ ctx = rq_ctx rq /\ ~ In reserved_key (map fst ctx))).
Proof. exact C42_generate_lemma. Qed.
Print Assumptions C42_default_cmm_generate.

(** The chosen suite exists and is unique. *)
Theorem C42_suite_choice_unique : forall c rq, exists! alg, suite_choice c rq alg.
Proof. intros c rq. exists (default_alg_choice c (rq_alg rq) (rq_policy rq)). split; [apply choice_spec|]. intros y H. eapply choice_unique; [apply choice_spec|exact H]. Qed.
Print Assumptions C42_suite_choice_unique.

(** Exactly the suites can be configured. *)
Theorem C42_configured_suite : forall c alg c' r, default_cmm_set_alg_id c alg = (c', r) ->
  dc_keyring c' = dc_keyring c /\
  (suite alg -> r = Ok tt /\ dc_alg c' = Some alg) /\ (~ suite alg -> r = Err E_UNSUPPORTED_FORMAT /\ c' = c).
Proof. exact C42_configured_lemma. Qed.
Print Assumptions C42_configured_suite.

Example C42_configured_example : suite 0x0178 /\ dc_alg (fst (default_cmm_set_alg_id toy_cmm 0x0178)) = Some 0x0178 /\
  ~ suite 0x0179 /\ snd (default_cmm_set_alg_id toy_cmm 0x0179) = Err E_UNSUPPORTED_FORMAT.
Proof. split; [left; cbn; auto 10|]. split; [reflexivity|]. split; [intros [H|H]; cbn in H; intuition discriminate|reflexivity]. Qed.

(** Decryption materials: given by the keyring's data key, and only if the context holds the reserved key exactly when the suite
    is signed; otherwise each failure has its code. *)
Theorem C42_default_cmm_decrypt : forall ec new c rq a rc, suite (dq_alg rq) -> new = None ->
  keyring_on_decrypt (dc_keyring c) (dq_edks rq) (dq_ctx rq) (dq_alg rq) (mk_dargs None []) = (a, rc) -> rc <> KrUB ->
  let signed := In (dq_alg rq) signed_suites in let held := In reserved_key (map fst (dq_ctx rq)) in
  (forall m, default_cmm_decrypt ec new c rq = COk m -> rc = KrOk /\ da_key a = Some (kd_mat_key m) /\ kd_mat_trace m = da_trace a /\
     kd_mat_alg m = dq_alg rq /\ Nlen (kb_bytes (kd_mat_key m)) = suite_key_len (dq_alg rq) /\ (signed <-> held) /\
     (signed -> exists pub sc, ctx_find reserved_key (dq_ctx rq) = Some pub /\ ec_verify_start ec (dq_alg rq) pub = Ok sc /\ kd_mat_sig m = Some sc) /\
     (~ signed -> kd_mat_sig m = None)) /\
  (forall e, rc = KrErr e -> default_cmm_decrypt ec new c rq = CErr e) /\
  (rc = KrOk -> da_key a = None -> default_cmm_decrypt ec new c rq = CErr E_CANNOT_DECRYPT) /\
  (rc = KrOk -> da_key a <> None -> ~ (signed <-> held) -> default_cmm_decrypt ec new c rq = CErr E_BAD_CIPHERTEXT).
Proof. exact C42_decrypt_lemma. Qed.
Print Assumptions C42_default_cmm_decrypt.

(** A request under a policy that requires commitment, and its decryption: with the context, without the public key, and with no
    matching EDK. *)
Example C42_example : suite_choice toy_cmm toy_request 0x0578 /\
  let (ctx, r) := default_cmm_generate toy_ec None None toy_cmm toy_request in
  ctx = toy_ctx ++ [(reserved_key, [80; 81])] /\
  match r with
  | COk m => km_alg m = 0x0578 /\ length (km_edks m) = 1%nat /\ km_sig m = Some (mk_sigctx [5; 5] []) /\
      (exists dm, default_cmm_decrypt toy_ec None toy_cmm (mk_dec_request 0x0578 (km_edks m) ctx) = COk dm /\
         kb_bytes (kd_mat_key dm) = repeat 7 32 /\ kd_mat_sig dm = Some (mk_sigctx [80; 81] [])) /\
      default_cmm_decrypt toy_ec None toy_cmm (mk_dec_request 0x0578 (km_edks m) toy_ctx) = CErr E_CANNOT_DECRYPT /\
      default_cmm_decrypt toy_ec None toy_cmm (mk_dec_request 0x0578 (ka_edks toy_wrapped) toy_ctx) = CErr E_BAD_CIPHERTEXT
  | _ => False
  end /\
  default_cmm_generate toy_ec None None toy_cmm (mk_enc_request ctx 0 10 CP_REQUIRE_REQUIRE) = (ctx, CErr E_RESERVED_NAME).
Proof.
  split; [apply choice_committing; auto|]. vm_compute. split; [reflexivity|]. split; [|reflexivity]. split; [reflexivity|].
  split; [reflexivity|]. split; [reflexivity|]. split; [eexists; split; [reflexivity|split; reflexivity]|split; reflexivity].
Qed.

(** ** C43 *)
(** A data key wrapped by a raw AES keyring, new or given with the length of the suite, is recovered by that keyring
    from any list with the new EDK in which no earlier EDK opens, for any order of the context. *)
Theorem C43_raw_aes_unwraps_what_it_wrapped : forall cr k ke ctx alg a a', crypto_sizes cr -> dec_inverts cr -> random_sizes ke -> raw_aes_ok k -> distinct_keys ctx ->
  (forall b, ka_key a = Some b -> Nlen (kb_bytes b) = suite_key_len alg) ->
  keyring_on_encrypt (raw_aes_keyring cr k ke) ctx alg a = (a', KrOk) ->
  exists b e, ka_key a' = Some b /\ (forall b0, ka_key a = Some b0 -> b = b0) /\ ka_edks a' = ka_edks a ++ [e] /\
    Nlen (kb_bytes b) = suite_key_len alg /\
    (ke_fail ke 8 = None -> ka_trace a' = ka_trace a ++ [mk_trace_rec (ra_ns k) (ra_name k) (match ka_key a with None => 11 | Some _ => 10 end)]) /\
    forall ke2 ctx2 l1 l2 d, ke_fail ke2 0 = None -> ke_fail ke2 1 = None -> da_key d = None -> Permutation ctx2 ctx ->
      bytes_ok (ra_name k) -> bytes_ok (ke_rand ke 0 12) -> Forall (fun e => bytes_ok (edk_provider_info e)) (l1 ++ l2) ->
      (forall e' dk', In e' l1 -> ~ aes_opens cr k ctx alg e' dk') ->
      exists d' b', keyring_on_decrypt (raw_aes_keyring cr k ke2) (l1 ++ e :: l2) ctx2 alg d = (d', KrOk) /\
        da_key d' = Some b' /\ kb_bytes b' = kb_bytes b.
Proof. exact C43_lemma. Qed.
Print Assumptions C43_raw_aes_unwraps_what_it_wrapped.

(** Decryption never fails for want of a suitable EDK: it yields the data key of the first EDK that is addressed to
    the keyring and opens, and none if there is no such EDK. *)
Theorem C43_raw_aes_search : forall cr k ke edks ctx alg d, raw_aes_ok k -> suite alg -> distinct_keys ctx -> ctx_fits ctx ->
  Forall (fun e => bytes_ok (edk_provider_info e)) edks -> ke_fail ke 0 = None -> ke_fail ke 1 = None -> crypto_sizes cr -> da_key d = None ->
  exists d', keyring_on_decrypt (raw_aes_keyring cr k ke) edks ctx alg d = (d', KrOk) /\
  match da_key d' with
  | None => da_trace d' = da_trace d /\ forall e dk, In e edks -> ~ aes_opens cr k ctx alg e dk
  | Some b => (ke_fail ke 2 = None -> da_trace d' = da_trace d ++ [mk_trace_rec (ra_ns k) (ra_name k) 20]) /\
      exists l1 e l2, edks = l1 ++ e :: l2 /\ aes_opens cr k ctx alg e (kb_bytes b) /\
              forall e' dk', In e' l1 -> ~ aes_opens cr k ctx alg e' dk'
  end.
Proof. exact C43_search_lemma. Qed.
Print Assumptions C43_raw_aes_search.

(** A failed call leaves data key, trace and EDKs as they were. *)
Theorem C43_failure_changes_nothing : forall cr k ke ctx alg a a' e, random_sizes ke ->
  keyring_on_encrypt (raw_aes_keyring cr k ke) ctx alg a = (a', KrErr e) -> a' = a.
Proof. exact C43_failure_lemma. Qed.
Print Assumptions C43_failure_changes_nothing.

(** A new data key has been made when the memory for the encrypted one is missing. *)
Example C43_failure_example : let ke := mk_kenv (fun i => if Nat.eqb i 5 then Some E_OOM else None) (ke_rand toy_ke) 77 zeros [3] in
  random_sizes ke /\ keyring_on_encrypt (raw_aes_keyring toy_cr toy_aes ke) toy_ctx 0x0578 no_args = (no_args, KrErr E_OOM).
Proof. split; [exact toy_ke_sizes|vm_compute; reflexivity]. Qed.

(** A keyring with an empty namespace, which the constructor accepts, wraps but never unwraps. *)
Theorem C43_empty_namespace_refuted : exists k a' d', ra_ns k = [] /\
  keyring_on_encrypt (raw_aes_keyring toy_cr k toy_ke) toy_ctx 0x0578 no_args = (a', KrOk) /\
  keyring_on_decrypt (raw_aes_keyring toy_cr k toy_ke) (ka_edks a') toy_ctx 0x0578 no_dargs = (d', KrOk) /\ da_key d' = None.
Proof.
  exists (mk_raw_aes [] [107] (repeat 9 32)). eexists _, _. split; [reflexivity|]. split; [vm_compute; reflexivity|].
  split; [vm_compute; reflexivity|reflexivity].
Qed.
Print Assumptions C43_empty_namespace_refuted.

(** The hypotheses, and a list with other EDKs before and after. *)
Example C43_example : crypto_sizes toy_cr /\ dec_inverts toy_cr /\ random_sizes toy_ke /\ raw_aes_ok toy_aes /\ distinct_keys toy_ctx /\
  ctx_fits toy_ctx /\ keyring_on_encrypt (aes_kr toy_aes) toy_ctx 0x0578 no_args = (toy_wrapped, KrOk) /\
  option_map kb_bytes (ka_key toy_wrapped) = Some (repeat 7 32) /\
  let (d, rc) := keyring_on_decrypt (aes_kr toy_aes) (toy_other_edk :: ka_edks toy_wrapped ++ [toy_other_edk]) (rev toy_ctx) 0x0578 no_dargs in
  rc = KrOk /\ option_map kb_bytes (da_key d) = Some (repeat 7 32) /\ da_trace d = [mk_trace_rec [110; 115] [107; 49] 20].
Proof.
  split; [exact toy_sizes|]. split; [exact toy_inverts|]. split; [exact toy_ke_sizes|]. split; [exact toy_aes_ok|]. split; [exact toy_distinct|].
  split; [vm_compute; discriminate|]. vm_compute. repeat split.
Qed.

(** ** C44 *)
(** If AES-GCM opens under the wrapping key only what the calls [calls] gave it, a data key obtained for a context was
    wrapped by one of these calls with that context. *)
Theorem C44_bound_to_context : forall cr k ke edks ctx alg d d' b calls, raw_aes_ok k -> distinct_keys ctx ->
  Forall (fun w => distinct_keys (wc_ctx w)) calls -> Forall (fun e => bytes_ok (edk_provider_info e)) edks ->
  (forall iv aad c t p, cr_dec cr (ra_key k) iv aad c t = OpenOk p -> exists w, In w calls /\ wc_seals w iv aad p) ->
  keyring_on_decrypt (raw_aes_keyring cr k ke) edks ctx alg d = (d', KrOk) -> da_key d' = Some b ->
  exists w, In w calls /\ same_map (wc_ctx w) ctx /\ kb_bytes b = wc_data_key w.
Proof. exact C44_lemma. Qed.
Print Assumptions C44_bound_to_context.

(** A wrapping call gives nothing else to AES-GCM under the wrapping key: its result depends on no other value ... *)
Theorem C44_wrapping_seals_only_that : forall cr cr' k ke ctx alg a, distinct_keys ctx ->
  (forall iv aad p, wc_seals (mk_wrap_call ke ctx alg (ka_key a)) iv aad p ->
     cr_enc cr (ra_key k) iv aad p = cr_enc cr' (ra_key k) iv aad p) ->
  raw_aes_on_encrypt cr k ke ctx alg a = raw_aes_on_encrypt cr' k ke ctx alg a.
Proof. exact C44_seals_lemma. Qed.
Print Assumptions C44_wrapping_seals_only_that.

(** ... and the data key it seals is the one it hands out. *)
Theorem C44_wrapped_key_is_data_key : forall cr k ke ctx alg a a', raw_aes_on_encrypt cr k ke ctx alg a = (a', KrOk) ->
  exists b, ka_key a' = Some b /\ kb_bytes b = wc_data_key (mk_wrap_call ke ctx alg (ka_key a)).
Proof. exact C44_data_key_lemma. Qed.
Print Assumptions C44_wrapped_key_is_data_key.

(** AES-GCM that opens exactly one sealing: the context of that sealing works, another does not. *)
Example C44_example : let w := mk_wrap_call toy_ke toy_ctx 0x0578 None in
  let aad := wire_ctx [([97], [2; 3]); ([98], [1])] in
  let cr := mk_crypto (cr_enc toy_cr)
    (fun k iv a c t => if bytes_eqb iv (repeat 5 12) && bytes_eqb a aad && bytes_eqb c (repeat 7 32) && bytes_eqb t (toy_tag (repeat 9 32) iv a c)
                       then OpenOk c else OpenBadTag) (cr_hkdf toy_cr) (cr_upd_ok toy_cr) (cr_verify toy_cr) in
  distinct_keys (wc_ctx w) /\
  (forall iv a c t p, cr_dec cr (ra_key toy_aes) iv a c t = OpenOk p -> exists w', In w' [w] /\ wc_seals w' iv a p) /\
  (exists d', keyring_on_decrypt (raw_aes_keyring cr toy_aes toy_ke) (ka_edks toy_wrapped) toy_ctx 0x0578 no_dargs = (d', KrOk) /\ da_key d' <> None) /\
  (exists d', keyring_on_decrypt (raw_aes_keyring cr toy_aes toy_ke) (ka_edks toy_wrapped) [([98], [1])] 0x0578 no_dargs = (d', KrOk) /\ da_key d' = None).
Proof. exact toy_ideal_aes. Qed.

(** ** C45 *)
(** A data key wrapped with the public key is recovered with the private key from any list with the new EDK in
    which no earlier EDK opens. *)
Theorem C45_raw_rsa_unwraps_what_it_wrapped : forall rs k ke ctx alg a a' k2 pub priv, random_sizes ke -> raw_rsa_ok k -> suite alg -> rsa_pair rs pub priv ->
  rr_pub k = Some pub -> rr_priv k2 = Some priv -> rr_ns k2 = rr_ns k -> rr_name k2 = rr_name k -> rr_pad k2 = rr_pad k ->
  (forall b, ka_key a = Some b -> Nlen (kb_bytes b) = suite_key_len alg) ->
  keyring_on_encrypt (raw_rsa_keyring rs k ke) ctx alg a = (a', KrOk) ->
  exists b e, ka_key a' = Some b /\ (forall b0, ka_key a = Some b0 -> b = b0) /\ ka_edks a' = ka_edks a ++ [e] /\
    Nlen (kb_bytes b) = suite_key_len alg /\
    (ke_fail ke 5 = None -> ka_trace a' = ka_trace a ++ [mk_trace_rec (rr_ns k) (rr_name k) (match ka_key a with None => 3 | Some _ => 2 end)]) /\
    forall ke2 ctx2 l1 l2 d, da_key d = None -> (forall e' dk', In e' l1 -> ~ rsa_opens rs k2 priv e' dk') ->
      exists d' b', keyring_on_decrypt (raw_rsa_keyring rs k2 ke2) (l1 ++ e :: l2) ctx2 alg d = (d', KrOk) /\
        da_key d' = Some b' /\ kb_bytes b' = kb_bytes b.
Proof. exact C45_lemma. Qed.
Print Assumptions C45_raw_rsa_unwraps_what_it_wrapped.

(** Decryption yields the data key of the first EDK that is addressed to the keyring and opens; other EDKs are skipped without
    error.  The only failure is a data key of the wrong length. *)
Theorem C45_raw_rsa_search : forall rs k ke priv edks ctx alg d, raw_rsa_ok k -> rr_priv k = Some priv -> suite alg -> da_key d = None ->
  exists d' rc, keyring_on_decrypt (raw_rsa_keyring rs k ke) edks ctx alg d = (d', rc) /\
  match da_key d' with
  | None => rc = KrOk /\ d' = d /\ forall e dk, In e edks -> ~ rsa_opens rs k priv e dk
  | Some b => rc = (if Nlen (kb_bytes b) =? suite_key_len alg then KrOk else KrErr E_BAD_CIPHERTEXT) /\
      (ke_fail ke 0 = None -> da_trace d' = da_trace d ++ [mk_trace_rec (rr_ns k) (rr_name k) 4]) /\
      exists l1 e l2, edks = l1 ++ e :: l2 /\ rsa_opens rs k priv e (kb_bytes b) /\
              forall e' dk', In e' l1 -> ~ rsa_opens rs k priv e' dk'
  end.
Proof. exact C45_search_lemma. Qed.
Print Assumptions C45_raw_rsa_search.

(** Without the half of the key that is needed: BAD_STATE, nothing changed. *)
Theorem C45_missing_half : forall rs k ke,
  (rr_pub k = None -> forall ctx alg a, keyring_on_encrypt (raw_rsa_keyring rs k ke) ctx alg a = (a, KrErr E_BAD_STATE)) /\
  (rr_priv k = None -> forall edks ctx alg d, keyring_on_decrypt (raw_rsa_keyring rs k ke) edks ctx alg d = (d, KrErr E_BAD_STATE)).
Proof. exact C45_missing_lemma. Qed.
Print Assumptions C45_missing_half.

(** A failed call leaves data key, trace and EDKs as they were. *)
Theorem C45_failure_changes_nothing : forall rs k ke ctx alg a a' e, random_sizes ke ->
  keyring_on_encrypt (raw_rsa_keyring rs k ke) ctx alg a = (a', KrErr e) -> a' = a.
Proof. exact C45_failure_lemma. Qed.
Print Assumptions C45_failure_changes_nothing.

Example C45_failure_example : let ke := mk_kenv (fun i => if Nat.eqb i 3 then Some E_OOM else None) (ke_rand toy_ke) 77 zeros [3] in
  random_sizes ke /\ keyring_on_encrypt (raw_rsa_keyring toy_rsa1 toy_rsa_pub ke) toy_ctx 0x0578 no_args = (no_args, KrErr E_OOM).
Proof. split; [exact toy_ke_sizes|vm_compute; reflexivity]. Qed.

(** A keyring with an empty name, which the constructor accepts, wraps but never unwraps. *)
Theorem C45_empty_name_refuted : exists k k2 a' d', rr_name k = [] /\ rr_name k2 = [] /\ rr_pub k = Some [4] /\ rr_priv k2 = Some [4] /\
  keyring_on_encrypt (raw_rsa_keyring toy_rsa1 k toy_ke) toy_ctx 0x0578 no_args = (a', KrOk) /\
  keyring_on_decrypt (raw_rsa_keyring toy_rsa1 k2 toy_ke) (ka_edks a') toy_ctx 0x0578 no_dargs = (d', KrOk) /\ da_key d' = None.
Proof.
  exists (mk_raw_rsa [110] [] None (Some [4]) 2), (mk_raw_rsa [110] [] (Some [4]) None 2). eexists _, _.
  do 4 (split; [reflexivity|]). split; [vm_compute; reflexivity|]. split; [vm_compute; reflexivity|reflexivity].
Qed.
Print Assumptions C45_empty_name_refuted.

Example C45_example : random_sizes toy_ke /\ raw_rsa_ok toy_rsa_pub /\ suite 0x0578 /\ rsa_pair toy_rsa1 [4] [4] /\
  let (a', rc) := keyring_on_encrypt (raw_rsa_keyring toy_rsa1 toy_rsa_pub toy_ke) toy_ctx 0x0578 no_args in
  rc = KrOk /\ map tr_flags (ka_trace a') = [3] /\
  let (d, rc2) := keyring_on_decrypt (raw_rsa_keyring toy_rsa1 toy_rsa_priv toy_ke) (toy_other_edk :: ka_edks a') [] 0x0578 no_dargs in
  rc2 = KrOk /\ option_map kb_bytes (da_key d) = Some (repeat 6 32).
Proof.
  split; [exact toy_ke_sizes|]. split; [split; [discriminate|split; [discriminate|auto]]|]. split; [vm_compute; tauto|].
  split; [exact toy_rsa_pair|]. vm_compute. auto.
Qed.

(** ** C51 *)
(** Copying: all elements in order, or nothing; it succeeds if memory lasts. *)
Theorem C51_copy_edks : forall tmp grow fail dest src dest' r,
  edk_list_copy_all tmp grow fail dest src = (dest', r) ->
  match r with Ok _ => dest' = dest ++ src | Err _ => dest' = dest end /\
  (tmp = true -> (forall i, fail i = None) -> can_append grow (length dest) src -> r = Ok tt).
Proof. exact C51_copy_edks_lemma. Qed.
Print Assumptions C51_copy_edks.
Theorem C51_copy_trace : forall tmp grow fail dest src dest' r,
  trace_copy_all tmp grow fail dest src = (dest', r) ->
  match r with Ok _ => dest' = dest ++ src | Err _ => dest' = dest end /\
  (tmp = true -> (forall i, fail i = None) -> can_append grow (length dest) src -> r = Ok tt).
Proof. exact C51_copy_trace_lemma. Qed.
Print Assumptions C51_copy_trace.

(** Transferring: all elements in order and an empty source; it succeeds if memory lasts. *)
Theorem C51_transfer : forall A (grow : nat -> bool) (dest src dest' src' : list A) ok,
  transfer_list grow dest src = (dest', src', ok) ->
  (ok = true -> dest' = dest ++ src /\ src' = []) /\
  (can_append grow (length dest) src -> ok = true).
Proof. exact C51_transfer_lemma. Qed.
Print Assumptions C51_transfer.

(** A transfer that fails can leave elements in both lists. *)
Theorem C51_transfer_failure_refuted : exists grow (dest src dest' src' : list N),
  transfer_list grow dest src = (dest', src', false) /\ dest' <> dest /\ src' = src.
Proof. exists (fun n => Nat.ltb n 1), [], [1; 2]. eexists _, _. split; [vm_compute; reflexivity|]. split; [discriminate|reflexivity]. Qed.
Print Assumptions C51_transfer_failure_refuted.

(** A copy that succeeds, one whose second element cannot be cloned, and one that cannot grow the list. *)
Example C51_example : let e := toy_other_edk in let f := toy_edk in
  edk_list_copy_all true (fun _ => true) (fun _ => None) [e] [f; e; f] = ([e; f; e; f], Ok tt) /\
  edk_list_copy_all true (fun _ => true) (fun i => if Nat.eqb i 4 then Some E_OOM else None) [e] [f; e; f] = ([e], Err E_OOM) /\
  edk_list_copy_all true (fun n => Nat.ltb n 3) (fun _ => None) [e] [f; e; f] = ([e], Err E_OOM).
Proof. vm_compute. auto. Qed.
