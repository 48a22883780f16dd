(** Properties C63-C66: what a session demands of the materials manager, what it tells it and the caller, and the
    table of algorithm suites.  Specification: ReportSpec.v, SuiteSpec.v and SessionSpec.v. *)
From Verif Require Import Base AlgModel EncCtxModel HdrModel FrameModel CryptoModel SessionModel
  WireSpec SessionSpec ReportSpec SuiteSpec SuiteProofs SessionExamples SessionReport ReportExamples.
Import List.
Open Scope list_scope.
Open Scope N_scope.

(** ** C63 *)
Theorem C63_encrypt_materials : forall cr m ops w, crypto_sizes cr -> history cr m ops w ->
  s_mode (w_s w) = M_ENCRYPT -> w_out w <> [] \/ is_done (w_s w) = true ->
  exists rq ctx em more, w_log w = EvGen rq ctx em :: more /\
    Nlen (em_key em) = suite_key_len (em_alg em) /\ em_edks em <> [] /\ (em_sig em <> None <-> In (em_alg em) signed_suites) /\
    In (em_alg em) (v1_suites ++ v2_suites).
Proof. exact C63_encrypt_lemma. Qed.
Print Assumptions C63_encrypt_materials.

Theorem C63_decrypt_materials : forall cr m ops w, crypto_sizes cr -> history cr m ops w ->
  is_decrypt_mode (s_mode (w_s w)) = true -> w_out w <> [] \/ is_done (w_s w) = true ->
  exists rq dm more, w_log w = EvUnwrap rq dm :: more /\
    Nlen (dm_key dm) = suite_key_len (dq_alg rq) /\ (In (dq_alg rq) signed_suites -> dm_sig dm <> None) /\
    In (dq_alg rq) (v1_suites ++ v2_suites) /\ In (dm_alg dm) (v1_suites ++ v2_suites).
Proof. exact C63_decrypt_lemma. Qed.
Print Assumptions C63_decrypt_materials.

Example C63_example : history toy_cr M_ENCRYPT (toy_enc_ops 0x0578 4 CP_REQUIRE_REQUIRE) (toy_enc 0x0578 4 CP_REQUIRE_REQUIRE) /\
  s_mode (w_s (toy_enc 0x0578 4 CP_REQUIRE_REQUIRE)) = M_ENCRYPT /\ is_done (w_s (toy_enc 0x0578 4 CP_REQUIRE_REQUIRE)) = true.
Proof. split; [apply toy_history; vm_compute; reflexivity|]. vm_compute. auto. Qed.

(** ** C64 *)
(** The request of an encryption: the context the caller chose, no demand for a suite, the size or bound in force, and
    the commitment policy in force. *)
Theorem C64_request : forall cr m ops w rs o w' r new rq ctx em,
  crypto_sizes cr -> is_valid_mode m = true -> Forall op_bytes ops -> op_bytes o ->
  run cr (new_world m) ops = (w, rs) -> Forall (fun r => stuck (o_rc r) = false) rs ->
  exec cr w o = (w', r) -> w_log w' = w_log w ++ new -> In (EvGen rq ctx em) new ->
  let calls := combine ops rs in
  rq = mk_enc_request (chosen_ctx calls) 0 (size_told calls o) (policy_in_force calls).
Proof. exact C64_lemma. Qed.
Print Assumptions C64_request.

(** The size it gives bounds the finished message, however sizes and bounds were declared. *)
Theorem C64_size_bounds_message : forall cr m ops w rq ctx em, crypto_sizes cr -> history cr m ops w ->
  s_mode (w_s w) = M_ENCRYPT -> is_done (w_s w) = true -> In (EvGen rq ctx em) (w_log w) -> Nlen (w_in w) <= rq_psize rq.
Proof. exact C64_bound_lemma. Qed.
Print Assumptions C64_size_bounds_message.

Example C64_example :
  let ops := [OSetPolicy CP_REQUIRE_ALLOW; OSetBound 50; OCtx toy_ctx] in
  let (w, rs) := run toy_cr (new_world M_ENCRYPT) ops in
  let w' := fst (exec toy_cr w (OProcess (toy_env 0x0478) 1000 [1; 2; 3])) in
  exists em more, w_log w' = w_log w ++ EvGen (mk_enc_request toy_ctx 0 50 CP_REQUIRE_ALLOW) toy_ctx em :: more.
Proof. vm_compute. eexists _, _. reflexivity. Qed.

(** ** C65 *)
(** A context shown during or after decryption is one that the materials manager accepted, and the trace shown is its
    answer to that request. *)
Theorem C65_decrypt_report : forall cr m ops w ctx, crypto_sizes cr -> history cr m ops w ->
  is_decrypt_mode (s_mode (w_s w)) = true -> visible_ctx (w_s w) = Some ctx ->
  exists rq dm, In (EvUnwrap rq dm) (w_log w) /\ dq_ctx rq = ctx /\ visible_trace (w_s w) = Some (dm_trace dm).
Proof. exact C65_decrypt_lemma. Qed.
Print Assumptions C65_decrypt_report.

Theorem C65_encrypt_report : forall cr m ops w tr, crypto_sizes cr -> history cr m ops w ->
  s_mode (w_s w) = M_ENCRYPT -> visible_trace (w_s w) = Some tr ->
  exists rq ctx em, In (EvGen rq ctx em) (w_log w) /\ visible_ctx (w_s w) = Some ctx /\ tr = em_trace em.
Proof. exact C65_encrypt_lemma. Qed.
Print Assumptions C65_encrypt_report.

Theorem C65_context_before_start : forall cr m ops w rs,
  crypto_sizes cr -> is_valid_mode m = true -> Forall op_bytes ops ->
  run cr (new_world m) ops = (w, rs) -> Forall (fun r => stuck (o_rc r) = false) rs ->
  s_mode (w_s w) = M_ENCRYPT -> s_state (w_s w) = ST_CONFIG -> visible_ctx (w_s w) = Some (chosen_ctx (combine ops rs)).
Proof. exact C65_initial_lemma. Qed.
Print Assumptions C65_context_before_start.

(** The context shown need not be authentic: it is shown once the materials manager has answered, also when the
    header then turns out to be forged. *)
Theorem C65_shown_context_authentic_refuted : exists cr ops w ctx, crypto_sizes cr /\ history cr M_DECRYPT ops w /\
  s_mode (w_s w) = M_DECRYPT /\ visible_ctx (w_s w) = Some ctx /\ ctx <> [] /\
  (forall key iv aad ct tag pt, ~ In (EvOpen key iv aad ct tag pt) (w_log w)).
Proof. exact C65_unauthenticated_witness. Qed.
Print Assumptions C65_shown_context_authentic_refuted.

Example C65_example :
  let msg := w_out (toy_enc 0x0178 4 CP_FORBID_ALLOW) in
  let e := mk_env false false (e_gen (toy_env 0x0178)) (fun rq => Ok (mk_dec_mat (toy_key (dq_alg rq)) [7; 5] None (dq_alg rq)))
             (e_rand (toy_env 0x0178)) (e_sign (toy_env 0x0178)) 0 in
  let w := fst (run toy_cr (new_world M_DECRYPT) [OSetPolicy CP_FORBID_ALLOW; OProcess e 2 msg]) in
  visible_ctx (w_s w) = Some [([97], [2; 3]); ([98], [1])] /\ visible_trace (w_s w) = Some [7; 5] /\ is_done (w_s w) = false.
Proof. vm_compute. auto. Qed.

(** ** C66 *)
Theorem C66_suite_table : forall id,
  match suite_kind id with
  | None => alg_lookup id = None /\ alg_is_known id = false /\ alg_is_committing id = false /\ which_sha id = NOSHA
  | Some (key, d, s) => exists p, alg_lookup id = Some p /\ alg_is_known id = true /\ alg_is_committing id = commits d /\
      which_sha id = hash_of d /\ ap_id p = id /\ ap_data_key_len p = key /\ ap_content_key_len p = key /\ ap_iv_len p = 12 /\
      ap_tag_len p = 16 /\ ap_sig_len p = der_len s /\ ap_version p = (if commits d then 2 else 1) /\
      ap_suite_data_len p = (if commits d then 32 else 0) /\ ap_commitment_len p = (if commits d then 32 else 0) /\
      message_id_len p = (if commits d then 32 else 16) /\ authtag_len p = (if commits d then 16 else 12 + 16)
  end.
Proof. exact C66_lemma. Qed.
Print Assumptions C66_suite_table.

Example C66_example : suite_kind 0x0346 = Some (24, D_HKDF384, S_P384) /\ suite_kind 0x0246 = None.
Proof. split; reflexivity. Qed.
