(** Properties C04 (encryption), C17-C29, C31, C53, C54, C56: sessions.  Specification: SessionSpec.v and
    WireSpec.v.  Example data: SessionExamples.v. *)
From Verif Require Import Base AlgModel EncCtxModel HdrModel FrameModel CryptoModel SessionModel
  WireSpec SessionSpec SessionTheorems SessionExamples.
From Coq Require Import String Permutation.
Import List.
Open Scope list_scope.
Open Scope N_scope.

(** ** Example histories *)
Ltac conj := cbn zeta; repeat match goal with |- _ /\ _ => split | |- history _ _ _ _ => apply toy_history end.
Definition msg1 : list N := w_out (toy_enc 0x0378 4 CP_FORBID_ALLOW).
Definition msg2 : list N := w_out (toy_enc 0x0578 4 CP_REQUIRE_REQUIRE).
Definition msg3 : list N := w_out (toy_enc 0x0478 4 CP_REQUIRE_REQUIRE).

Example ex_encryptions :
  history toy_cr M_ENCRYPT (toy_enc_ops 0x0378 4 CP_FORBID_ALLOW) (toy_enc 0x0378 4 CP_FORBID_ALLOW) /\
  is_done (w_s (toy_enc 0x0378 4 CP_FORBID_ALLOW)) = true /\
  history toy_cr M_ENCRYPT (toy_enc_ops 0x0578 4 CP_REQUIRE_REQUIRE) (toy_enc 0x0578 4 CP_REQUIRE_REQUIRE) /\
  is_done (w_s (toy_enc 0x0578 4 CP_REQUIRE_REQUIRE)) = true /\
  w_in (toy_enc 0x0578 4 CP_REQUIRE_REQUIRE) = [10; 11; 12; 13; 14; 15; 16; 17; 18; 19].
Proof. conj; vm_compute; reflexivity. Qed.

Example ex_decryptions :
  history toy_cr M_DECRYPT (toy_dec_ops 0x0378 128 CP_FORBID_ALLOW msg1) (toy_dec 0x0378 128 CP_FORBID_ALLOW msg1) /\
  is_done (w_s (toy_dec 0x0378 128 CP_FORBID_ALLOW msg1)) = true /\
  w_out (toy_dec 0x0378 128 CP_FORBID_ALLOW msg1) = [10; 11; 12; 13; 14; 15; 16; 17; 18; 19] /\
  history toy_cr M_DECRYPT (toy_dec_ops 0x0578 158 CP_REQUIRE_REQUIRE msg2) (toy_dec 0x0578 158 CP_REQUIRE_REQUIRE msg2) /\
  is_done (w_s (toy_dec 0x0578 158 CP_REQUIRE_REQUIRE msg2)) = true /\
  w_out (toy_dec 0x0578 158 CP_REQUIRE_REQUIRE msg2) = [10; 11; 12; 13; 14; 15; 16; 17; 18; 19].
Proof. conj; vm_compute; reflexivity. Qed.

Example ex_crypto : crypto_sizes toy_cr.
Proof. exact toy_sizes. Qed.

(** ** C04, encryption *)
(** The header written carries at most as many encrypted data keys as the limit allows. *)
Theorem C04_encrypt : forall cr m ops w, crypto_sizes cr -> history cr m ops w ->
  s_mode (w_s w) = M_ENCRYPT -> s_state (w_s w) <> ST_ERROR -> w_out w <> [] \/ is_done (w_s w) = true ->
  exists rq ctx em mid log c rest, w_log w = EvGen rq ctx em :: EvRand mid :: log /\
    w_out w = head_start (em_alg em) mid ++ field16 (wire_ctx c) ++ u16 (Nlen (em_edks em) mod 65536) ++ rest /\
    Permutation c ctx /\
    (s_max (w_s w) <> 0 -> Nlen (em_edks em) <= s_max (w_s w)).
Proof. exact C04_encrypt_lemma. Qed.
Print Assumptions C04_encrypt.

Example C04_encrypt_example : let ops := OSetMax 1 :: toy_enc_ops 0x0578 4 CP_REQUIRE_REQUIRE in
  let w := fst (run toy_cr (new_world M_ENCRYPT) ops) in
  history toy_cr M_ENCRYPT ops w /\ s_mode (w_s w) = M_ENCRYPT /\ is_done (w_s w) = true /\ s_max (w_s w) = 1 /\ w_out w = msg2.
Proof. conj; vm_compute; reflexivity. Qed.

Theorem C04_decrypt : forall cr m ops w, crypto_sizes cr -> history cr m ops w ->
  is_decrypt_mode (s_mode (w_s w)) = true -> s_state (w_s w) <> ST_ERROR -> w_out w <> [] \/ is_done (w_s w) = true ->
  exists h hb ha rest, w_in w = hb ++ ha ++ rest /\ wire_header h hb ha /\ hdr_wf h /\
    (s_max (w_s w) <> 0 -> Nlen (h_edks h) <= s_max (w_s w)).
Proof. exact C04_decrypt_lemma. Qed.
Print Assumptions C04_decrypt.

Example C04_decrypt_example : let ops := OSetMax 1 :: toy_dec_ops 0x0578 158 CP_REQUIRE_REQUIRE msg2 in
  let w := fst (run toy_cr (new_world M_DECRYPT) ops) in
  history toy_cr M_DECRYPT ops w /\ is_done (w_s w) = true /\ s_max (w_s w) = 1.
Proof. conj; vm_compute; reflexivity. Qed.

(** ** C17 *)
(** Once anything was released, or the session is done: the input so far is a header, frames and possibly
    a trailer; the header tag was checked, before any frame, under the content key and over all header bytes
    before the tag; every frame was opened under that key; and the session reports that header. *)
Theorem C17_header_authenticated_first : forall cr m ops w, crypto_sizes cr -> history cr m ops w ->
  is_decrypt_mode (s_mode (w_s w)) = true -> w_out w <> [] \/ is_done (w_s w) = true ->
  exists h hb ha iv key dm l tr log,
    authentic_header cr (dm_key dm) h hb ha iv key /\
    w_in w = hb ++ ha ++ body_wire l ++ tr /\ w_out w = body_text l /\ body_so_far l /\
    Forall (opened cr key (h_message_id h) (h_frame_len h)) l /\
    w_log w = EvUnwrap (mk_dec_request (h_alg_id h) (h_edks h) (h_enc_ctx h)) dm ::
              EvOpen key iv hb [] (h_auth_tag h) [] ::
              map (open_event key (h_message_id h)) l ++ log /\
    (s_state (w_s w) <> ST_ERROR ->
       get_alg_id (w_s w) = Some (h_alg_id h) /\ visible_ctx (w_s w) = Some (h_enc_ctx h)).
Proof. exact C17_lemma. Qed.
Print Assumptions C17_header_authenticated_first.

(** A changed header byte: the message is refused. *)
Example C17_example : let w := toy_dec 0x0378 128 CP_FORBID_ALLOW (firstn 27 msg1 ++ [98] ++ skipn 28 msg1) in
  s_state (w_s w) = ST_ERROR /\ w_out w = [].
Proof. vm_compute. auto. Qed.

(** ** C18 *)
Theorem C18_no_output_survives_error : forall cr m ops w e cap input w' r x,
  crypto_sizes cr -> history cr m ops w -> bytes_ok input ->
  exec cr w (OProcess e cap input) = (w', r) -> o_rc r = PErr x ->
  o_written r = 0 /\ o_mem r = zeros cap /\ w_out w' = w_out w.
Proof. exact C18_lemma. Qed.
Print Assumptions C18_no_output_survives_error.

(** The second frame is damaged: the first, decrypted in the same call, is not left in the buffer. *)
Example C18_example : let r := snd (exec toy_cr (new_world M_DECRYPT) (OProcess (toy_env 0x0578) 50 (firstn 160 msg2 ++ [9; 9] ++ skipn 162 msg2))) in
  o_rc r = PErr E_BAD_CIPHERTEXT /\ o_mem r = zeros 50.
Proof. vm_compute. auto. Qed.

(** ** C19 *)
Theorem C19_errors_are_sticky : forall cr m ops w e cap input w1 r1 x ops2,
  crypto_sizes cr -> history cr m ops w -> bytes_ok input ->
  exec cr w (OProcess e cap input) = (w1, r1) -> o_rc r1 = PErr x ->
  Forall (fun o => is_reset o = false) ops2 ->
  exists w2 rs, run cr w1 ops2 = (w2, rs) /\ length rs = length ops2 /\
    w_in w2 = w_in w1 /\ w_out w2 = w_out w1 /\ w_log w2 = w_log w1 /\
    forall e2 cap2 input2, exists w3 r3, exec cr w2 (OProcess e2 cap2 input2) = (w3, r3) /\
      o_rc r3 = PErr x /\ o_written r3 = 0 /\ o_read r3 = 0 /\ o_mem r3 = zeros cap2 /\ w_log w3 = w_log w1.
Proof. exact C19_lemma. Qed.
Print Assumptions C19_errors_are_sticky.

Example C19_example : o_rc (snd (exec toy_cr (new_world M_DECRYPT) (OProcess (toy_env 0x0578) 50 [7]))) = PErr E_BAD_CIPHERTEXT.
Proof. vm_compute. reflexivity. Qed.

(** ** C20 *)
Theorem C20_no_abort : forall cr m ops, crypto_sizes cr -> is_valid_mode m = true -> Forall op_bytes ops ->
  Forall (fun r => o_rc r <> PAbort) (snd (run cr (new_world m) ops)).
Proof. exact C20_lemma. Qed.
Print Assumptions C20_no_abort.

(** Debug builds: the only assert that can fail is the one on the commitment policy. *)
Theorem C20_assert_only_for_invalid_policy : forall cr m ops w o w' r, crypto_sizes cr -> history cr m ops w -> op_bytes o ->
  exec cr w o = (w', r) -> o_rc r = PAssert ->
  exists e cap input, o = OProcess e cap input /\ e_debug e = true /\ policy_is_valid (s_policy (w_s w)) = false.
Proof. exact C20_assert_lemma. Qed.
Print Assumptions C20_assert_only_for_invalid_policy.

(** It can: a rejected set_commitment_policy call in the middle of a message. *)
Theorem C20_debug_assert_refuted : exists cr m ops w e cap input, crypto_sizes cr /\ history cr m ops w /\ bytes_ok input /\
  o_rc (snd (exec cr w (OProcess e cap input))) = PAssert.
Proof. exact C20_assert_witness. Qed.
Print Assumptions C20_debug_assert_refuted.

(** ** C21 *)
Theorem C21_done_means_declared_size : forall cr m ops w rs,
  crypto_sizes cr -> is_valid_mode m = true -> Forall op_bytes ops ->
  run cr (new_world m) ops = (w, rs) -> Forall (fun r => stuck (o_rc r) = false) rs ->
  s_mode (w_s w) = M_ENCRYPT -> is_done (w_s w) = true ->
  declared_size (combine ops rs) = Some (Nlen (w_in w)) /\ Nlen (w_in w) <= bound_in_force (combine ops rs).
Proof. exact C21_lemma. Qed.
Print Assumptions C21_done_means_declared_size.

Example C21_example : let ops := toy_enc_ops 0x0578 4 CP_REQUIRE_REQUIRE in
  let rs := snd (run toy_cr (new_world M_ENCRYPT) ops) in
  declared_size (combine ops rs) = Some 10 /\ bound_in_force (combine ops rs) = 20.
Proof. vm_compute. auto. Qed.

(** ** C22 *)
(** Documented in include/aws/cryptosdk/session.h, not what the code does. *)
Theorem C22_bound_while_streaming_refuted : exists cr ops w rs, crypto_sizes cr /\ Forall op_bytes ops /\
  run cr (new_world M_ENCRYPT) ops = (w, rs) /\ Forall (fun r => o_rc r = POk) rs /\
  bound_in_force (combine ops rs) < Nlen (w_in w) /\ s_state (w_s w) <> ST_ERROR.
Proof. exact C22_bound_witness. Qed.
Print Assumptions C22_bound_while_streaming_refuted.

Theorem C22_late_size_too_small_refuted : exists cr ops w n w' r, crypto_sizes cr /\ history cr M_ENCRYPT ops w /\
  n < Nlen (w_in w) /\ exec cr w (OSetSize 0 n) = (w', r) /\ o_rc r = POk /\ s_state (w_s w') <> ST_ERROR.
Proof. exact C22_size_witness. Qed.
Print Assumptions C22_late_size_too_small_refuted.

(** ** C23 *)
Theorem C23_policy_encrypt : forall cr m ops w, crypto_sizes cr -> history cr m ops w ->
  s_mode (w_s w) = M_ENCRYPT -> s_state (w_s w) <> ST_ERROR -> policy_is_valid (s_policy (w_s w)) = true ->
  w_out w <> [] \/ is_done (w_s w) = true ->
  exists rq ctx em mid log, w_log w = EvGen rq ctx em :: EvRand mid :: log /\
    policy_permits_encrypt (s_policy (w_s w)) (em_alg em) /\
    exists middle last rest, w_out w = head_start (em_alg em) mid ++ middle ++ last ++ rest /\
      (In (em_alg em) v2_suites -> exists com tag, last = com ++ tag /\ Nlen tag = 16 /\ Nlen com = 32 /\
         key_commitment cr mid (em_key em) com).
Proof. exact C23_lemma. Qed.
Print Assumptions C23_policy_encrypt.

Example C23_example : policy_is_valid (s_policy (w_s (toy_enc 0x0578 4 CP_REQUIRE_REQUIRE))) = true /\
  s_state (w_s (toy_enc 0x0378 4 CP_REQUIRE_REQUIRE)) = ST_ERROR /\ w_out (toy_enc 0x0378 4 CP_REQUIRE_REQUIRE) = [] /\
  s_state (w_s (toy_enc 0x0578 4 CP_FORBID_ALLOW)) = ST_ERROR /\ w_out (toy_enc 0x0578 4 CP_FORBID_ALLOW) = [].
Proof. vm_compute. auto. Qed.

(** ** C24 *)
Theorem C24_policy_decrypt : forall cr m ops w, crypto_sizes cr -> history cr m ops w ->
  is_decrypt_mode (s_mode (w_s w)) = true -> s_state (w_s w) <> ST_ERROR -> policy_is_valid (s_policy (w_s w)) = true ->
  w_out w <> [] \/ is_done (w_s w) = true ->
  exists h hb ha rest dm log,
    w_in w = hb ++ ha ++ rest /\ wire_header h hb ha /\ hdr_wf h /\
    w_log w = EvUnwrap (mk_dec_request (h_alg_id h) (h_edks h) (h_enc_ctx h)) dm :: log /\
    policy_permits_decrypt (s_policy (w_s w)) (h_alg_id h) /\
    (is_v2 h -> key_commitment cr (h_message_id h) (dm_key dm) (h_alg_suite_data h)).
Proof. exact C24_lemma. Qed.
Print Assumptions C24_policy_decrypt.

Example C24_example : policy_is_valid (s_policy (w_s (toy_dec 0x0578 158 CP_REQUIRE_REQUIRE msg2))) = true /\
  s_state (w_s (toy_dec 0x0378 128 CP_REQUIRE_REQUIRE msg1)) = ST_ERROR /\
  is_done (w_s (toy_dec 0x0378 128 CP_REQUIRE_ALLOW msg1)) = true.
Proof. vm_compute. auto. Qed.

(** ** C25 *)
Theorem C25_nonces_unique : forall cr m ops w, crypto_sizes cr -> history cr m ops w -> NoDup (seal_nonces (w_log w)).
Proof. exact C25_lemma. Qed.
Print Assumptions C25_nonces_unique.

Example C25_example : Nlen (seal_nonces (w_log (toy_enc 0x0578 4 CP_REQUIRE_REQUIRE))) = 4.
Proof. vm_compute. reflexivity. Qed.

(** ** C26 *)
Theorem C26_signature_covers_message_encrypt : forall cr m ops w, crypto_sizes cr -> history cr m ops w ->
  s_mode (w_s w) = M_ENCRYPT -> is_done (w_s w) = true ->
  exists rq ctx em before tr log, w_log w = EvGen rq ctx em :: log /\ w_out w = before ++ tr /\
    (In (em_alg em) signed_suites ->
       exists sc sg, em_sig em = Some sc /\ tr = be_bytes 2 (Nlen sg) ++ sg /\
         In (EvSign (mk_sigctx (sc_key sc) (sc_data sc ++ before)) sg) log) /\
    (~ In (em_alg em) signed_suites -> tr = []).
Proof. exact C26_encrypt_lemma. Qed.
Print Assumptions C26_signature_covers_message_encrypt.

Theorem C26_signature_covers_message_decrypt : forall cr m ops w, crypto_sizes cr -> history cr m ops w ->
  is_decrypt_mode (s_mode (w_s w)) = true -> is_done (w_s w) = true ->
  exists h hb ha l dm tr log,
    w_in w = hb ++ ha ++ body_wire l ++ tr /\ wire_header h hb ha /\ hdr_wf h /\ whole_body l /\
    w_log w = EvUnwrap (mk_dec_request (h_alg_id h) (h_edks h) (h_enc_ctx h)) dm :: log /\
    (In (h_alg_id h) signed_suites ->
       exists sc sg, dm_sig dm = Some sc /\ tr = wire_trailer sg /\
         cr_verify cr (mk_sigctx (sc_key sc) (sc_data sc ++ hb ++ ha ++ body_wire l)) sg = true) /\
    (~ In (h_alg_id h) signed_suites -> tr = []).
Proof. exact C26_decrypt_lemma. Qed.
Print Assumptions C26_signature_covers_message_decrypt.

(** ** C27 *)
Theorem C27_unsigned_mode : forall cr m ops w, crypto_sizes cr -> history cr m ops w ->
  s_mode (w_s w) = M_DECRYPT_UNSIGNED ->
  (forall rq dm, In (EvUnwrap rq dm) (w_log w) -> dm_alg dm = dq_alg rq) ->
  w_out w <> [] \/ is_done (w_s w) = true ->
  exists h hb ha rest, w_in w = hb ++ ha ++ rest /\ wire_header h hb ha /\ hdr_wf h /\
    ~ In (h_alg_id h) signed_suites.
Proof. exact C27_lemma. Qed.
Print Assumptions C27_unsigned_mode.

Example C27_example :
  let ops msg := [OReset M_DECRYPT_UNSIGNED; OProcess (toy_env 0x0478) 1000 msg] in
  let w msg := fst (run toy_cr (new_world M_DECRYPT) (ops msg)) in
  history toy_cr M_DECRYPT (ops msg3) (w msg3) /\ s_mode (w_s (w msg3)) = M_DECRYPT_UNSIGNED /\
  is_done (w_s (w msg3)) = true /\ w_out (w msg3) = [10; 11; 12; 13; 14; 15; 16; 17; 18; 19] /\
  (forall rq dm, In (EvUnwrap rq dm) (w_log (w msg3)) -> dm_alg dm = dq_alg rq) /\
  s_state (w_s (w msg2)) = ST_ERROR /\ w_out (w msg2) = [].
Proof.
  conj; try (vm_compute; reflexivity).
  apply faithful_cmm. vm_compute. reflexivity.
Qed.

(** Without the condition on the CMM the claim is false: only the suite of the materials is checked. *)
Theorem C27_any_cmm_refuted : exists cr ops w h hb ha rest, crypto_sizes cr /\ history cr M_DECRYPT_UNSIGNED ops w /\
  s_mode (w_s w) = M_DECRYPT_UNSIGNED /\ w_out w <> [] /\ w_in w = hb ++ ha ++ rest /\ wire_header h hb ha /\ hdr_wf h /\
  In (h_alg_id h) signed_suites.
Proof. exact C27_witness. Qed.
Print Assumptions C27_any_cmm_refuted.

(** ** C28 *)
(** Except when set_message_size refuses, all or nothing. *)
Theorem C28_process_full_all_or_nothing_partial : forall cr m ops w e cap input w' r,
  crypto_sizes cr -> history cr m ops w -> bytes_ok input ->
  s_state (w_s w) = ST_CONFIG ->
  exec cr w (OProcessFull e cap input) = (w', r) ->
  (o_rc r = POk /\ is_done (w_s w') = true /\ w_in w' = w_in w ++ input /\ o_written r = Nlen (o_mem r) /\
   w_out w' = w_out w ++ o_mem r) \/
  (exists x, o_rc r = PErr x /\ s_state (w_s w') = ST_ERROR /\ w_out w' = w_out w /\
   (o_written r = 0 /\ o_mem r = zeros cap \/
    s_mode (w_s w) = M_ENCRYPT /\ (s_known (w_s w) = true \/ s_bound (w_s w) < Nlen input mod 18446744073709551616))).
Proof. exact C28_lemma. Qed.
Print Assumptions C28_process_full_all_or_nothing_partial.

Example C28_example : let r := snd (exec toy_cr (new_world M_DECRYPT) (OProcessFull (toy_env 0x0578) 50 msg2)) in
  let r' := snd (exec toy_cr (new_world M_DECRYPT) (OProcessFull (toy_env 0x0578) 50 (msg2 ++ [0]))) in
  o_rc r = POk /\ o_mem r = [10; 11; 12; 13; 14; 15; 16; 17; 18; 19] /\
  o_rc r' = PErr E_BAD_CIPHERTEXT /\ o_mem r' = zeros 50.
Proof. vm_compute. auto. Qed.

(** When it does refuse, neither the buffer nor the count is touched. *)
Theorem C28_buffer_always_cleared_refuted : exists cr ops w e cap input w' r x,
  crypto_sizes cr /\ history cr M_ENCRYPT ops w /\ bytes_ok input /\
  s_state (w_s w) = ST_CONFIG /\ exec cr w (OProcessFull e cap input) = (w', r) /\ o_rc r = PErr x /\ o_mem r <> zeros cap.
Proof. exact C28_witness. Qed.
Print Assumptions C28_buffer_always_cleared_refuted.

(** ** C29 *)
Theorem C29_terminates_within_buffers : forall cr m ops w e cap input w' r,
  crypto_sizes cr -> history cr m ops w -> bytes_ok input ->
  exec cr w (OProcess e cap input) = (w', r) \/ exec cr w (OProcessFull e cap input) = (w', r) ->
  o_rc r <> POutOfFuel /\ o_read r <= Nlen input /\ o_written r <= cap /\
  (o_rc r = POk -> o_written r = Nlen (o_mem r)).
Proof. exact C29_lemma. Qed.
Print Assumptions C29_terminates_within_buffers.

(** Room for 40 bytes: the header (92 bytes) does not fit, nothing is written. *)
Example C29_example : let r := snd (exec toy_cr (new_world M_ENCRYPT) (OProcess (toy_env 0x0578) 40 [1; 2; 3])) in
  o_rc r = POk /\ o_written r = 0 /\ o_read r = 0.
Proof. vm_compute. auto. Qed.

(** ** C31 *)
(** Reset gives the session just created, except for policy, limit, frame size, and the bytes of the key
    commitment array. *)
Theorem C31_reset : forall cr w m, is_valid_mode m = true ->
  let s := w_s w in
  exec cr w (OReset m) =
    (mk_world (set_policy (s_policy s) (set_max (s_max s) (set_fsize (s_fsize s) (set_commit (s_commit s) (new_session m)))))
       [] [] [], mk_opres POk 0 0 []).
Proof. exact C31_lemma. Qed.
Print Assumptions C31_reset.

(** The frame size chosen for encryption does not survive a decryption in between. *)
Theorem C31_frame_size_kept_refuted : exists cr ops w n, crypto_sizes cr /\
  history cr M_ENCRYPT ([OSetFrame n] ++ ops ++ [OReset M_ENCRYPT]) w /\
  (forall k, ~ In (OSetFrame k) ops) /\ s_fsize (w_s w) <> n.
Proof. exact C31_witness. Qed.
Print Assumptions C31_frame_size_kept_refuted.

(** ** C53 *)
(** Key derivation calls the derivation function on the specified inputs and no others. *)
Theorem C53_derivation_inputs : forall cr cr' alg p dk mid clen k0 c0, alg_lookup alg = Some p ->
  (forall pu h s i f n, kdf_input alg mid dk pu = Some (h, s, i, f, n) -> cr_hkdf cr h s i f n = cr_hkdf cr' h s i f n) ->
  derive_key cr p dk mid clen k0 c0 = derive_key cr' p dk mid clen k0 c0.
Proof. exact C53_inputs_lemma. Qed.
Print Assumptions C53_derivation_inputs.

Theorem C53_inputs_separate : forall alg mid dk pu alg' mid' dk' pu' x,
  kdf_input alg mid dk pu = Some x -> kdf_input alg' mid' dk' pu' = Some x ->
  pu = pu' /\ mid = mid' /\ dk = dk' /\ (pu = P_CONTENT -> alg = alg').
Proof. exact C53_separation_lemma. Qed.
Print Assumptions C53_inputs_separate.

Theorem C53_plain_suites_use_data_key : forall cr alg p dk mid k0 c0,
  alg_lookup alg = Some p -> In alg plain_suites -> Nlen mid = 16 ->
  derive_key cr p dk mid 0 k0 c0 = mk_kdf KOk dk c0.
Proof. exact C53_plain_lemma. Qed.
Print Assumptions C53_plain_suites_use_data_key.

(** The commitment does not name the suite. *)
Theorem C53_commitment_names_suite_refuted : exists alg alg' mid dk x, alg <> alg' /\
  kdf_input alg mid dk P_COMMIT = Some x /\ kdf_input alg' mid dk P_COMMIT = Some x.
Proof. exists 0x0478, 0x0578, [], []. eexists. split; [discriminate|]. split; reflexivity. Qed.
Print Assumptions C53_commitment_names_suite_refuted.

Example C53_example : kdf_input 0x0378 [1] [2] P_CONTENT = Some (SHA384, zeros 48, [2], [3; 120; 1], 32) /\
  (exists p, alg_lookup 0x0378 = Some p) /\ (exists p, alg_lookup 0x0014 = Some p) /\ In 0x0014 plain_suites.
Proof. split; [reflexivity|]. repeat split; try (eexists; reflexivity). cbn. auto. Qed.

(** ** C54 *)
Theorem C54_frame_aad_injective : forall mid ty n len mid' ty' n' len',
  Nlen mid = 16 \/ Nlen mid = 32 -> Nlen mid' = 16 \/ Nlen mid' = 32 ->
  n < 4294967296 -> n' < 4294967296 -> len < 18446744073709551616 -> len' < 18446744073709551616 ->
  frame_aad mid ty n len = frame_aad mid' ty' n' len' -> mid = mid' /\ ty = ty' /\ n = n' /\ len = len'.
Proof. exact C54_lemma. Qed.
Print Assumptions C54_frame_aad_injective.

Example C54_example : Nlen (zeros 32) = 32 /\ Nlen (frame_aad (zeros 32) FRAME_TYPE_FINAL 3 77) = 78.
Proof. vm_compute. auto. Qed.

(** ** C56 *)
(** The claim is false: the session reports success on a message whose header does not parse. *)
Theorem C56_oversized_edks_refused_refuted : exists cr ops w, crypto_sizes cr /\ history cr M_ENCRYPT ops w /\
  is_done (w_s w) = true /\ hdr_parse 0 (w_out w) = Err E_BAD_CIPHERTEXT.
Proof. exact C56_witness. Qed.
Print Assumptions C56_oversized_edks_refused_refuted.
