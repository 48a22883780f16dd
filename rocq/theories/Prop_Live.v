(** Property C67: an encryption whose helpers work does not fail and can be finished.
    Specification: LiveSpec.v and SessionSpec.v.  Example data: SessionExamples.v and LiveExamples.v. *)
From Verif Require Import Base AlgModel EncCtxModel HdrModel FrameModel CryptoModel SessionModel
  WireSpec SessionSpec SuiteSpec LiveSpec SessionTheorems SessionExamples SessionLive LiveExamples.
Import List.
Open Scope list_scope.
Open Scope N_scope.

(** ** C67 *)
(** As long as the session has not failed, the materials manager answers with fitting materials, the primitives work and
    the message is within the limits of the format, every call of process succeeds, whatever the buffers. *)
Theorem C67_encryption_never_fails : forall cr m ops w e cap input w' r alg,
  crypto_sizes cr -> crypto_works cr -> history cr m ops w ->
  s_mode (w_s w) = M_ENCRYPT -> s_state (w_s w) <> ST_ERROR -> bytes_ok input -> env_works e (w_s w) alg ->
  message_fits (w_s w) (Nlen (w_in w) + Nlen input) ->
  exec cr w (OProcess e cap input) = (w', r) ->
  o_rc r = POk.
Proof. exact C67_lemma. Qed.
Print Assumptions C67_encryption_never_fails.

(** With the message size declared, a call that has the rest of the message and plenty of room finishes the message. *)
Theorem C67_encryption_finishes : forall cr m ops w e cap input w' r alg,
  crypto_sizes cr -> crypto_works cr -> history cr m ops w ->
  s_mode (w_s w) = M_ENCRYPT -> s_state (w_s w) <> ST_ERROR -> bytes_ok input -> env_works e (w_s w) alg ->
  message_fits (w_s w) (Nlen (w_in w) + Nlen input) ->
  e_in_null e = false -> s_known (w_s w) = true -> s_precise (w_s w) = Nlen (w_in w) + Nlen input ->
  2147483648 + 41 * Nlen input + 145 <= cap ->
  exec cr w (OProcess e cap input) = (w', r) ->
  o_rc r = POk /\ o_read r = Nlen input /\ is_done (w_s w') = true.
Proof. exact C67_done_lemma. Qed.
Print Assumptions C67_encryption_finishes.

(** So does a single call of process_full on a session that has only been configured. *)
Theorem C67_one_call_encrypts : forall cr m ops w e cap input w' r alg,
  crypto_sizes cr -> crypto_works cr -> history cr m ops w ->
  s_mode (w_s w) = M_ENCRYPT -> s_state (w_s w) = ST_CONFIG -> bytes_ok input -> env_works e (w_s w) alg ->
  size_fits (s_fsize (w_s w)) (Nlen input) ->
  e_in_null e = false -> s_known (w_s w) = false -> Nlen input <= s_bound (w_s w) ->
  2147483648 + 41 * Nlen input + 145 <= cap ->
  exec cr w (OProcessFull e cap input) = (w', r) ->
  o_rc r = POk /\ o_read r = Nlen input /\ is_done (w_s w') = true.
Proof. exact C67_full_lemma. Qed.
Print Assumptions C67_one_call_encrypts.

(** Six bytes have been offered in frames of four bytes, and the size declared to be ten. *)
Definition live_ops : list op := [OSetFrame 4; OCtx toy_ctx; OProcess (toy_env 0x0578) 1000 [10; 11; 12; 13; 14; 15]; OSetSize 0 10].
Definition live_w : world := fst (run toy_cr (new_world M_ENCRYPT) live_ops).
Example C67_example :
  crypto_sizes toy_cr /\ crypto_works toy_cr /\ history toy_cr M_ENCRYPT live_ops live_w /\
  s_mode (w_s live_w) = M_ENCRYPT /\ s_state (w_s live_w) <> ST_ERROR /\ bytes_ok [14; 15; 16; 17; 18; 19] /\
  env_works (toy_env 0x0578) (w_s live_w) 0x0578 /\ message_fits (w_s live_w) (Nlen (w_in live_w) + Nlen [14; 15; 16; 17; 18; 19]) /\
  e_in_null (toy_env 0x0578) = false /\ s_known (w_s live_w) = true /\
  s_precise (w_s live_w) = Nlen (w_in live_w) + Nlen [14; 15; 16; 17; 18; 19] /\
  o_rc (snd (exec toy_cr live_w (OProcess (toy_env 0x0578) 3000000000 [14; 15; 16; 17; 18; 19]))) = POk /\
  is_done (w_s (fst (exec toy_cr live_w (OProcess (toy_env 0x0578) 3000000000 [14; 15; 16; 17; 18; 19])))) = true.
Proof.
  split; [exact toy_sizes|]. split; [exact toy_works|]. split; [apply toy_history; vm_compute; reflexivity|].
  split; [vm_compute; reflexivity|]. split; [vm_compute; discriminate|]. split; [bytes|].
  split; [apply toy_env_works; try (vm_compute; reflexivity); [vm_compute; discriminate|right; vm_compute; reflexivity]|].
  split; [vm_compute; reflexivity|]. split; [reflexivity|]. split; [vm_compute; reflexivity|].
  split; [vm_compute; reflexivity|]. split; vm_compute; reflexivity.
Qed.

Definition fresh_ops : list op := [OSetFrame 4; OCtx toy_ctx].
Definition fresh_w : world := fst (run toy_cr (new_world M_ENCRYPT) fresh_ops).
Example C67_one_call_example :
  history toy_cr M_ENCRYPT fresh_ops fresh_w /\ s_mode (w_s fresh_w) = M_ENCRYPT /\ s_state (w_s fresh_w) = ST_CONFIG /\
  env_works (toy_env 0x0578) (w_s fresh_w) 0x0578 /\ size_fits (s_fsize (w_s fresh_w)) 5 /\
  s_known (w_s fresh_w) = false /\ 5 <= s_bound (w_s fresh_w) /\
  is_done (w_s (fst (exec toy_cr fresh_w (OProcessFull (toy_env 0x0578) 3000000000 [1; 2; 3; 4; 5])))) = true.
Proof.
  split; [apply toy_history; vm_compute; reflexivity|]. split; [reflexivity|]. split; [reflexivity|].
  split; [apply toy_env_works; try (vm_compute; reflexivity); [vm_compute; discriminate|left; vm_compute; reflexivity]|].
  split; [vm_compute; reflexivity|]. split; [reflexivity|]. split; [vm_compute; discriminate|vm_compute; reflexivity].
Qed.

(** The limit of a single block is one byte below the one the library declares (MAX_UNFRAMED_PLAINTEXT_SIZE, 2^36 - 32):
    a message of exactly that size is accepted by set_message_size and then fails. *)
Definition longest_ops : list op := [OSetFrame 0; OSetSize 0 68719476704].
Definition longest_w : world := fst (run toy_cr (new_world M_ENCRYPT) longest_ops).
Theorem C67_longest_block_refuted : exists cr ops w e alg w' r x,
  crypto_sizes cr /\ crypto_works cr /\ history cr M_ENCRYPT ops w /\
  s_mode (w_s w) = M_ENCRYPT /\ s_state (w_s w) <> ST_ERROR /\ env_works e (w_s w) alg /\
  s_fsize (w_s w) = 0 /\ s_precise (w_s w) = MAX_UNFRAMED_PLAINTEXT_SIZE /\
  exec cr w (OProcess e 1000 []) = (w', r) /\ o_rc r = PErr x.
Proof.
  exists toy_cr, longest_ops, longest_w, (toy_env 0x0578), 0x0578,
    (fst (exec toy_cr longest_w (OProcess (toy_env 0x0578) 1000 []))),
    (snd (exec toy_cr longest_w (OProcess (toy_env 0x0578) 1000 []))), E_CRYPTO_UNKNOWN.
  split; [exact toy_sizes|]. split; [exact toy_works|]. split; [apply toy_history; vm_compute; reflexivity|].
  split; [vm_compute; reflexivity|]. split; [vm_compute; discriminate|].
  split; [apply toy_env_works; try (vm_compute; reflexivity); [vm_compute; discriminate|left; vm_compute; reflexivity]|].
  split; [vm_compute; reflexivity|]. split; [vm_compute; reflexivity|]. split; [apply surjective_pairing|].
  vm_compute. reflexivity.
Qed.
Print Assumptions C67_longest_block_refuted.
