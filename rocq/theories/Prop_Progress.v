(** Properties C30 and C62: progress of a session whose caller follows the buffer estimates.
    Specification: ProgressSpec.v and SessionSpec.v.  Example data: SessionExamples.v and Prop_Session.v. *)
From Verif Require Import Base AlgModel EncCtxModel HdrModel FrameModel CryptoModel SessionModel
  WireSpec SessionSpec ProgressSpec SessionTheorems SessionExamples SessionProgress SessionFollow ProgressExamples Prop_Session.
Import List.
Open Scope list_scope.
Open Scope N_scope.

(** ** C30 *)
(** A successful call that did not finish the message leaves estimates that say what it lacked: more input than
    was left over or more room than was left over (or only the declaration of the message size helps). *)
Theorem C30_estimates_say_what_is_missing : forall cr m ops w e cap input w' r,
  crypto_sizes cr -> history cr m ops w -> plain_call e input ->
  exec cr w (OProcess e cap input) = (w', r) -> o_rc r = POk ->
  is_done (w_s w') = true \/ awaits_size (w_s w') \/
  Nlen input - o_read r < s_iest (w_s w') \/ cap - o_written r < s_oest (w_s w').
Proof. exact estimates_lemma. Qed.
Print Assumptions C30_estimates_say_what_is_missing.

(** A call with at least the estimated input and room that succeeds consumes, produces, changes the state or
    asks for more. *)
Theorem C30_progress : forall cr m ops w e cap input w' r,
  crypto_sizes cr -> history cr m ops w -> plain_call e input ->
  is_done (w_s w) = false -> ~ awaits_size (w_s w) -> s_iest (w_s w) <= Nlen input -> s_oest (w_s w) <= cap ->
  exec cr w (OProcess e cap input) = (w', r) -> o_rc r = POk ->
  0 < o_read r \/ 0 < o_written r \/ s_state (w_s w') <> s_state (w_s w) \/
  s_iest (w_s w) < s_iest (w_s w') \/ s_oest (w_s w) < s_oest (w_s w').
Proof. exact progress_lemma. Qed.
Print Assumptions C30_progress.

(** Decryption in calls of one byte, 129 bytes without room, and all the rest with room for four bytes. *)
Definition ex_ops1 : list op := [OProcess (toy_env 0x0578) 1 (firstn 1 msg2)].
Definition ex_w1 : world := fst (run toy_cr (new_world M_DECRYPT) ex_ops1).
Definition ex_ops2 : list op := ex_ops1 ++ [OProcess (toy_env 0x0578) 0 (firstn 129 msg2)].
Definition ex_w2 : world := fst (run toy_cr (new_world M_DECRYPT) ex_ops2).
Example C30_example :
  history toy_cr M_DECRYPT ex_ops2 ex_w2 /\ is_done (w_s ex_w2) = false /\ s_state (w_s ex_w2) = ST_DECRYPT_BODY /\
  s_iest (w_s ex_w2) = 36 /\ s_oest (w_s ex_w2) = 4 /\ Nlen (window msg2 ex_w2 40) = 40 /\
  o_rc (snd (oblige toy_cr msg2 ex_w2 (toy_env 0x0578) 4 40)) = POk /\ o_read (snd (oblige toy_cr msg2 ex_w2 (toy_env 0x0578) 4 40)) = 36 /\ o_written (snd (oblige toy_cr msg2 ex_w2 (toy_env 0x0578) 4 40)) = 4.
Proof. conj; vm_compute; reflexivity. Qed.

(** A NULL input pointer is an exception: the empty last frame is not written, whatever the room, and nothing changes. *)
Definition null_env : env := mk_env false true (e_gen (toy_env 0x0578)) (e_dec (toy_env 0x0578)) (e_rand (toy_env 0x0578))
  (e_sign (toy_env 0x0578)) 0.
Definition null_ops : list op := [OSetSize 0 0; OProcess null_env 1000 []].
Theorem C30_null_input_refuted : exists cr m ops w e, crypto_sizes cr /\ history cr m ops w /\
  is_done (w_s w) = false /\ ~ awaits_size (w_s w) /\ s_iest (w_s w) = 0 /\
  s_oest (w_s w) <= 1000 /\ e_in_null e = true /\
  exec cr w (OProcess e 1000 []) = (w, mk_opres POk 0 0 []).
Proof.
  exists toy_cr, M_ENCRYPT, null_ops, (fst (run toy_cr (new_world M_ENCRYPT) null_ops)), null_env.
  split; [exact toy_sizes|]. split; [apply toy_history; vm_compute; reflexivity|]. split; [vm_compute; reflexivity|].
  split; [intros (_ & _ & K); vm_compute in K; discriminate|]. split; [vm_compute; reflexivity|].
  split; [vm_compute; discriminate|]. split; [reflexivity|]. vm_compute. reflexivity.
Qed.
Print Assumptions C30_null_input_refuted.

(** So is an unframed message whose size was not declared: both estimates are zero, and no call changes anything. *)
Definition unframed_ops : list op := [OSetFrame 0; OProcess (toy_env 0x0578) 1000 [1; 2]].
Theorem C30_undeclared_size_refuted : exists cr m ops w e input, crypto_sizes cr /\ history cr m ops w /\ plain_call e input /\
  is_done (w_s w) = false /\ awaits_size (w_s w) /\ s_iest (w_s w) = 0 /\ s_oest (w_s w) = 0 /\ input <> [] /\
  exec cr w (OProcess e 1000 input) = (w, mk_opres POk 0 0 []).
Proof.
  exists toy_cr, M_ENCRYPT, unframed_ops, (fst (run toy_cr (new_world M_ENCRYPT) unframed_ops)), (toy_env 0x0578), [1; 2; 3].
  split; [exact toy_sizes|]. split; [apply toy_history; vm_compute; reflexivity|].
  split; [split; [reflexivity|split; [bytes|reflexivity]]|]. split; [vm_compute; reflexivity|].
  split; [split; [|split]; vm_compute; reflexivity|]. split; [vm_compute; reflexivity|]. split; [vm_compute; reflexivity|].
  split; [discriminate|]. vm_compute. reflexivity.
Qed.
Print Assumptions C30_undeclared_size_refuted.

(** ** C62 *)
(** However it cuts the stream, a caller that keeps supplying at least the estimated input and room can only do
    so a bounded number of times: then the session is done, has failed, waits for the message size, or asks for
    more than is left of the stream. *)
Theorem C62_following_the_estimates_ends : forall cr m ops w stream n w',
  crypto_sizes cr -> history cr m ops w -> prefix (w_in w) stream -> obliging cr stream w n w' ->
  N.of_nat n <= (Nlen stream + 4) * (10 * Nlen stream + 10).
Proof. exact obliging_ends. Qed.
Print Assumptions C62_following_the_estimates_ends.

Definition ex_w3 : world := fst (oblige toy_cr msg2 ex_w2 (toy_env 0x0578) 4 40).
Definition ex_w4 : world := fst (oblige toy_cr msg2 ex_w3 (toy_env 0x0578) 1000 1000).
Example C62_example : obliging toy_cr msg2 (new_world M_DECRYPT) 4 ex_w4 /\ is_done (w_s ex_w4) = true /\
  w_out ex_w4 = [10; 11; 12; 13; 14; 15; 16; 17; 18; 19].
Proof.
  split; [|split; vm_compute; reflexivity].
  apply obliged_call with (toy_env 0x0578) 1 1%nat; [vm_compute; reflexivity|].
  apply obliged_call with (toy_env 0x0578) 0 129%nat; [vm_compute; reflexivity|].
  apply obliged_call with (toy_env 0x0578) 4 40%nat; [vm_compute; reflexivity|].
  apply obliged_call with (toy_env 0x0578) 1000 1000%nat; [vm_compute; reflexivity|].
  match goal with |- obliging _ _ ?a _ ?b => replace a with b by (vm_compute; reflexivity) end. apply obliging_stop.
Qed.
