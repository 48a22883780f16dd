(** Concrete sessions for the properties about requests and reports. *)
From Verif Require Import Base AlgModel EncCtxModel HdrModel FrameModel CryptoModel SessionModel
  WireSpec SessionSpec ReportSpec SessionTheorems SessionExamples.
Import List.
Open Scope list_scope.
Open Scope N_scope.

(** A message of a suite without commitment in whose header the key of the second context entry
    has been changed: the keyring does not look at the context, the header tag no longer verifies. *)
Definition bent_msg : list N :=
  let m := w_out (toy_enc 0x0178 4 CP_FORBID_ALLOW) in
  firstn 33 m ++ (nth 33 m 0 + 1) :: skipn 34 m.
Definition bent_ops : list op := [OSetPolicy CP_FORBID_ALLOW; OProcess (toy_env 0x0178) 1000 bent_msg].

Lemma C65_unauthenticated_witness : exists cr ops w ctx, crypto_sizes cr /\ history cr M_DECRYPT ops w /\
  s_mode (w_s w) = M_DECRYPT /\ visible_ctx (w_s w) = Some ctx /\ ctx <> [] /\
  (forall key iv aad ct tag pt, ~ In (EvOpen key iv aad ct tag pt) (w_log w)).
Proof.
  exists toy_cr, bent_ops, (fst (run toy_cr (new_world M_DECRYPT) bent_ops)), [([97], [2; 3]); ([98 + 1], [1])].
  split; [exact toy_sizes|]. split; [apply toy_history; vm_compute; reflexivity|].
  split; [vm_compute; reflexivity|]. split; [vm_compute; reflexivity|]. split; [discriminate|].
  assert (NO : forallb (fun ev => match ev with EvOpen _ _ _ _ _ _ => false | _ => true end) (w_log (fst (run toy_cr (new_world M_DECRYPT) bent_ops))) = true) by (vm_compute; reflexivity).
  intros key iv aad ct tag pt H. rewrite forallb_forall in NO. specialize (NO _ H). clear H. discriminate NO.
Qed.
