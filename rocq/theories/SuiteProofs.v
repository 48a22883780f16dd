(** The suite table of the code against the structure of suite identifiers. *)
From Verif Require Import Base AlgModel SuiteSpec.
From Coq Require Import String ZArith ZifyBool ZifyNat ZifyN.
Import List.
Open Scope list_scope.
Open Scope N_scope.

Definition all_suites : list N := [0x0014; 0x0046; 0x0078; 0x0114; 0x0146; 0x0178; 0x0214; 0x0346; 0x0378; 0x0478; 0x0578].

Lemma kind_in : forall id k, suite_kind id = Some k -> In id all_suites.
Proof.
  intros id k H. unfold suite_kind, cipher_of, family_of in H. pose proof (N.div_mod' id 256) as D.
  set (lo := id mod 256) in *. set (hi := id / 256) in *. clearbody lo hi.
  destruct (N.eqb_spec lo 20); [|destruct (N.eqb_spec lo 70); [|destruct (N.eqb_spec lo 120); [|discriminate]]];
  (destruct (N.eqb_spec hi 0); [|destruct (N.eqb_spec hi 1); [|destruct (N.eqb_spec hi 2); [|destruct (N.eqb_spec hi 3);
    [|destruct (N.eqb_spec hi 4); [|destruct (N.eqb_spec hi 5); [|discriminate]]]]]]); cbn in H; try discriminate;
  subst; cbn; auto 12.
Qed.

Lemma lookup_in : forall id p, alg_lookup id = Some p -> In id all_suites.
Proof.
  intros id p H. unfold alg_lookup in H.
  repeat match type of H with context [if ?a =? ?b then _ else _] => destruct (N.eqb_spec a b) as [->|]; [cbn; auto 12|] end.
  discriminate.
Qed.

Lemma C66_lemma : forall id,
  match suite_kind id with
  | None => alg_lookup id = None /\ alg_is_known id = false /\ alg_is_committing id = false /\ which_sha id = NOSHA
  | Some (key, d, s) => exists p, alg_lookup id = Some p /\ alg_is_known id = true /\ alg_is_committing id = commits d /\
      which_sha id = hash_of d /\ ap_id p = id /\ ap_data_key_len p = key /\ ap_content_key_len p = key /\ ap_iv_len p = 12 /\
      ap_tag_len p = 16 /\ ap_sig_len p = der_len s /\ ap_version p = (if commits d then 2 else 1) /\
      ap_suite_data_len p = (if commits d then 32 else 0) /\ ap_commitment_len p = (if commits d then 32 else 0) /\
      message_id_len p = (if commits d then 32 else 16) /\ authtag_len p = (if commits d then 16 else 12 + 16)
  end.
Proof.
  intros id. destruct (suite_kind id) as [[[key d] s]|] eqn:K.
  - pose proof (kind_in _ _ K) as I. cbn in I.
    repeat (destruct I as [<-|I]; [vm_compute in K; injection K as <- <- <-; eexists; split; [reflexivity|]; vm_compute; auto 20|]).
    destruct I.
  - assert (N : ~ In id all_suites).
    { intros I. cbn in I. repeat (destruct I as [<-|I]; [vm_compute in K; discriminate|]). destruct I. }
    cbn in N. repeat split.
    + destruct (alg_lookup id) eqn:L; auto. destruct (N (lookup_in _ _ L)).
    + unfold alg_is_known. apply Bool.not_true_iff_false. intros E. apply existsb_exists in E. destruct E as [x [I E]].
      apply N.eqb_eq in E. subst x. cbn in I. apply N. repeat (destruct I as [I|I]; [subst id; auto 12|]). destruct I.
    + unfold alg_is_committing. apply Bool.not_true_iff_false. intros E. apply Bool.orb_true_iff in E.
      destruct E as [E|E]; apply N.eqb_eq in E; subst; apply N; vm_compute; auto 12.
    + unfold which_sha. repeat match goal with |- context [?a =? ?b] => destruct (N.eqb_spec a b) as [->|]; [exfalso; apply N; vm_compute; auto 12|] end.
      reflexivity.
Qed.
