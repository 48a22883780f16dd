(** The example environment works, in the sense of LiveSpec.v. *)
From Verif Require Import Base AlgModel EncCtxModel HdrModel FrameModel CryptoModel SessionModel
  WireSpec SessionSpec SuiteSpec LiveSpec SessionExamples.
From Coq Require Import ZArith ZifyBool ZifyNat ZifyN.
Import List.
Open Scope list_scope.
Open Scope N_scope.

Lemma toy_works : crypto_works toy_cr.
Proof. constructor; intros; cbn; congruence. Qed.

Lemma toy_env_works : forall s, s_mode s = M_ENCRYPT -> s_policy s = CP_REQUIRE_REQUIRE -> s_max s = 0 ->
  ctx_fits (h_enc_ctx (s_hdr s)) -> (get_alg_id s = None \/ get_alg_id s = Some 0x0578) -> env_works (toy_env 0x0578) s 0x0578.
Proof.
  intros s M P X C A. constructor.
  - intros _ rq V _ _. unfold visible_ctx in V. rewrite M in V. cbn [is_decrypt_mode andb] in V.
    assert (V' : rq_ctx rq = h_enc_ctx (s_hdr s)) by congruence.
    exists (rq_ctx rq). eexists. split; [reflexivity|]. rewrite P, X, V'. constructor; cbn [em_alg em_key em_edks em_sig].
    + reflexivity.
    + cbn. auto.
    + reflexivity.
    + rewrite (eq_refl : Nlen [toy_edk] = 1). lia.
    + now left.
    + split; [intros _; cbn; auto|intros _; vm_compute; discriminate].
    + exact C.
    + constructor; [|constructor]. unfold edk_fits, fits16. vm_compute. repeat split; discriminate.
    + vm_compute. discriminate.
  - destruct A; congruence.
  - intros n. eexists. split; [reflexivity|]. unfold Nlen. rewrite repeat_length. apply N2Nat.id.
  - intros sc. eexists. split; [reflexivity|]. vm_compute. discriminate.
Qed.
