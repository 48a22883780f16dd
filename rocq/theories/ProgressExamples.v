(** A test for one call of an obliging caller, used only by examples. *)
From Verif Require Import Base AlgModel EncCtxModel HdrModel FrameModel CryptoModel SessionModel
  BaseProofs WireSpec SessionSpec ProgressSpec SessionTheorems SessionExamples.
From Coq Require Import ZArith ZifyBool ZifyNat ZifyN.
Import List.
Open Scope list_scope.
Open Scope N_scope.

Definition window (stream : list N) (w : world) (k : nat) : list N := firstn k (skipn (length (w_in w)) stream).
Definition oblige (cr : crypto) (stream : list N) (w : world) (e : env) (cap : N) (k : nat) : world * opres :=
  exec cr w (OProcess e cap (window stream w k)).
Definition obliged (cr : crypto) (stream : list N) (w : world) (e : env) (cap : N) (k : nat) : bool :=
  let input := window stream w k in
  negb (e_in_null e) && forallb (fun x => x <? 256) stream && (Nlen input <? 18446744073709551615) &&
  bytes_eqb (firstn (length (w_in w)) stream) (w_in w) && negb (is_done (w_s w)) &&
  (s_known (w_s w) || negb (s_fsize (w_s w) =? 0) || negb (sstate_eqb (s_state (w_s w)) ST_ENCRYPT_BODY)) &&
  (s_iest (w_s w) <=? Nlen input) && (s_oest (w_s w) <=? cap) &&
  match o_rc (snd (oblige cr stream w e cap k)) with POk => true | _ => false end.

Lemma obliged_call : forall cr stream w e cap k n w2, obliged cr stream w e cap k = true ->
  obliging cr stream (fst (oblige cr stream w e cap k)) n w2 -> obliging cr stream w (S n) w2.
Proof.
  intros cr stream w e cap k n w2 H O. unfold obliged in H. cbn zeta in H.
  repeat match type of H with andb _ _ = true => let K := fresh "K" in apply andb_prop in H as [H K] end.
  apply obliging_call with e cap (window stream w k) (fst (oblige cr stream w e cap k)) (snd (oblige cr stream w e cap k)); auto.
  - split; [destruct (e_in_null e); [discriminate|reflexivity]|]. split; [|lia].
    apply Forall_forall. intros x J. rewrite forallb_forall in K6. apply N.ltb_lt, K6.
    assert (J2 : In x (skipn (length (w_in w)) stream)) by (rewrite <- (firstn_skipn k); apply in_or_app; left; exact J).
    rewrite <- (firstn_skipn (length (w_in w))). apply in_or_app. right. exact J2.
  - apply bytes_eqb_spec in K4. exists (skipn k (skipn (length (w_in w)) stream)).
    rewrite <- app_assoc. unfold window. rewrite firstn_skipn. rewrite <- K4 at 1. symmetry. apply firstn_skipn.
  - destruct (is_done _); [discriminate|reflexivity].
  - intros (A & B & C). rewrite A, B, C in K2. vm_compute in K2. discriminate.
  - lia.
  - lia.
  - destruct (o_rc _); congruence.
Qed.
