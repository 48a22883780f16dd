(** Vocabulary for what a session tells the materials manager and the caller. *)
From Verif Require Import Base AlgModel EncCtxModel HdrModel FrameModel CryptoModel SessionModel WireSpec SessionSpec.
Import List.
Open Scope list_scope.
Open Scope N_scope.

(** The encryption context the caller has set since the last reset, according to the calls that succeeded. *)
Definition ctx_after (c : enc_ctx) (x : op * opres) : enc_ctx :=
  match fst x, o_rc (snd x) with
  | OReset _, _ => []
  | OCtx c', POk => c'
  | _, _ => c
  end.
Definition chosen_ctx (calls : list (op * opres)) : enc_ctx := fold_left ctx_after calls [].

(** The commitment policy in force: a rejected call of aws_cryptosdk_session_set_commitment_policy also changes it,
    a reset does not. *)
Definition policy_after (c : cpolicy) (x : op * opres) : cpolicy := match fst x with OSetPolicy c' => c' | _ => c end.
Definition policy_in_force (calls : list (op * opres)) : cpolicy := fold_left policy_after calls CP_REQUIRE_REQUIRE.

(** The message size known to be an upper bound when call [o] comes after [calls]. *)
Definition size_told (calls : list (op * opres)) (o : op) : N :=
  match o with
  | OProcessFull _ _ input => Nlen input mod 18446744073709551616
  | _ => match declared_size calls with Some n => n | None => bound_in_force calls end
  end.
