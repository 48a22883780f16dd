(** Vocabulary for progress: when more input or room helps, and callers that follow the estimates. *)
From Verif Require Import Base AlgModel EncCtxModel HdrModel FrameModel CryptoModel SessionModel WireSpec SessionSpec.
Import List.
Open Scope list_scope.
Open Scope N_scope.

(** Only aws_cryptosdk_session_set_message_size helps: an unframed message of unknown size. *)
Definition awaits_size (s : session) : Prop := s_state s = ST_ENCRYPT_BODY /\ s_fsize s = 0 /\ s_known s = false.

(** A call with a proper input pointer and less than SIZE_MAX bytes. *)
Definition plain_call (e : env) (input : list N) : Prop := e_in_null e = false /\ bytes_ok input /\ Nlen input < 18446744073709551615.

(** A caller that offers the next part of [stream], always at least the estimated input and room, until the
    session stops accepting: [n] successful calls lead from one world to another. *)
Inductive obliging (cr : crypto) (stream : list N) : world -> nat -> world -> Prop :=
| obliging_stop : forall w, obliging cr stream w 0 w
| obliging_call : forall w e cap input w1 r n w2,
    plain_call e input -> prefix (w_in w ++ input) stream ->
    is_done (w_s w) = false -> ~ awaits_size (w_s w) -> s_iest (w_s w) <= Nlen input -> s_oest (w_s w) <= cap ->
    exec cr w (OProcess e cap input) = (w1, r) -> o_rc r = POk -> obliging cr stream w1 n w2 ->
    obliging cr stream w (S n) w2.
