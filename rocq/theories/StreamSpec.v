(** Vocabulary for whole streams: messages that decrypt, and feeding a message to a session piece by piece. *)
From Verif Require Import Base AlgModel EncCtxModel HdrModel FrameModel CryptoModel SessionModel WireSpec SessionSpec.
From Coq Require Import Permutation.
Import List.
Open Scope list_scope.
Open Scope N_scope.

(** [hb ++ ha ++ body_wire l ++ tr] is a message under the data key [dk]: an authentic header [h], a whole body
    [l], and for the signing suites a signature that the verification context [vk] accepts. *)
Record valid_message (cr : crypto) (dk : list N) (vk : option sigctx) (h : hdr) (hb ha key : list N)
  (l : list (frame * list N)) (tr : list N) : Prop := {
  vm_head : exists iv, authentic_header cr dk h hb ha iv key;
  vm_size : Nlen (hb ++ ha) < 2147483648;
  vm_dk : Nlen dk = suite_key_len (h_alg_id h);
  vm_commit : is_v2 h -> key_commitment cr (h_message_id h) dk (h_alg_suite_data h);
  vm_body : Forall (opened cr key (h_message_id h) (h_frame_len h)) l;
  vm_whole : whole_body l;
  vm_signed : In (h_alg_id h) signed_suites -> exists sc sg, vk = Some sc /\ tr = wire_trailer sg /\ Nlen sg < 65536 /\
    cr_verify cr (mk_sigctx (sc_key sc) (sc_data sc ++ hb ++ ha ++ body_wire l)) sg = true;
  vm_unsigned : ~ In (h_alg_id h) signed_suites -> tr = [];
}.

(** The materials manager answers the request for the header [h] with the data key [dk] and the verification
    context [vk]. *)
Definition can_decrypt (mode : smode) (dk : list N) (vk : option sigctx) (h : hdr) (e : env) : Prop :=
  exists dm, e_dec e (mk_dec_request (h_alg_id h) (h_edks h) (h_enc_ctx h)) = Ok dm /\ dm_key dm = dk /\
    (In (dm_alg dm) v1_suites \/ In (dm_alg dm) v2_suites) /\
    (mode = M_DECRYPT_UNSIGNED -> ~ In (dm_alg dm) signed_suites) /\
    (In (h_alg_id h) signed_suites -> dm_sig dm = vk).

(** Digest updates do not fail. *)
Definition updates_ok (cr : crypto) : Prop := forall sc b, cr_upd_ok cr sc b = true.

(** The session accepts messages with the header [h]. *)
Definition accepts (s : session) (h : hdr) : Prop :=
  is_decrypt_mode (s_mode s) = true /\ policy_permits_decrypt (s_policy s) (h_alg_id h) /\ edk_limit_ok (s_max s) h.

(** [feed cr good msg w rs w']: calls of aws_cryptosdk_session_process lead from [w] to [w'], each in an environment
    allowed by [good], each given some of the bytes of [msg] that follow those consumed so far, with any output
    buffer; [rs] are the results. *)
Inductive feed (cr : crypto) (good : env -> Prop) (msg : list N) : world -> list opres -> world -> Prop :=
| feed_nil : forall w, feed cr good msg w [] w
| feed_call : forall w e cap input w1 r rs w2, good e -> prefix (w_in w ++ input) msg ->
    exec cr w (OProcess e cap input) = (w1, r) -> feed cr good msg w1 rs w2 -> feed cr good msg w (r :: rs) w2.

(** AES-GCM decryption inverts encryption. *)
Definition dec_inverts (cr : crypto) : Prop :=
  forall k iv a p c t, cr_enc cr k iv a p = Some (c, t) -> cr_dec cr k iv a c t = OpenOk p.

(** The materials manager gives back the data key of the encryption materials [em], whatever the order in which the
    encryption context [ctx] is presented. *)
Definition unwraps (mode : smode) (ctx : enc_ctx) (em : enc_mat) (vk : option sigctx) (e : env) : Prop :=
  forall c, Permutation c ctx ->
  exists dm, e_dec e (mk_dec_request (em_alg em) (em_edks em) c) = Ok dm /\ dm_key dm = em_key em /\
    (In (dm_alg dm) v1_suites \/ In (dm_alg dm) v2_suites) /\
    (mode = M_DECRYPT_UNSIGNED -> ~ In (dm_alg dm) signed_suites) /\
    (In (em_alg em) signed_suites -> dm_sig dm = vk).

(** The signatures in [log] verify under [vk]. *)
Definition signatures_verify (cr : crypto) (em : enc_mat) (vk : option sigctx) (log : list event) : Prop :=
  forall sc sg, In (EvSign sc sg) log -> exists v, vk = Some v /\ Nlen sg < 65536 /\
    (forall sc0, em_sig em = Some sc0 -> sc_data v = sc_data sc0) /\
    cr_verify cr (mk_sigctx (sc_key v) (sc_data sc)) sg = true.
