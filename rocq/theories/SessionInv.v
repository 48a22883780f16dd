(** The invariant of the session state machine. *)
From Verif Require Import Base AlgModel EncCtxModel HdrModel FrameModel CryptoModel SessionModel
  BaseProofs WireSpec SessionSpec EncCtxProofs HdrProofs FrameProofs SessionBase.
From Coq Require Import ZArith ZifyBool ZifyNat ZifyN.
Import List.
Open Scope list_scope.
Open Scope N_scope.

Definition conf_ok (s : session) : Prop :=
  s_fsize s < 4294967296 /\ s_precise s < 18446744073709551616 /\ s_bound s < 18446744073709551616 /\
  (s_known s = true -> s_precise s <= s_bound s).

(** Nothing has happened since the last reset except configuration. *)
Record pristine (s : session) : Prop := mk_pristine {
  pr_seqno : s_seqno s = 0;
  pr_hcopy : s_hcopy s = None;
  pr_alg : s_alg s = None;
  pr_sig : s_sig s = None;
  pr_sofar : s_sofar s = 0;
  pr_cmm : s_cmm_ok s = false;
  pr_trace : s_trace s = [];
  pr_hdr : exists c, s_hdr s = set_hdr_ctx c hdr_cleared /\ (is_decrypt_mode (s_mode s) = true -> c = []);
}.

(** ** Encryption *)

(** What was decided when the header was made. *)
Record einfo := mk_einfo {
  ei_rq : enc_request; ei_ctx : enc_ctx; ei_m : enc_mat; ei_mid : list N; ei_p : alg_props;
  ei_suite : list N; ei_iv : list N; ei_tag : list N; ei_aad : list N; ei_key : list N }.
Definition ei_alg (i : einfo) : N := em_alg (ei_m i).
Definition ei_auth (i : einfo) : list N :=
  if alg_is_committing (ei_alg i) then ei_tag i else ei_iv i ++ ei_tag i.
Definition ei_head (i : einfo) : list N := ei_aad i ++ ei_auth i.

Record enc_ok (cr : crypto) (s : session) (i : einfo) : Prop := mk_enc_ok {
  eo_mode : s_mode s = M_ENCRYPT;
  eo_lookup : alg_lookup (ei_alg i) = Some (ei_p i);
  eo_alg : s_alg s = Some (ei_p i);
  eo_dk : Nlen (em_key (ei_m i)) = ap_data_key_len (ei_p i);
  eo_edks : 1 <= Nlen (em_edks (ei_m i));
  eo_max : s_max s = 0 \/ Nlen (em_edks (ei_m i)) <= s_max s;
  eo_sig : has_sig (em_sig (ei_m i)) = negb (ap_sig_len (ei_p i) =? 0);
  eo_policy : allowed_for_encrypt (ei_alg i) (rq_policy (ei_rq i)) = true;
  eo_policy2 : s_policy s = rq_policy (ei_rq i) \/ policy_is_valid (s_policy s) = false;
  eo_rqalg : rq_alg (ei_rq i) = 0;
  eo_mid : Nlen (ei_mid i) = message_id_len (ei_p i);
  eo_content : content_key cr (ei_alg i) (ei_mid i) (em_key (ei_m i)) (ei_key i);
  eo_key : s_key s = ei_key i;
  eo_ckey : cipher_key (ei_p i) (ei_key i) = ei_key i;
  eo_suite : (In (ei_alg i) v1_suites /\ ei_suite i = [] /\ ei_iv i = zeros 12) \/
             (In (ei_alg i) v2_suites /\ key_commitment cr (ei_mid i) (em_key (ei_m i)) (ei_suite i) /\
              Nlen (ei_suite i) = 32);
  eo_iv : Nlen (ei_iv i) = 12;
  eo_tag : Nlen (ei_tag i) = 16;
  eo_hdr : s_hdr s = mk_hdr (ei_alg i) (s_fsize s) (ei_iv i) (ei_tag i) (ei_mid i) (ei_suite i)
                       (ei_ctx i) (em_edks (ei_m i)) 0;
  eo_write : hdr_write (s_hdr s) (s_hsize s) = Ok (ei_head i);
  eo_size : Nlen (ei_head i) = s_hsize s;
  eo_sizepos : s_hsize s <> 0;
  eo_small : s_hsize s < 2147483648;
  eo_copy : s_hcopy s = Some (ei_head i);
  eo_enc : cr_enc cr (ei_key i) (msg_iv 0) (ei_aad i) [] = Some ([], ei_tag i);
  eo_cmm : s_cmm_ok s = true;
}.

Definition enc_log (i : einfo) : list event :=
  [EvGen (ei_rq i) (ei_ctx i) (ei_m i); EvRand (ei_mid i);
   EvSeal (ei_key i) (msg_iv 0) (ei_aad i) [] [] (ei_tag i)].

(** The signature covers [b]. *)
Definition signed_so_far (o : option sigctx) (b : list N) : option sigctx :=
  match o with Some sc => Some (mk_sigctx (sc_key sc) (sc_data sc ++ b)) | None => None end.

Record ebody_ok (cr : crypto) (s : session) (i : einfo) (l : list (frame * list N)) : Prop := mk_ebody {
  eb_sealed : Forall (sealed cr (ei_key i) (ei_mid i) (s_fsize s)) l;
  eb_sig : s_sig s = signed_so_far (em_sig (ei_m i)) (ei_head i ++ body_wire l);
  eb_seqno : s_seqno s = 1 + Nlen l;
  eb_sofar : s_sofar s = Nlen (body_text l);
}.

(** ** Decryption *)

Record dinfo := mk_dinfo {
  di_rq : dec_request; di_m : dec_mat; di_p : alg_props; di_mp : alg_props; di_pol : cpolicy;
  di_body : list N; di_auth : list N; di_iv : list N; di_key : list N }.
Definition di_head (i : dinfo) : list N := di_body i ++ di_auth i.

Record dec_ok (cr : crypto) (s : session) (i : dinfo) : Prop := mk_dec_ok {
  do_mode : is_decrypt_mode (s_mode s) = true;
  do_mats : alg_lookup (dm_alg (di_m i)) = Some (di_mp i);
  do_unsigned : s_mode s = M_DECRYPT_UNSIGNED -> ap_sig_len (di_mp i) = 0;
  do_lookup : alg_lookup (h_alg_id (s_hdr s)) = Some (di_p i);
  do_alg : s_alg s = Some (di_p i);
  do_rq : di_rq i = mk_dec_request (h_alg_id (s_hdr s)) (h_edks (s_hdr s)) (h_enc_ctx (s_hdr s));
  do_dk : Nlen (dm_key (di_m i)) = ap_data_key_len (di_p i);
  do_policy : allowed_for_decrypt (h_alg_id (s_hdr s)) (di_pol i) = true;
  do_policy2 : s_policy s = di_pol i \/ policy_is_valid (s_policy s) = false;
  do_content : content_key cr (h_alg_id (s_hdr s)) (h_message_id (s_hdr s)) (dm_key (di_m i)) (di_key i);
  do_key : s_key s = di_key i;
  do_ckey : cipher_key (di_p i) (di_key i) = di_key i;
  do_commit : In (h_alg_id (s_hdr s)) v2_suites ->
    key_commitment cr (h_message_id (s_hdr s)) (dm_key (di_m i)) (h_alg_suite_data (s_hdr s));
  do_wf : hdr_wf (s_hdr s);
  do_limit : edk_limit_ok (s_max s) (s_hdr s);
  do_wire : wire_header (s_hdr s) (di_body i) (di_auth i);
  do_auth_len : h_auth_len (s_hdr s) = Nlen (di_body i);
  do_copy : s_hcopy s = Some (di_head i);
  do_size : s_hsize s = Nlen (di_head i);
  do_iv : di_iv i = (if alg_is_committing (h_alg_id (s_hdr s)) then msg_iv 0 else h_iv (s_hdr s));
  do_open : cr_dec cr (di_key i) (di_iv i) (di_body i) [] (h_auth_tag (s_hdr s)) = OpenOk [];
  do_sig : ap_sig_len (di_p i) <> 0 -> dm_sig (di_m i) <> None;
  do_fsize : s_fsize s = h_frame_len (s_hdr s);
  do_cmm : s_cmm_ok s = true;
}.

Definition dec_log (i : dinfo) (tag : list N) : list event :=
  [EvUnwrap (di_rq i) (di_m i); EvOpen (di_key i) (di_iv i) (di_body i) [] tag []].

Definition dsig (i : dinfo) : option sigctx :=
  if ap_sig_len (di_p i) =? 0 then None else dm_sig (di_m i).

Record dbody_ok (cr : crypto) (s : session) (i : dinfo) (l : list (frame * list N)) : Prop := mk_dbody {
  db_opened : Forall (opened cr (di_key i) (h_message_id (s_hdr s)) (s_fsize s)) l;
  db_seqno : s_seqno s = 1 + Nlen l;
}.
Definition dlog (s : session) (i : dinfo) (l : list (frame * list N)) : list event :=
  dec_log i (h_auth_tag (s_hdr s)) ++ map (open_event (di_key i) (h_message_id (s_hdr s))) l.
Definition elog (i : einfo) (l : list (frame * list N)) : list event :=
  enc_log i ++ map (seal_event (ei_key i) (ei_mid i)) l.

(** Trailer written, with its log. *)
Inductive etrailer (i : einfo) (l : list (frame * list N)) : list N -> list event -> Prop :=
| et_none : ap_sig_len (ei_p i) = 0 -> etrailer i l [] []
| et_sig : forall sc sg, ap_sig_len (ei_p i) <> 0 ->
    signed_so_far (em_sig (ei_m i)) (ei_head i ++ body_wire l) = Some sc ->
    etrailer i l (be_bytes 2 (Nlen sg) ++ sg) [EvSign sc sg].

(** Trailer checked. *)
Inductive dtrailer (cr : crypto) (i : dinfo) (l : list (frame * list N)) : list N -> list event -> Prop :=
| dt_none : ap_sig_len (di_p i) = 0 -> dtrailer cr i l [] []
| dt_sig : forall sc sg, ap_sig_len (di_p i) <> 0 ->
    signed_so_far (dsig i) (di_head i ++ body_wire l) = Some sc ->
    cr_verify cr sc sg = true -> Nlen sg < 65536 ->
    dtrailer cr i l (wire_trailer sg) [EvVerified sc sg].

(** [inv cr s win wout log]: session, input consumed, output handed out and log since the last
    reset. *)
Inductive inv (cr : crypto) : session -> list N -> list N -> list event -> Prop :=
| inv_config : forall s, conf_ok s -> pristine s -> is_valid_mode (s_mode s) = true ->
    s_state s = ST_CONFIG -> inv cr s [] [] []
| inv_gen : forall s, conf_ok s -> pristine s -> s_mode s = M_ENCRYPT ->
    s_state s = ST_GEN_KEY -> inv cr s [] [] []
| inv_read : forall s, conf_ok s -> pristine s -> is_decrypt_mode (s_mode s) = true ->
    s_state s = ST_READ_HEADER -> inv cr s [] [] []
| inv_ehead : forall s i, conf_ok s -> enc_ok cr s i -> s_state s = ST_WRITE_HEADER ->
    ebody_ok cr s i [] -> inv cr s [] [] (elog i [])
| inv_ebody : forall s i l, conf_ok s -> enc_ok cr s i -> s_state s = ST_ENCRYPT_BODY ->
    regular_from 1 l -> Nlen l <= 4294967294 -> ebody_ok cr s i l ->
    inv cr s (body_text l) (ei_head i ++ body_wire l) (elog i l)
| inv_etrailer : forall s i l, conf_ok s -> enc_ok cr s i -> s_state s = ST_WRITE_TRAILER ->
    whole_body l -> ebody_ok cr s i l -> s_known s = true -> s_precise s = Nlen (body_text l) ->
    inv cr s (body_text l) (ei_head i ++ body_wire l) (elog i l)
| inv_edone : forall s i l tr trlog, conf_ok s -> enc_ok cr s i -> s_state s = ST_DONE ->
    whole_body l -> Forall (sealed cr (ei_key i) (ei_mid i) (s_fsize s)) l ->
    s_known s = true -> s_precise s = Nlen (body_text l) -> etrailer i l tr trlog ->
    inv cr s (body_text l) (ei_head i ++ body_wire l ++ tr) (elog i l ++ trlog)
| inv_dbody : forall s i l, conf_ok s -> dec_ok cr s i -> s_state s = ST_DECRYPT_BODY ->
    regular_from 1 l -> Nlen l <= 4294967294 -> dbody_ok cr s i l ->
    s_sig s = signed_so_far (dsig i) (di_head i ++ body_wire l) ->
    inv cr s (di_head i ++ body_wire l) (body_text l) (dlog s i l)
| inv_dtrailer : forall s i l, conf_ok s -> dec_ok cr s i -> s_state s = ST_CHECK_TRAILER ->
    whole_body l -> dbody_ok cr s i l ->
    s_sig s = signed_so_far (dsig i) (di_head i ++ body_wire l) ->
    inv cr s (di_head i ++ body_wire l) (body_text l) (dlog s i l)
| inv_dend : forall s i l tr trlog, conf_ok s -> dec_ok cr s i ->
    s_state s = ST_DONE \/ (s_state s = ST_CHECK_TRAILER /\ s_sig s = None) ->
    whole_body l -> dbody_ok cr s i l -> dtrailer cr i l tr trlog ->
    inv cr s (di_head i ++ body_wire l ++ tr) (body_text l) (dlog s i l ++ trlog)
| inv_error : forall s s0 win wout log more, s_state s = ST_ERROR -> s_fsize s < 4294967296 ->
    s_state s0 <> ST_ERROR -> (is_valid_mode (s_mode s) = true -> s_mode s0 = s_mode s) ->
    inv cr s0 win wout log -> nonces_ok (log ++ more) ->
    inv cr s win wout (log ++ more).

(** ** Nonces of the log *)

Lemma enc_log_nonces : forall i, seal_nonces (enc_log i) = nonce_seq (ei_key i) 0 1.
Proof. reflexivity. Qed.

Lemma whole_body_nonces : forall cr key mid fs l, whole_body l -> Forall (sealed cr key mid fs) l ->
  seal_nonces (map (seal_event key mid) l) = nonce_seq key 1 (length l) /\ Nlen l <= 4294967295.
Proof.
  intros cr key mid fs l [l0 [f [p [-> [R [S T]]]]]] F.
  apply Forall_app in F. destruct F as [F0 F1]. inversion F1 as [|? ? F2 _]; subst.
  rewrite map_app, seal_nonces_app, (seal_event_nonces cr key mid fs l0 1) by auto.
  rewrite app_length, nonce_seq_app. cbn [length Nat.add nonce_seq].
  destruct F2 as [W [_ [IV _]]]. split.
  - f_equal. unfold seal_nonces. cbn [map concat seal_event seal_nonce app]. rewrite IV, S. reflexivity.
  - rewrite Nlen_app, Nlen_cons, Nlen_nil. destruct W as [_ [_ W]].
    destruct (fr_type f); [|congruence|]; lia.
Qed.

Lemma elog_nonces : forall cr key mid fs l i, key = ei_key i -> mid = ei_mid i -> regular_from 1 l \/ whole_body l ->
  Forall (sealed cr key mid fs) l ->
  seal_nonces (elog i l) = nonce_seq (ei_key i) 0 (S (length l)).
Proof.
  intros cr key mid fs l i -> -> [R|W] F; unfold elog; rewrite seal_nonces_app, enc_log_nonces;
  change (S (length l)) with (1 + length l)%nat; rewrite nonce_seq_app; f_equal.
  - now apply (seal_event_nonces cr _ _ fs).
  - now apply (whole_body_nonces cr _ _ fs).
Qed.

Lemma open_events_nonces : forall key mid l, seal_nonces (map (open_event key mid) l) = [].
Proof. induction l as [|[f p] l IH]; [reflexivity|]. exact IH. Qed.

Lemma dlog_nonces : forall s i l, seal_nonces (dlog s i l) = [].
Proof. intros. unfold dlog. rewrite seal_nonces_app, open_events_nonces. reflexivity. Qed.

Lemma nonces_ok_nil : nonces_ok [].
Proof. exists [], O. split; [lia|reflexivity]. Qed.
Lemma nonces_ok_none : forall log, seal_nonces log = [] -> nonces_ok log.
Proof. intros log H. exists [], O. split; [lia|exact H]. Qed.

Lemma inv_nonces : forall cr s win wout log, inv cr s win wout log -> nonces_ok log.
Proof.
  intros cr s win wout log H. destruct H; try exact nonces_ok_nil.
  - exists (ei_key i), 1%nat. split; [lia|]. reflexivity.
  - exists (ei_key i), (S (length l)). split; [unfold Nlen in *; lia|].
    destruct H4. now apply (elog_nonces cr (ei_key i) (ei_mid i) (s_fsize s)); auto.
  - exists (ei_key i), (S (length l)). destruct H3. split.
    + destruct (whole_body_nonces _ _ _ _ _ H2 eb_sealed0) as [_ B]. unfold Nlen in *. lia.
    + now apply (elog_nonces cr (ei_key i) (ei_mid i) (s_fsize s)); auto.
  - exists (ei_key i), (S (length l)). split.
    + destruct (whole_body_nonces _ _ _ _ _ H2 H3) as [_ B]. unfold Nlen in *. lia.
    + rewrite seal_nonces_app, (elog_nonces cr (ei_key i) (ei_mid i) (s_fsize s)) by auto.
      destruct H6; apply app_nil_r.
  - apply nonces_ok_none. apply dlog_nonces.
  - apply nonces_ok_none. apply dlog_nonces.
  - apply nonces_ok_none. rewrite seal_nonces_app, dlog_nonces. destruct H4; reflexivity.
  - assumption.
Qed.

Lemma inv_fsize : forall cr s win wout log, inv cr s win wout log -> s_fsize s < 4294967296.
Proof. intros cr s win wout log H. destruct H; auto; match goal with H : conf_ok _ |- _ => apply H end. Qed.
