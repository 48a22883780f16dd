(** Theorems about session histories: authentication, policies, nonces, signatures, errors. *)
From Verif Require Import Base AlgModel EncCtxModel HdrModel FrameModel CryptoModel SessionModel
  BaseProofs WireSpec SessionSpec EncCtxProofs HdrProofs FrameProofs SessionBase SessionInv SessionStep SessionStepD SessionRun.
From Coq Require Import String Permutation ZArith ZifyBool ZifyNat ZifyN.
Import List.
Open Scope list_scope.
Open Scope N_scope.

(** ** Unfolding the invariant *)

Lemma inv_live : forall cr s win wout log, inv cr s win wout log ->
  exists s0 log0 more, log = log0 ++ more /\ inv cr s0 win wout log0 /\ s_state s0 <> ST_ERROR /\
    (is_valid_mode (s_mode s) = true -> s_mode s0 = s_mode s) /\
    (s_state s <> ST_ERROR -> s0 = s /\ more = []).
Proof.
  intros cr s win wout log I. destruct (sstate_eqb_spec (s_state s) ST_ERROR) as [E|E].
  - destruct I; try congruence.
    + destruct H1 as [|[]]; congruence.
    + exists s0, log, more. repeat split; auto; congruence.
  - exists s, log, []. rewrite app_nil_r. repeat split; auto.
Qed.

(** A live decryption that has released something or is done. *)
Lemma dec_shape : forall cr s win wout log, inv cr s win wout log -> s_state s <> ST_ERROR ->
  is_decrypt_mode (s_mode s) = true -> wout <> [] \/ is_done s = true ->
  exists i l tr trlog, dec_ok cr s i /\ dbody_ok cr s i l /\ conf_ok s /\
    win = di_head i ++ body_wire l ++ tr /\ wout = body_text l /\ log = dlog s i l ++ trlog /\
    body_so_far l /\ (is_done s = true -> whole_body l /\ dtrailer cr i l tr trlog) /\
    (is_done s = false -> tr = [] /\ trlog = [] \/ dtrailer cr i l tr trlog).
Proof.
  intros cr s win wout log I NE DM OUT. unfold is_done in *.
  destruct I as [s CONF PR MODE ST|s CONF PR MODE ST|s CONF PR MODE ST|s i CONF EO ST EB|s i l CONF EO ST R L EB
    |s i l CONF EO ST W EB K PE|s i l tr trlog CONF EO ST W F K PE ET|s i l CONF DO ST R L DB SG|s i l CONF DO ST W DB SG
    |s i l tr trlog CONF DO ST W DB DT|s s0 win wout log more ST FS NE' MD I NON]; try congruence;
  try (rewrite ST in OUT; cbn in OUT; destruct OUT; congruence);
  try (destruct EO as [MO]; rewrite MO in DM; discriminate).
  - exists i, l, [], []. rewrite !app_nil_r. unfold body_so_far. rewrite ST.
    split; [exact DO|]. split; [exact DB|]. split; [exact CONF|]. repeat split; auto; discriminate.
  - exists i, l, [], []. rewrite !app_nil_r. unfold body_so_far. rewrite ST.
    split; [exact DO|]. split; [exact DB|]. split; [exact CONF|]. repeat split; auto; discriminate.
  - exists i, l, tr, trlog. unfold body_so_far.
    split; [exact DO|]. split; [exact DB|]. split; [exact CONF|]. repeat split; auto.
Qed.

(** A live encryption that has written something or is done. *)
Lemma enc_shape : forall cr s win wout log, inv cr s win wout log -> s_state s <> ST_ERROR ->
  s_mode s = M_ENCRYPT -> wout <> [] \/ is_done s = true ->
  exists i l tr trlog, enc_ok cr s i /\ Forall (sealed cr (ei_key i) (ei_mid i) (s_fsize s)) l /\ conf_ok s /\
    wout = ei_head i ++ body_wire l ++ tr /\ win = body_text l /\ log = elog i l ++ trlog /\
    body_so_far l /\ (is_done s = true -> whole_body l /\ etrailer i l tr trlog /\ s_known s = true /\ s_precise s = Nlen win) /\
    (is_done s = false -> tr = [] /\ trlog = []) /\ (regular_from 1 l \/ s_known s = true /\ s_precise s = Nlen win).
Proof.
  intros cr s win wout log I NE DM OUT. unfold is_done in *.
  destruct I as [s CONF PR MODE ST|s CONF PR MODE ST|s CONF PR MODE ST|s i CONF EO ST EB|s i l CONF EO ST R L EB
    |s i l CONF EO ST W EB K PE|s i l tr trlog CONF EO ST W F K PE ET|s i l CONF DO ST R L DB SG|s i l CONF DO ST W DB SG
    |s i l tr trlog CONF DO ST W DB DT|s s0 win wout log more ST FS NE' MD I NON]; try congruence;
  try (rewrite ST in OUT; cbn in OUT; destruct OUT; congruence);
  try (destruct DO as [MO]; rewrite DM in MO; discriminate).
  - exists i, l, [], []. rewrite !app_nil_r. unfold body_so_far. rewrite ST.
    split; [exact EO|]. split; [apply EB|]. split; [exact CONF|]. repeat split; auto; discriminate.
  - exists i, l, [], []. rewrite !app_nil_r. unfold body_so_far. rewrite ST.
    split; [exact EO|]. split; [apply EB|]. split; [exact CONF|]. repeat split; auto; try discriminate.
  - exists i, l, tr, trlog. unfold body_so_far. rewrite ST.
    split; [exact EO|]. split; [auto|]. split; [exact CONF|]. repeat split; auto; discriminate.
Qed.

Lemma decrypt_mode_valid : forall m, is_decrypt_mode m = true -> is_valid_mode m = true.
Proof. intros []; auto; discriminate. Qed.

(** A done session is live. *)
Lemma done_live : forall s, is_done s = true -> s_state s <> ST_ERROR.
Proof. intros s. unfold is_done. destruct (sstate_eqb_spec (s_state s) ST_DONE); congruence. Qed.

(** ** C17 *)
Lemma C17_lemma : forall cr m ops w, crypto_sizes cr -> history cr m ops w ->
  is_decrypt_mode (s_mode (w_s w)) = true -> w_out w <> [] \/ is_done (w_s w) = true ->
  exists h hb ha iv key dm l tr log,
    authentic_header cr (dm_key dm) h hb ha iv key /\
    w_in w = hb ++ ha ++ body_wire l ++ tr /\ w_out w = body_text l /\ body_so_far l /\
    Forall (opened cr key (h_message_id h) (h_frame_len h)) l /\
    w_log w = EvUnwrap (mk_dec_request (h_alg_id h) (h_edks h) (h_enc_ctx h)) dm ::
              EvOpen key iv hb [] (h_auth_tag h) [] ::
              map (open_event key (h_message_id h)) l ++ log /\
    (s_state (w_s w) <> ST_ERROR ->
       get_alg_id (w_s w) = Some (h_alg_id h) /\ visible_ctx (w_s w) = Some (h_enc_ctx h)).
Proof.
  intros cr m ops w CS H DM OUT. pose proof (history_inv _ _ _ _ CS H) as I. unfold winv in I.
  destruct (inv_live _ _ _ _ _ I) as [s0 [log0 [more [EL [I0 [NE [MD LIVE]]]]]]].
  assert (DM0 : is_decrypt_mode (s_mode s0) = true) by (rewrite MD; auto using decrypt_mode_valid).
  assert (OUT0 : w_out w <> [] \/ is_done s0 = true).
  { destruct OUT as [O|D]; auto. right. destruct (LIVE (done_live _ D)) as [-> _]. exact D. }
  destruct (dec_shape _ _ _ _ _ I0 NE DM0 OUT0) as [i [l [tr [trlog [DO [DB [CONF [E1 [E2 [E3 [BS _]]]]]]]]]]].
  exists (s_hdr s0), (di_body i), (di_auth i), (di_iv i), (di_key i), (di_m i), l, tr, (trlog ++ more).
  split.
  { destruct DO. constructor; auto.
    - intros V. destruct (in_v1_cases _ V) as [p P]. assert (CM : alg_is_committing (h_alg_id (s_hdr s0)) = false) by tauto.
      rewrite CM in do_iv. auto.
    - intros V. destruct (in_v2_cases _ V) as [p P]. assert (CM : alg_is_committing (h_alg_id (s_hdr s0)) = true) by tauto.
      rewrite CM in do_iv. auto. }
  split; [rewrite E1; unfold di_head; now rewrite <- app_assoc|]. split; auto. split; auto.
  split; [rewrite <- (do_fsize _ _ _ DO); apply DB|].
  split.
  { rewrite EL, E3. unfold dlog, dec_log. rewrite (do_rq _ _ _ DO), <- !app_assoc. reflexivity. }
  intros L. destruct (LIVE L) as [E _]. rewrite <- E. unfold get_alg_id, visible_ctx. rewrite (do_alg _ _ _ DO), (do_cmm _ _ _ DO).
  destruct (alg_lookup_lens _ _ (do_lookup _ _ _ DO)) as [_ [_ [_ ID]]]. rewrite ID, andb_false_r. auto.
Qed.

(** ** C24, C26 and C27, decryption *)
Lemma C24_lemma : forall cr m ops w, crypto_sizes cr -> history cr m ops w ->
  is_decrypt_mode (s_mode (w_s w)) = true -> s_state (w_s w) <> ST_ERROR -> policy_is_valid (s_policy (w_s w)) = true ->
  w_out w <> [] \/ is_done (w_s w) = true ->
  exists h hb ha rest dm log,
    w_in w = hb ++ ha ++ rest /\ wire_header h hb ha /\ hdr_wf h /\
    w_log w = EvUnwrap (mk_dec_request (h_alg_id h) (h_edks h) (h_enc_ctx h)) dm :: log /\
    policy_permits_decrypt (s_policy (w_s w)) (h_alg_id h) /\
    (is_v2 h -> key_commitment cr (h_message_id h) (dm_key dm) (h_alg_suite_data h)).
Proof.
  intros cr m ops w CS H DM NE PV OUT. pose proof (history_inv _ _ _ _ CS H) as I. unfold winv in I.
  destruct (dec_shape _ _ _ _ _ I NE DM OUT) as [i [l [tr [trlog [DO [DB [CONF [E1 [E2 [E3 [BS _]]]]]]]]]]].
  exists (s_hdr (w_s w)), (di_body i), (di_auth i), (body_wire l ++ tr), (di_m i).
  eexists. split; [rewrite E1; unfold di_head; now rewrite <- app_assoc|].
  split; [apply DO|]. split; [apply DO|].
  split; [rewrite E3; unfold dlog, dec_log; rewrite (do_rq _ _ _ DO); cbn [app]; reflexivity|].
  split; [|apply DO].
  destruct (do_policy2 _ _ _ DO) as [P|P]; [|congruence]. rewrite P.
  pose proof (do_policy _ _ _ DO) as AL. pose proof (alg_lookup_cases _ _ (do_lookup _ _ _ DO)) as V.
  unfold allowed_for_decrypt in AL. destruct (di_pol i); cbn [policy_permits_decrypt]; auto; [|discriminate].
  destruct V as [V|V]; auto. destruct (in_v1_cases _ V) as [p Q]. exfalso.
  assert (CM : alg_is_committing (h_alg_id (s_hdr (w_s w))) = false) by tauto. congruence.
Qed.

Lemma C04_decrypt_lemma : forall cr m ops w, crypto_sizes cr -> history cr m ops w ->
  is_decrypt_mode (s_mode (w_s w)) = true -> s_state (w_s w) <> ST_ERROR -> w_out w <> [] \/ is_done (w_s w) = true ->
  exists h hb ha rest, w_in w = hb ++ ha ++ rest /\ wire_header h hb ha /\ hdr_wf h /\
    (s_max (w_s w) <> 0 -> Nlen (h_edks h) <= s_max (w_s w)).
Proof.
  intros cr m ops w CS H DM NE OUT. pose proof (history_inv _ _ _ _ CS H) as I. unfold winv in I.
  destruct (dec_shape _ _ _ _ _ I NE DM OUT) as [i [l [tr [trlog [DO [DB [CONF [E1 [E2 [E3 [BS _]]]]]]]]]]].
  exists (s_hdr (w_s w)), (di_body i), (di_auth i), (body_wire l ++ tr).
  split; [rewrite E1; unfold di_head; now rewrite <- app_assoc|].
  split; [apply DO|]. split; [apply DO|]. intros NZ. destruct (do_limit _ _ _ DO); [contradiction|auto].
Qed.

Lemma C26_decrypt_lemma : forall cr m ops w, crypto_sizes cr -> history cr m ops w ->
  is_decrypt_mode (s_mode (w_s w)) = true -> is_done (w_s w) = true ->
  exists h hb ha l dm tr log,
    w_in w = hb ++ ha ++ body_wire l ++ tr /\ wire_header h hb ha /\ hdr_wf h /\ whole_body l /\
    w_log w = EvUnwrap (mk_dec_request (h_alg_id h) (h_edks h) (h_enc_ctx h)) dm :: log /\
    (In (h_alg_id h) signed_suites ->
       exists sc sg, dm_sig dm = Some sc /\ tr = wire_trailer sg /\
         cr_verify cr (mk_sigctx (sc_key sc) (sc_data sc ++ hb ++ ha ++ body_wire l)) sg = true) /\
    (~ In (h_alg_id h) signed_suites -> tr = []).
Proof.
  intros cr m ops w CS H DM D. pose proof (history_inv _ _ _ _ CS H) as I. unfold winv in I.
  destruct (dec_shape _ _ _ _ _ I (done_live _ D) DM (or_intror D))
    as [i [l [tr [trlog [DO [DB [CONF [E1 [E2 [E3 [BS [FIN _]]]]]]]]]]]].
  destruct (FIN D) as [WB DT].
  exists (s_hdr (w_s w)), (di_body i), (di_auth i), l, (di_m i), tr.
  eexists. split; [rewrite E1; unfold di_head; now rewrite <- app_assoc|].
  split; [apply DO|]. split; [apply DO|]. split; [exact WB|].
  split; [rewrite E3; unfold dlog, dec_log; rewrite (do_rq _ _ _ DO); cbn [app]; reflexivity|].
  pose proof (sig_len_spec _ _ (do_lookup _ _ _ DO)) as SL.
  destruct DT as [Z|sc sg Z SC V B].
  - split; auto. intros S. apply SL in S. rewrite Z in S. discriminate.
  - split.
    + intros _. unfold dsig in SC. destruct (N.eqb_spec (ap_sig_len (di_p i)) 0); [contradiction|].
      destruct (dm_sig (di_m i)) as [sc0|]; [|discriminate]. cbn in SC. injection SC as <-.
      exists sc0, sg. unfold di_head in V. rewrite <- app_assoc in V. auto.
    + intros S. exfalso. apply S, SL. lia.
Qed.

Lemma C27_lemma : forall cr m ops w, crypto_sizes cr -> history cr m ops w ->
  s_mode (w_s w) = M_DECRYPT_UNSIGNED ->
  (forall rq dm, In (EvUnwrap rq dm) (w_log w) -> dm_alg dm = dq_alg rq) ->
  w_out w <> [] \/ is_done (w_s w) = true ->
  exists h hb ha rest, w_in w = hb ++ ha ++ rest /\ wire_header h hb ha /\ hdr_wf h /\
    ~ In (h_alg_id h) signed_suites.
Proof.
  intros cr m ops w CS H DM CMM OUT. pose proof (history_inv _ _ _ _ CS H) as I. unfold winv in I.
  destruct (inv_live _ _ _ _ _ I) as [s0 [log0 [more [EL [I0 [NE [MD LIVE]]]]]]].
  assert (M0 : s_mode s0 = M_DECRYPT_UNSIGNED) by (rewrite MD; auto; rewrite DM; reflexivity).
  assert (OUT0 : w_out w <> [] \/ is_done s0 = true).
  { destruct OUT as [O|D]; auto. right. destruct (LIVE (done_live _ D)) as [-> _]. exact D. }
  destruct (dec_shape _ _ _ _ _ I0 NE ltac:(now rewrite M0) OUT0) as [i [l [tr [trlog [DO [DB [CONF [E1 [E2 [E3 [BS _]]]]]]]]]]].
  exists (s_hdr s0), (di_body i), (di_auth i), (body_wire l ++ tr).
  split; [rewrite E1; unfold di_head; now rewrite <- app_assoc|]. split; [apply DO|]. split; [apply DO|].
  intros S. apply (sig_len_spec _ _ (do_lookup _ _ _ DO)) in S.
  assert (EQ : dm_alg (di_m i) = dq_alg (di_rq i)).
  { apply CMM. rewrite EL, E3. unfold dlog, dec_log. cbn [app]. now left. }
  rewrite (do_rq _ _ _ DO) in EQ. cbn [dq_alg] in EQ. pose proof (do_mats _ _ _ DO) as LM. rewrite EQ, (do_lookup _ _ _ DO) in LM.
  injection LM as LM. pose proof (do_unsigned _ _ _ DO M0) as U. rewrite <- LM in U. rewrite U in S. discriminate.
Qed.

(** ** C23 *)
Lemma existsb_v2 : forall alg, existsb (N.eqb alg) v2_suites = true <-> In alg v2_suites.
Proof.
  intros alg. rewrite existsb_exists. split.
  - intros [x [I E]]. apply N.eqb_eq in E. now subst.
  - intros I. exists alg. split; auto. apply N.eqb_refl.
Qed.

(** The start and the end of a written header. *)
Lemma hdr_write_ends : forall h p n out, alg_lookup (h_alg_id h) = Some p -> hdr_write h n = Ok out ->
  exists mid_part, out = head_start (h_alg_id h) (h_message_id h) ++ mid_part ++ h_alg_suite_data h ++
    (if existsb (N.eqb (h_alg_id h)) v2_suites then h_auth_tag h else h_iv h ++ h_auth_tag h).
Proof.
  intros h p n out L W. unfold hdr_write in W. rewrite L in W.
  destruct (enc_ctx_serialize _ _ _) as [aad|]; [|discriminate].
  match type of W with (if ?c then _ else _) = _ => destruct c; [discriminate|] end.
  match type of W with Ok ?x = Ok ?y => assert (W' : x = y) by congruence end. clear W. rename W' into W.
  unfold head_start. assert (IDB : h_alg_id h < 65536).
  { apply suite_id_small. destruct (alg_lookup_cases _ _ L); auto. }
  rewrite (be2 _ IDB) in W.
  destruct (alg_lookup_cases _ _ L) as [V|V].
  - rewrite (proj2 (v1_version _ _ L) V) in W. change (1 =? HEADER_VERSION_1_0) with true in W. cbv iota in W.
    assert (E : existsb (N.eqb (h_alg_id h)) v2_suites = false).
    { apply not_true_is_false. intros E. apply existsb_v2 in E. destruct (v1_not_v2 _ V E). }
    rewrite E. exists (be_bytes 2 (Nlen aad) ++ aad ++ be_bytes 2 (Nlen (h_edks h)) ++ concat (map ser_edk (h_edks h)) ++
      be_bytes 1 (if h_frame_len h =? 0 then CTYPE_NONFRAMED else CTYPE_FRAMED) ++
      (zeros 4 ++ be_bytes 1 (Nlen (h_iv h))) ++ be_bytes 4 (h_frame_len h)).
    rewrite <- W, <- !app_assoc. reflexivity.
  - rewrite (proj2 (v2_version _ _ L) V) in W. change (2 =? HEADER_VERSION_1_0) with false in W. cbv iota in W.
    rewrite (proj2 (existsb_v2 _) V).
    exists (be_bytes 2 (Nlen aad) ++ aad ++ be_bytes 2 (Nlen (h_edks h)) ++ concat (map ser_edk (h_edks h)) ++
      be_bytes 1 (if h_frame_len h =? 0 then CTYPE_NONFRAMED else CTYPE_FRAMED) ++ be_bytes 4 (h_frame_len h)).
    rewrite <- W, <- !app_assoc. reflexivity.
Qed.

Lemma allowed_enc_permits : forall alg p c, alg_lookup alg = Some p -> allowed_for_encrypt alg c = true -> policy_permits_encrypt c alg.
Proof.
  intros alg p c L A. unfold allowed_for_encrypt in A. pose proof (alg_lookup_cases _ _ L) as V.
  assert (V1 : In alg v1_suites -> alg_is_committing alg = false).
  { intros W. destruct (in_v1_cases _ W) as [q Q]. tauto. }
  assert (V2 : In alg v2_suites -> alg_is_committing alg = true).
  { intros W. destruct (in_v2_cases _ W) as [q Q]. tauto. }
  destruct c; cbn [policy_permits_encrypt]; try discriminate; destruct V as [V|V]; auto; exfalso;
    ((rewrite (V1 V) in A; discriminate) || (rewrite (V2 V) in A; discriminate)).
Qed.

Lemma C23_lemma : forall cr m ops w, crypto_sizes cr -> history cr m ops w ->
  s_mode (w_s w) = M_ENCRYPT -> s_state (w_s w) <> ST_ERROR -> policy_is_valid (s_policy (w_s w)) = true ->
  w_out w <> [] \/ is_done (w_s w) = true ->
  exists rq ctx em mid log, w_log w = EvGen rq ctx em :: EvRand mid :: log /\
    policy_permits_encrypt (s_policy (w_s w)) (em_alg em) /\
    exists middle last rest, w_out w = head_start (em_alg em) mid ++ middle ++ last ++ rest /\
      (In (em_alg em) v2_suites -> exists com tag, last = com ++ tag /\ Nlen tag = 16 /\ Nlen com = 32 /\
         key_commitment cr mid (em_key em) com).
Proof.
  intros cr m ops w CS H EM NE PV OUT. pose proof (history_inv _ _ _ _ CS H) as I. unfold winv in I.
  destruct (enc_shape _ _ _ _ _ I NE EM OUT) as [i [l [tr [trlog [EO [SE [CONF [E1 [E2 [E3 [BS _]]]]]]]]]]].
  exists (ei_rq i), (ei_ctx i), (ei_m i), (ei_mid i). eexists.
  split; [rewrite E3; unfold elog, enc_log; cbn [app]; reflexivity|].
  split.
  { destruct (eo_policy2 _ _ _ EO) as [P|P]; [|congruence]. rewrite P.
    eapply allowed_enc_permits; [apply (eo_lookup _ _ _ EO)|apply (eo_policy _ _ _ EO)]. }
  assert (LH : alg_lookup (h_alg_id (s_hdr (w_s w))) = Some (ei_p i)) by (rewrite (eo_hdr _ _ _ EO); exact (eo_lookup _ _ _ EO)).
  destruct (hdr_write_ends _ _ _ _ LH (eo_write _ _ _ EO)) as [mp EH]. rewrite (eo_hdr _ _ _ EO) in EH. cbn [h_alg_id h_message_id h_alg_suite_data h_auth_tag h_iv] in EH.
  destruct (eo_suite _ _ _ EO) as [[V [SU IV]]|[V [COM CL]]].
  - exists mp, (ei_suite i ++ (if existsb (N.eqb (ei_alg i)) v2_suites then ei_tag i else ei_iv i ++ ei_tag i)), (body_wire l ++ tr).
    split; [rewrite E1, EH, <- !app_assoc; reflexivity|]. intros V'. destruct (v1_not_v2 _ V V').
  - rewrite (proj2 (existsb_v2 _) V) in EH. exists mp, (ei_suite i ++ ei_tag i), (body_wire l ++ tr).
    split; [rewrite E1, EH, <- !app_assoc; reflexivity|]. intros _. exists (ei_suite i), (ei_tag i).
    repeat split; auto. apply EO.
Qed.

(** ** C25 *)
Lemma C25_lemma : forall cr m ops w, crypto_sizes cr -> history cr m ops w -> NoDup (seal_nonces (w_log w)).
Proof.
  intros cr m ops w CS H. pose proof (history_inv _ _ _ _ CS H) as I.
  destruct (inv_nonces _ _ _ _ _ I) as [key [k [B E]]]. rewrite E. apply nonce_seq_NoDup. lia.
Qed.

(** ** C26, encryption *)
Lemma C26_encrypt_lemma : forall cr m ops w, crypto_sizes cr -> history cr m ops w ->
  s_mode (w_s w) = M_ENCRYPT -> is_done (w_s w) = true ->
  exists rq ctx em before tr log, w_log w = EvGen rq ctx em :: log /\ w_out w = before ++ tr /\
    (In (em_alg em) signed_suites ->
       exists sc sg, em_sig em = Some sc /\ tr = be_bytes 2 (Nlen sg) ++ sg /\
         In (EvSign (mk_sigctx (sc_key sc) (sc_data sc ++ before)) sg) log) /\
    (~ In (em_alg em) signed_suites -> tr = []).
Proof.
  intros cr m ops w CS H EM D. pose proof (history_inv _ _ _ _ CS H) as I. unfold winv in I.
  destruct (enc_shape _ _ _ _ _ I (done_live _ D) EM (or_intror D)) as [i [l [tr [trlog [EO [SE [CONF [E1 [E2 [E3 [BS [FIN _]]]]]]]]]]]].
  destruct (FIN D) as [WB [ET _]].
  exists (ei_rq i), (ei_ctx i), (ei_m i), (ei_head i ++ body_wire l), tr. eexists.
  split; [rewrite E3; unfold elog, enc_log; cbn [app]; reflexivity|].
  split; [rewrite E1; apply app_assoc|].
  pose proof (sig_len_spec _ _ (eo_lookup _ _ _ EO)) as SL. fold (ei_alg i).
  destruct ET as [Z|sc sg Z SC].
  - split; auto. intros S. apply SL in S. rewrite Z in S. discriminate.
  - split.
    + intros _. destruct (em_sig (ei_m i)) as [sc0|]; [|discriminate]. cbn in SC. injection SC as <-.
      exists sc0, sg. repeat split. cbn [In app]; rewrite ?in_app_iff; cbn [In]; rewrite ?in_app_iff; cbn [In]; tauto.
    + intros S. exfalso. apply S, SL. lia.
Qed.

(** ** C18, C28, C29 *)
Lemma C18_lemma : forall cr m ops w e cap input w' r x, crypto_sizes cr -> history cr m ops w -> bytes_ok input ->
  exec cr w (OProcess e cap input) = (w', r) -> o_rc r = PErr x ->
  o_written r = 0 /\ o_mem r = zeros cap /\ w_out w' = w_out w.
Proof.
  intros cr m ops w e cap input w' r x CS H BO E RC. pose proof (history_inv _ _ _ _ CS H) as I. unfold winv in I.
  pose proof (process_good cr e (w_s w) cap input _ _ _ CS BO I) as G. unfold call_good in G.
  cbn [exec] in E. unfold after_process in E. injection E as E1 E2.
  subst r. cbn [o_rc o_written o_mem] in *. rewrite RC in *. destruct G as [_ [_ [_ [G1 [G2 [G3 [G4 [G5 _]]]]]]]].
  subst w'. cbn [w_out]. auto.
Qed.

Lemma C28_lemma : forall cr m ops w e cap input w' r, crypto_sizes cr -> history cr m ops w -> bytes_ok input ->
  s_state (w_s w) = ST_CONFIG ->
  exec cr w (OProcessFull e cap input) = (w', r) ->
  (o_rc r = POk /\ is_done (w_s w') = true /\ w_in w' = w_in w ++ input /\ o_written r = Nlen (o_mem r) /\
   w_out w' = w_out w ++ o_mem r) \/
  (exists x, o_rc r = PErr x /\ s_state (w_s w') = ST_ERROR /\ w_out w' = w_out w /\
   (o_written r = 0 /\ o_mem r = zeros cap \/
    s_mode (w_s w) = M_ENCRYPT /\ (s_known (w_s w) = true \/ s_bound (w_s w) < Nlen input mod 18446744073709551616))).
Proof.
  intros cr m ops w e cap input w' r CS H BO ST E. pose proof (history_inv _ _ _ _ CS H) as I. unfold winv in I.
  pose proof (process_full_good cr e (w_s w) cap input _ _ _ CS BO I) as G. cbn zeta in G.
  cbn [exec] in E. unfold after_process in E. injection E as E1 E2. destruct G as [G1 [G2 G]].
  subst r w'. cbn [o_rc o_written o_mem] in *.
  destruct (pr_rc (process_full cr e (w_s w) cap input)) as [|x| | |]; try contradiction; cbn [w_s w_in w_out].
  - left. destruct G as [G3 [G4 [G5 [G6 _]]]]. rewrite G6. rewrite firstn_all_N by auto. auto.
  - right. exists x. destruct G as [G3 [G4 [G5 [G6 G7]]]]. repeat split; auto.
    destruct G7 as [G7|[_ [G7|G7]]]; auto. contradiction.
Qed.

Lemma C29_lemma : forall cr m ops w e cap input w' r, crypto_sizes cr -> history cr m ops w -> bytes_ok input ->
  exec cr w (OProcess e cap input) = (w', r) \/ exec cr w (OProcessFull e cap input) = (w', r) ->
  o_rc r <> POutOfFuel /\ o_read r <= Nlen input /\ o_written r <= cap /\
  (o_rc r = POk -> o_written r = Nlen (o_mem r)).
Proof.
  intros cr m ops w e cap input w' r CS H BO E. pose proof (history_inv _ _ _ _ CS H) as I. unfold winv in I.
  destruct E as [E|E]; cbn [exec] in E; unfold after_process in E; injection E as E1 E2; subst r;
  cbn [o_rc o_read o_written o_mem].
  - pose proof (process_good cr e (w_s w) cap input _ _ _ CS BO I) as G. unfold call_good in G.
    destruct G as [_ [G1 [G2 G]]]. destruct (pr_rc _); repeat split; auto; try discriminate; try contradiction. tauto.
  - pose proof (process_full_good cr e (w_s w) cap input _ _ _ CS BO I) as G. cbn zeta in G.
    destruct G as [G1 [G2 G]]. destruct (pr_rc _); repeat split; auto; try discriminate; try contradiction. tauto.
Qed.

(** ** C20 *)
Lemma C20_lemma : forall cr m ops, crypto_sizes cr -> is_valid_mode m = true -> Forall op_bytes ops ->
  Forall (fun r => o_rc r <> PAbort) (snd (run cr (new_world m) ops)).
Proof.
  intros cr m ops CS V OB. pose proof (run_good cr ops (new_world m) CS OB (new_session_inv cr m V)) as G.
  destruct (run cr (new_world m) ops) as [w rs]. destruct G as [_ G]. cbn [snd].
  eapply Forall_impl; [|exact G]. cbn. tauto.
Qed.
Lemma C20_assert_lemma : forall cr m ops w o w' r, crypto_sizes cr -> history cr m ops w -> op_bytes o ->
  exec cr w o = (w', r) -> o_rc r = PAssert ->
  exists e cap input, o = OProcess e cap input /\ e_debug e = true /\ policy_is_valid (s_policy (w_s w)) = false.
Proof.
  intros cr m ops w o w' r CS H OB E RC. pose proof (history_inv _ _ _ _ CS H) as I.
  pose proof (exec_good cr w o CS OB I) as G. rewrite E in G. destruct G as [_ [_ [_ G]]].
  destruct (G RC) as [e [cap [input [A [B [C _]]]]]]. eauto 6.
Qed.

(** ** C19 *)
Definition is_reset (o : op) : bool := match o with OReset _ => true | _ => false end.

Lemma process_in_error : forall cr e s cap input, s_state s = ST_ERROR ->
  process cr e s cap input = mk_proc s (PErr (s_error s)) 0 0 (zeros cap) [].
Proof.
  intros cr e s cap input ST. unfold process, loop_fuel. rewrite Nat.add_comm. change (12 + length input)%nat with (S (11 + length input)).
  generalize (11 + length input)%nat. intros k. cbn [process_loop].
  unfold step. rewrite ST. sproj. cbn [lr_rc lr_sess lr_in lr_log lr_out]. rewrite ST.
  change (sstate_eqb ST_ERROR ST_ERROR) with true. cbv iota. now rewrite N.sub_diag.
Qed.

Lemma error_op : forall cr w o, s_state (w_s w) = ST_ERROR -> is_reset o = false ->
  let (w', r) := exec cr w o in
  stuck (o_rc r) = false /\ s_state (w_s w') = ST_ERROR /\ s_error (w_s w') = s_error (w_s w) /\
  w_in w' = w_in w /\ w_out w' = w_out w /\ w_log w' = w_log w /\ o_written r = 0 /\ o_read r = 0.
Proof.
  intros cr [s win wout log] o ST NR. cbn [w_s] in ST.
  destruct o as [m|n|g n|n|c|n|c|e cap input|e cap input]; cbn [exec w_s]; [discriminate| | | | | | | |];
  unfold with_session; cbn [w_s w_in w_out w_log o_rc o_written o_read].
  - unfold set_frame_size. rewrite ST. change (negb (sstate_eqb ST_ERROR ST_CONFIG)) with true. rewrite orb_true_r.
    cbn [fst snd]. repeat split; auto.
  - unfold set_message_size. destruct (negb _); [cbn; repeat split; auto|].
    destruct (s_known s); [unfold fail_session; rewrite ST; cbn; repeat split; auto|].
    destruct (_ <? _); [unfold fail_session; rewrite ST; cbn; repeat split; auto|].
    unfold compute_body_estimate. sproj. rewrite ST. cbn; repeat split; auto.
  - unfold set_message_bound. destruct (negb _); [cbn; repeat split; auto|].
    destruct (_ && _); [unfold fail_session; rewrite ST; cbn; repeat split; auto|].
    cbn [fst snd]. destruct (_ <? _); cbn; repeat split; auto.
  - unfold set_commitment_policy. destruct (negb _); [cbn; repeat split; auto|]. sproj. rewrite ST.
    change (negb (sstate_eqb ST_ERROR ST_CONFIG)) with true. cbv iota. unfold fail_session. sproj. rewrite ST.
    cbn; repeat split; auto.
  - unfold set_max_edks. rewrite ST. change (negb (sstate_eqb ST_ERROR ST_CONFIG)) with true. cbv iota.
    unfold fail_session. rewrite ST. cbn; repeat split; auto.
  - unfold mutate_ctx. rewrite ST. change (sstate_eqb ST_ERROR ST_CONFIG) with false. rewrite andb_false_r.
    cbn; repeat split; auto.
  - rewrite process_in_error by auto. unfold after_process. cbn. rewrite app_nil_r. repeat split; auto.
  - unfold process_full. rewrite ST. change (negb (sstate_eqb ST_ERROR ST_CONFIG)) with true. cbv iota.
    unfold after_process. cbn. rewrite app_nil_r. repeat split; auto.
Qed.

Lemma error_run : forall cr ops w, s_state (w_s w) = ST_ERROR -> forallb is_reset ops = false \/ True ->
  Forall (fun o => is_reset o = false) ops ->
  let (w', rs) := run cr w ops in
  s_state (w_s w') = ST_ERROR /\ s_error (w_s w') = s_error (w_s w) /\
  w_in w' = w_in w /\ w_out w' = w_out w /\ w_log w' = w_log w /\ length rs = length ops.
Proof.
  intros cr ops. induction ops as [|o ops IH]; intros w ST _ F; cbn [run].
  { repeat split; auto. }
  inversion F as [|? ? F1 F2]; subst. pose proof (error_op cr w o ST F1) as G. destruct (exec cr w o) as [w1 r].
  destruct G as [G1 [G2 [G3 [G4 [G5 [G6 _]]]]]]. rewrite G1. specialize (IH w1 G2 (or_intror Logic.I) F2).
  destruct (run cr w1 ops) as [w2 rs]. destruct IH as [I1 [I2 [I3 [I4 [I5 I6]]]]].
  repeat split; try congruence. cbn. congruence.
Qed.

Lemma C19_lemma : forall cr m ops w e cap input w1 r1 x ops2, crypto_sizes cr -> history cr m ops w -> bytes_ok input ->
  exec cr w (OProcess e cap input) = (w1, r1) -> o_rc r1 = PErr x ->
  Forall (fun o => is_reset o = false) ops2 ->
  exists w2 rs, run cr w1 ops2 = (w2, rs) /\ length rs = length ops2 /\
    w_in w2 = w_in w1 /\ w_out w2 = w_out w1 /\ w_log w2 = w_log w1 /\
    forall e2 cap2 input2, exists w3 r3, exec cr w2 (OProcess e2 cap2 input2) = (w3, r3) /\
      o_rc r3 = PErr x /\ o_written r3 = 0 /\ o_read r3 = 0 /\ o_mem r3 = zeros cap2 /\ w_log w3 = w_log w1.
Proof.
  intros cr m ops w e cap input w1 r1 x ops2 CS H BO E RC F. pose proof (history_inv _ _ _ _ CS H) as I. unfold winv in I.
  pose proof (process_good cr e (w_s w) cap input _ _ _ CS BO I) as G. unfold call_good in G.
  cbn [exec] in E. unfold after_process in E. injection E as E1 E2. subst r1. cbn [o_rc] in RC. rewrite RC in *.
  destruct G as [_ [_ [_ [_ [G2 [G3 _]]]]]].
  assert (S1 : s_state (w_s w1) = ST_ERROR /\ s_error (w_s w1) = x) by (subst w1; cbn; auto). destruct S1 as [S1 S2].
  pose proof (error_run cr ops2 w1 S1 (or_intror Logic.I) F) as R. destruct (run cr w1 ops2) as [w2 rs].
  destruct R as [R1 [R2 [R3 [R4 [R5 R6]]]]]. exists w2, rs. repeat split; auto.
  intros e2 cap2 input2. cbn [exec]. rewrite process_in_error by auto. unfold after_process. cbn [pr_rc pr_sess pr_log pr_written pr_read pr_mem].
  eexists _, _. split; [reflexivity|]. cbn [o_rc o_written o_read o_mem w_log]. rewrite R2, S2, R5, app_nil_r. repeat split; auto.
Qed.

(** ** C21 *)
Definition sizes_ok (w : world) (d : option N) (b : N) : Prop :=
  s_state (w_s w) <> ST_ERROR -> s_mode (w_s w) = M_ENCRYPT ->
  (s_known (w_s w) = true -> d = Some (s_precise (w_s w))) /\ s_bound (w_s w) = b.

Lemma fail_session_error : forall s x, s_state (fail_session s x) = ST_ERROR.
Proof. intros s x. unfold fail_session. destruct (sstate_eqb_spec (s_state s) ST_ERROR); auto. Qed.

Lemma encrypt_body_sess_state : forall cr b g s, s_state s = ST_ENCRYPT_BODY ->
  same_conf s (sr_sess (try_encrypt_body cr b g s 0 [])).
Proof.
  intros. pose proof (step_conf cr (mk_env false b (fun _ => ([], Err E_OOM)) (fun _ => Err E_OOM) (fun _ => None) (fun _ => Err E_OOM) g) s 0 []) as C.
  unfold step in C. rewrite H in C. exact C.
Qed.
Lemma estimate_conf : forall cr g s, same_conf s (compute_body_estimate cr g s).
Proof.
  intros cr g s. unfold compute_body_estimate. destruct (s_state s) eqn:ST; try apply same_conf_refl.
  now apply encrypt_body_sess_state.
Qed.

Lemma exec_sizes : forall cr w o d b, crypto_sizes cr -> op_bytes o -> winv cr w -> sizes_ok w d b ->
  let (w', r) := exec cr w o in stuck (o_rc r) = false -> sizes_ok w' (size_after d (o, r)) (bound_after b (o, r)).
Proof.
  intros cr [s win wout log] o d b CS OB I SO. unfold winv, sizes_ok in *. cbn [w_s w_in w_out w_log] in *.
  destruct o as [m|n|g n|n|c|n|c|e cap input|e cap input]; cbn [exec w_s]; unfold with_session, size_after, bound_after;
    cbn [fst snd o_rc w_s].
  - intros _. unfold reset. destruct (is_valid_mode m) eqn:V; cbn [fst snd]; sproj.
    + intros _ _. split; [discriminate|reflexivity].
    + intros NE. exfalso. apply NE, fail_session_error.
  - intros _. unfold set_frame_size. destruct (_ || _); cbn [fst snd]; sproj; auto.
  - intros _. unfold set_message_size. change two64 with 18446744073709551616.
    destruct (negb _); [cbn [fst snd]; auto|].
    destruct (s_known s) eqn:K; [cbn [fst snd]; intros NE; exfalso; apply NE, fail_session_error|].
    destruct (_ <? _); [cbn [fst snd]; intros NE; exfalso; apply NE, fail_session_error|]. cbn [fst snd].
    set (s' := set_known true (set_precise (n mod 18446744073709551616) s)).
    pose proof (estimate_conf cr g s') as [C1 [C2 [C3 [C4 [C5 C6]]]]].
    rewrite C1, C3, C4, C5. unfold s'. sproj. intros NE EM.
    assert (NE' : s_state s <> ST_ERROR).
    { intros ST. apply NE. unfold compute_body_estimate, s'. sproj. rewrite ST. exact ST. }
    destruct (SO NE' EM) as [S1 S2]. auto.
  - intros _. unfold set_message_bound. change two64 with 18446744073709551616.
    destruct (negb _); [cbn [fst snd]; auto|].
    destruct (_ && _); [cbn [fst snd]; intros NE; exfalso; apply NE, fail_session_error|]. cbn [fst snd].
    destruct (N.ltb_spec (n mod 18446744073709551616) (s_bound s)); sproj; intros NE EM; destruct (SO NE EM) as [S1 S2];
      split; auto; lia.
  - intros _. unfold set_commitment_policy. destruct (negb _); [cbn [fst snd]; sproj; auto|]. sproj.
    destruct (negb _); cbn [fst snd]; sproj; auto. intros NE; exfalso; apply NE, fail_session_error.
  - intros _. unfold set_max_edks. destruct (negb _); [cbn [fst snd]; intros NE; exfalso; apply NE, fail_session_error|].
    destruct (n =? 0); cbn [fst snd]; sproj; auto.
  - intros _. unfold mutate_ctx. destruct (_ && _); cbn [fst snd]; sproj; auto.
  - pose proof (process_good cr e s cap input _ _ _ CS OB I) as G. unfold call_good in G. unfold after_process.
    destruct G as [[C1 [C2 [C3 [C4 [C5 C6]]]]] [_ [_ G]]]. cbn [w_s o_rc].
    destruct (pr_rc (process cr e s cap input)); cbn [stuck w_s]; intros NS; try discriminate.
    + rewrite C1, C3, C4, C5. intros _. apply SO. tauto.
    + intros NE. exfalso. apply NE. tauto.
  - pose proof (process_full_good cr e s cap input _ _ _ CS OB I) as G. cbn zeta in G. unfold after_process.
    destruct G as [_ [_ G]]. cbn [w_s o_rc].
    destruct (pr_rc (process_full cr e s cap input)) as [|x| | |] eqn:RC; cbn [stuck w_s]; intros NS; try contradiction.
    + destruct G as [_ [_ [_ [_ ST]]]]. unfold process_full in *. rewrite ST in *.
      change (negb (sstate_eqb ST_CONFIG ST_CONFIG)) with false in *. cbv iota in *.
      destruct (is_encrypt_mode (s_mode s)) eqn:EM.
      * unfold set_message_size in *. rewrite EM in *. cbn [negb] in *. change two64 with 18446744073709551616 in *.
        destruct (s_known s) eqn:K; [discriminate|]. destruct (_ <? _) eqn:B; [discriminate|].
        set (s' := compute_body_estimate _ _ _) in *.
        assert (C' : same_conf s' (pr_sess (process cr e s' cap input))).
        { assert (I' : inv cr s' win wout log).
          { pose proof (set_message_size_inv cr (e_garbage e) (Nlen input) s _ _ _ I) as Q. unfold set_message_size in Q.
            rewrite EM, K in Q. cbn [negb] in Q. change two64 with 18446744073709551616 in Q. rewrite B in Q. exact Q. }
          exact (proj1 (process_good cr e s' cap input _ _ _ CS OB I')). }
        pose proof (estimate_conf cr (e_garbage e) (set_known true (set_precise (Nlen input mod 18446744073709551616) s))) as C2.
        fold s' in C2. destruct C' as [D1 [D2 [D3 [D4 [D5 D6]]]]]. destruct C2 as [C1 [C2 [C3 [C4 [C5 C6]]]]].
        destruct (pr_rc (process cr e s' cap input)) eqn:RP; rewrite ?RP in RC; cbn [pr_rc] in RC; try congruence;
          try (rewrite RP in RC; congruence).
        destruct (_ && _); cbn [pr_rc] in RC; [|discriminate]. rewrite RP. rewrite D1, D3, D4, C1, C3, C4. sproj.
        intros _ EM'. rewrite <- ST in SO. destruct SO as [S1 S2]; auto. rewrite ST. discriminate.
      * intros NE EM'. exfalso.
        assert (C' := proj1 (process_good cr e s cap input _ _ _ CS OB I)). destruct C' as [D1 _].
        destruct (pr_rc (process cr e s cap input)) eqn:RP; rewrite ?RP in RC; cbn [pr_rc] in RC; try congruence;
          try (rewrite RP in RC; congruence).
        destruct (_ && _); cbn [pr_rc] in RC; [|discriminate]. rewrite RP in EM'. rewrite D1 in EM'. rewrite EM' in EM. discriminate.
    + destruct G as [_ [_ [G1 [G2 _]]]]. intros NE.
      destruct (sstate_eqb_spec (s_state s) ST_CONFIG) as [ST|ST]; [exfalso; auto|]. rewrite (G2 ST) in *. auto.
Qed.

Lemma run_sizes : forall cr ops w w' rs d b, crypto_sizes cr -> Forall op_bytes ops -> winv cr w -> sizes_ok w d b ->
  run cr w ops = (w', rs) -> Forall (fun r => stuck (o_rc r) = false) rs ->
  sizes_ok w' (fold_left size_after (combine ops rs) d) (fold_left bound_after (combine ops rs) b).
Proof.
  intros cr ops. induction ops as [|o ops IH]; intros w w' rs d b CS OB I SO R F; cbn [run] in R.
  { injection R as <- <-. exact SO. }
  inversion OB as [|? ? OB1 OB2]; subst. pose proof (exec_sizes cr w o d b CS OB1 I SO) as G.
  pose proof (exec_good cr w o CS OB1 I) as X.
  destruct (exec cr w o) as [w1 r] eqn:E. destruct (stuck (o_rc r)) eqn:SR.
  { injection R as <- <-. inversion F. congruence. }
  destruct (run cr w1 ops) as [w2 rs2] eqn:R2. injection R as <- <-. inversion F; subst.
  cbn [combine fold_left]. eapply IH; [auto|auto|apply X; auto|apply G; auto|exact R2|auto].
Qed.

Lemma C21_lemma : forall cr m ops w rs, crypto_sizes cr -> is_valid_mode m = true -> Forall op_bytes ops ->
  run cr (new_world m) ops = (w, rs) -> Forall (fun r => stuck (o_rc r) = false) rs ->
  s_mode (w_s w) = M_ENCRYPT -> is_done (w_s w) = true ->
  declared_size (combine ops rs) = Some (Nlen (w_in w)) /\ Nlen (w_in w) <= bound_in_force (combine ops rs).
Proof.
  intros cr m ops w rs CS V OB R F EM D.
  assert (H : history cr m ops w) by (split; [|split]; eauto).
  pose proof (history_inv _ _ _ _ CS H) as I. unfold winv in I.
  destruct (enc_shape _ _ _ _ _ I (done_live _ D) EM (or_intror D)) as [i [l [tr [trlog [EO [SE [CONF [E1 [E2 [E3 [BS [FIN _]]]]]]]]]]]].
  destruct (FIN D) as [_ [_ [K P]]].
  assert (S0 : sizes_ok (new_world m) None 18446744073709551615) 
    by (clear -V; destruct m; try discriminate V; intros _ _; (split; [intros K'; discriminate K'|reflexivity])).
  pose proof (run_sizes cr ops (new_world m) _ _ _ _ CS OB (new_session_inv cr m V) S0 R F (done_live _ D) EM) as [S1 S2].
  assert (S1' := S1 K). rewrite P in S1'. split; [exact S1'|]. unfold bound_in_force. rewrite <- S2, <- P. destruct CONF as [_ [_ [_ C]]]. now apply C.
Qed.

(** ** C04, encryption *)
Lemma be2_mod : forall n, be_bytes 2 n = u16 (n mod 65536).
Proof.
  intros n. unfold u16. cbn [be_bytes app]. change (2 ^ (8 * N.of_nat 1)) with 256. change (2 ^ (8 * N.of_nat 0)) with 1.
  rewrite N.div_1_r. f_equal; [|f_equal]; lia.
Qed.

Lemma head_start_pre : forall alg mid p, alg_lookup alg = Some p ->
  be_bytes 1 (ap_version p) ++ (if ap_version p =? HEADER_VERSION_1_0 then be_bytes 1 HEADER_TYPE_CUSTOMER_AED else []) ++
  be_bytes 2 alg ++ mid = head_start alg mid.
Proof.
  intros alg mid p L. unfold head_start. assert (IDB : alg < 65536).
  { apply suite_id_small. destruct (alg_lookup_cases _ _ L); auto. }
  rewrite (be2 _ IDB). destruct (alg_lookup_cases _ _ L) as [V|V].
  - rewrite (proj2 (v1_version _ _ L) V). change (1 =? HEADER_VERSION_1_0) with true. cbv iota.
    assert (E : existsb (N.eqb alg) v2_suites = false).
    { apply not_true_is_false. intros E. apply existsb_v2 in E. destruct (v1_not_v2 _ V E). }
    rewrite E. reflexivity.
  - rewrite (proj2 (v2_version _ _ L) V). rewrite (proj2 (existsb_v2 _) V). reflexivity.
Qed.

Lemma hdr_write_count : forall h p n out, alg_lookup (h_alg_id h) = Some p -> hdr_write h n = Ok out ->
  ctx_fits (h_enc_ctx h) /\
  exists rest, out = head_start (h_alg_id h) (h_message_id h) ++ field16 (wire_ctx (ctx_sort (h_enc_ctx h))) ++
    u16 (Nlen (h_edks h) mod 65536) ++ rest.
Proof.
  intros h p n out L W. unfold hdr_write in W. rewrite L in W.
  destruct (enc_ctx_serialize _ _ _) as [aad|] eqn:S; [|discriminate].
  rewrite serialize_spec in S.
  match type of W with (if ?c then _ else _) = _ => destruct c; [discriminate|] end.
  match type of W with Ok ?x = Ok ?y => assert (W' : x = y) by congruence end. clear W. rename W' into W.
  destruct (N.ltb_spec 65535 (Nlen (wire_ctx (h_enc_ctx h)))) as [B|B]; [discriminate|].
  match type of S with (if ?c then _ else _) = _ => destruct c; [|discriminate] end.
  assert (A : wire_ctx (ctx_sort (h_enc_ctx h)) = aad) by congruence. clear S.
  split; [exact B|]. rewrite A. rewrite (head_start_pre _ _ _ L) in W.
  assert (AL : Nlen aad = Nlen (wire_ctx (h_enc_ctx h))).
  { rewrite <- A. apply Nlen_wire_ctx_perm, ctx_sort_perm. }
  unfold field16. rewrite (be2 (Nlen aad)) in W by lia. rewrite be2_mod in W.
  match type of W with context [u16 (Nlen (h_edks h) mod 65536) ++ ?x] => exists x end.
  rewrite <- W, <- !app_assoc. reflexivity.
Qed.

Lemma C04_encrypt_lemma : forall cr m ops w, crypto_sizes cr -> history cr m ops w ->
  s_mode (w_s w) = M_ENCRYPT -> s_state (w_s w) <> ST_ERROR -> w_out w <> [] \/ is_done (w_s w) = true ->
  exists rq ctx em mid log c rest, w_log w = EvGen rq ctx em :: EvRand mid :: log /\
    w_out w = head_start (em_alg em) mid ++ field16 (wire_ctx c) ++ u16 (Nlen (em_edks em) mod 65536) ++ rest /\
    Permutation c ctx /\
    (s_max (w_s w) <> 0 -> Nlen (em_edks em) <= s_max (w_s w)).
Proof.
  intros cr m ops w CS H EM NE OUT. pose proof (history_inv _ _ _ _ CS H) as I. unfold winv in I.
  destruct (enc_shape _ _ _ _ _ I NE EM OUT) as [i [l [tr [trlog [EO [SE [CONF [E1 [E2 [E3 [BS _]]]]]]]]]]].
  assert (LH : alg_lookup (h_alg_id (s_hdr (w_s w))) = Some (ei_p i)) by (rewrite (eo_hdr _ _ _ EO); exact (eo_lookup _ _ _ EO)).
  destruct (hdr_write_count _ _ _ _ LH (eo_write _ _ _ EO)) as [_ [rest EH]]. rewrite (eo_hdr _ _ _ EO) in EH.
  cbn [h_alg_id h_message_id h_enc_ctx h_edks] in EH.
  exists (ei_rq i), (ei_ctx i), (ei_m i), (ei_mid i).
  eexists. exists (ctx_sort (ei_ctx i)), (rest ++ body_wire l ++ tr).
  split; [rewrite E3; unfold elog, enc_log; cbn [app]; reflexivity|].
  split; [rewrite E1, EH, <- !app_assoc; reflexivity|].
  split; [apply ctx_sort_perm|]. intros NZ. destruct (eo_max _ _ _ EO); [contradiction|auto].
Qed.

(** ** C31 *)
Lemma C31_lemma : forall cr w m, is_valid_mode m = true ->
  let s := w_s w in
  exec cr w (OReset m) =
    (mk_world (set_policy (s_policy s) (set_max (s_max s) (set_fsize (s_fsize s) (set_commit (s_commit s) (new_session m)))))
       [] [] [], mk_opres POk 0 0 []).
Proof. intros cr w m V s. cbn [exec]. unfold new_session, reset. rewrite V. reflexivity. Qed.

(** ** C53, C54 *)
Lemma label_len : forall ty, Nlen (text (body_label ty)) =
  match ty with FRAME_TYPE_SINGLE => 35 | FRAME_TYPE_FRAME => 28 | FRAME_TYPE_FINAL => 34 end.
Proof. intros []; reflexivity. Qed.

Lemma app_inj_len : forall (a b c d : list N), a ++ b = c ++ d -> length a = length c -> a = c /\ b = d.
Proof.
  induction a as [|x a IH]; intros b [|y c] d E L; cbn in *; try discriminate; auto.
  injection E as -> E. injection L as L. destruct (IH _ _ _ E L) as [-> ->]. auto.
Qed.

Lemma body_aad_inj : forall mid ty n len mid' ty' n' len',
  Nlen mid = 16 \/ Nlen mid = 32 -> Nlen mid' = 16 \/ Nlen mid' = 32 ->
  n < 4294967296 -> n' < 4294967296 -> len < 18446744073709551616 -> len' < 18446744073709551616 ->
  body_aad mid ty n len = body_aad mid' ty' n' len' -> mid = mid' /\ ty = ty' /\ n = n' /\ len = len'.
Proof.
  intros mid ty n len mid' ty' n' len' M M' N N' L L' E.
  assert (EL := f_equal (@Nlen _) E). unfold body_aad in EL.
  rewrite !Nlen_app, !label_len, !Nlen_u32, !Nlen_u64 in EL.
  assert (T : ty = ty' /\ Nlen mid = Nlen mid') by (destruct ty, ty'; split; auto; lia). destruct T as [-> MM].
  unfold body_aad in E. apply app_inj_len in E; [|unfold Nlen in MM; lia]. destruct E as [E1 E2].
  apply app_inv_head in E2. apply app_inj_len in E2; [|reflexivity]. destruct E2 as [E2 E3].
  apply u32_inj in E2; auto. apply u64_inj in E3; auto.
Qed.

Lemma C54_lemma : forall mid ty n len mid' ty' n' len',
  Nlen mid = 16 \/ Nlen mid = 32 -> Nlen mid' = 16 \/ Nlen mid' = 32 ->
  n < 4294967296 -> n' < 4294967296 -> len < 18446744073709551616 -> len' < 18446744073709551616 ->
  frame_aad mid ty n len = frame_aad mid' ty' n' len' -> mid = mid' /\ ty = ty' /\ n = n' /\ len = len'.
Proof. intros. rewrite !frame_aad_spec in * by auto. now apply body_aad_inj. Qed.

Lemma existsb_in : forall x l, In x l -> existsb (N.eqb x) l = true.
Proof. intros x l I. apply existsb_exists. exists x. split; auto. apply N.eqb_refl. Qed.

Lemma kdf_content : forall alg mid dk,
  (In alg [0x0114; 0x0146; 0x0178; 0x0214] -> kdf_input alg mid dk P_CONTENT = Some (SHA256, zeros 32, dk, u16 alg ++ mid, suite_key_len alg)) /\
  (In alg [0x0346; 0x0378] -> kdf_input alg mid dk P_CONTENT = Some (SHA384, zeros 48, dk, u16 alg ++ mid, suite_key_len alg)) /\
  (In alg v2_suites -> kdf_input alg mid dk P_CONTENT = Some (SHA512, mid, dk, u16 alg ++ text "DERIVEKEY", 32) /\
     kdf_input alg mid dk P_COMMIT = Some (SHA512, mid, dk, text "COMMITKEY", 32)).
Proof.
  intros alg mid dk. unfold kdf_input. split; [|split].
  - intros I. rewrite (existsb_in _ _ I). reflexivity.
  - intros I. cbn in I. destruct I as [<-|[<-|[]]]; reflexivity.
  - intros I. cbn in I. destruct I as [<-|[<-|[]]]; split; reflexivity.
Qed.

Lemma C53_inputs_lemma : forall cr cr' alg p dk mid clen k0 c0, alg_lookup alg = Some p ->
  (forall pu h s i f n, kdf_input alg mid dk pu = Some (h, s, i, f, n) -> cr_hkdf cr h s i f n = cr_hkdf cr' h s i f n) ->
  derive_key cr p dk mid clen k0 c0 = derive_key cr' p dk mid clen k0 c0.
Proof.
  intros cr cr' alg p dk mid clen k0 c0 L AG. destruct (kdf_content alg mid dk) as [K1 [K2 K3]].
  destruct (suite_facts _ _ L) as [ID [CKL [DKL [[V1 [VER [CL SHA]]]|[V2 [VER [CL [SHA SKL]]]]]]]].
  - unfold derive_key. rewrite VER. change (1 =? HEADER_VERSION_1_0) with true. cbv iota.
    destruct (negb _); [reflexivity|]. unfold derive_key_v1. destruct (negb _); [reflexivity|].
    rewrite ID, CKL. destruct SHA as [[W I]|[[W I]|[W I]]]; rewrite W; [reflexivity| |];
    unfold hkdf; rewrite be2 by (apply suite_id_small; auto).
    + change (md_size SHA256) with 32. rewrite (AG _ _ _ _ _ _ (K1 I)). reflexivity.
    + change (md_size SHA384) with 48. rewrite (AG _ _ _ _ _ _ (K2 I)). reflexivity.
  - unfold derive_key. rewrite VER. change (2 =? HEADER_VERSION_1_0) with false. change (2 =? HEADER_VERSION_2_0) with true.
    cbv iota. unfold derive_key_v2. rewrite CL, CKL, SKL, ID, SHA. destruct (_ <? _); [reflexivity|].
    destruct (N.eqb_spec (Nlen mid) 32) as [M|M]; cbn [negb]; [|reflexivity].
    unfold hkdf. destruct mid as [|x mid']; [discriminate M|]. remember (x :: mid') as mid.
    rewrite be2 by (apply suite_id_small; auto). rewrite !c_str_text.
    rewrite (AG _ _ _ _ _ _ (proj2 (K3 V2))), (AG _ _ _ _ _ _ (proj1 (K3 V2))). reflexivity.
Qed.

Lemma kdf_input_cases : forall alg mid dk pu x, kdf_input alg mid dk pu = Some x ->
  (pu = P_CONTENT /\ In alg [0x0114; 0x0146; 0x0178; 0x0214] /\ x = (SHA256, zeros 32, dk, u16 alg ++ mid, suite_key_len alg)) \/
  (pu = P_CONTENT /\ In alg [0x0346; 0x0378] /\ x = (SHA384, zeros 48, dk, u16 alg ++ mid, suite_key_len alg)) \/
  (pu = P_CONTENT /\ In alg v2_suites /\ x = (SHA512, mid, dk, u16 alg ++ text "DERIVEKEY", 32)) \/
  (pu = P_COMMIT /\ In alg v2_suites /\ x = (SHA512, mid, dk, text "COMMITKEY", 32)).
Proof.
  intros alg mid dk pu x H. assert (EX : forall l, existsb (N.eqb alg) l = true -> In alg l).
  { intros l E. apply existsb_exists in E. destruct E as [y [I E]]. apply N.eqb_eq in E. now subst. }
  unfold kdf_input in H. destruct pu.
  - destruct (existsb _ _) eqn:E1; [left; split; [|split]; auto; congruence|right].
    destruct (existsb _ [838; 888]) eqn:E2; [left; split; [|split]; auto; congruence|right].
    destruct (existsb _ v2_suites) eqn:E3; [left; split; [|split]; auto; congruence|discriminate].
  - destruct (existsb _ v2_suites) eqn:E3; [|discriminate]. right. right. right. split; [|split]; auto; congruence.
Qed.

Lemma C53_separation_lemma : forall alg mid dk pu alg' mid' dk' pu' x,
  kdf_input alg mid dk pu = Some x -> kdf_input alg' mid' dk' pu' = Some x ->
  pu = pu' /\ mid = mid' /\ dk = dk' /\ (pu = P_CONTENT -> alg = alg').
Proof.
  intros alg mid dk pu alg' mid' dk' pu' x H H'.
  assert (U : forall (y z : list N), u16 alg ++ y = u16 alg' ++ z -> alg < 65536 -> alg' < 65536 -> alg = alg' /\ y = z).
  { intros y z E A A'. apply app_inj_len in E; [|reflexivity]. destruct E as [E1 E2]. apply u16_inj in E1; auto. }
  assert (B1 : forall a, In a [0x0114; 0x0146; 0x0178; 0x0214] -> a < 65536) by (intros a I; cbn in I; intuition (subst; reflexivity)).
  assert (B2 : forall a, In a [0x0346; 0x0378] -> a < 65536) by (intros a I; cbn in I; intuition (subst; reflexivity)).
  assert (B3 : forall a, In a v2_suites -> a < 65536) by (intros a I; cbn in I; intuition (subst; reflexivity)).
  destruct (kdf_input_cases _ _ _ _ _ H) as [[P [I E]]|[[P [I E]]|[[P [I E]]|[P [I E]]]]];
  destruct (kdf_input_cases _ _ _ _ _ H') as [[P' [I' E']]|[[P' [I' E']]|[[P' [I' E']]|[P' [I' E']]]]];
  rewrite E' in E; try discriminate.
  - assert (E1 : u16 alg ++ mid = u16 alg' ++ mid') by congruence. destruct (U _ _ E1); auto. repeat split; congruence.
  - assert (E1 : u16 alg ++ mid = u16 alg' ++ mid') by congruence. destruct (U _ _ E1); auto. repeat split; congruence.
  - assert (E1 : u16 alg ++ text "DERIVEKEY" = u16 alg' ++ text "DERIVEKEY") by congruence. destruct (U _ _ E1); auto.
    repeat split; congruence.
  - repeat split; congruence.
Qed.

Lemma C53_plain_lemma : forall cr alg p dk mid k0 c0, alg_lookup alg = Some p -> In alg plain_suites -> Nlen mid = 16 ->
  derive_key cr p dk mid 0 k0 c0 = mk_kdf KOk dk c0.
Proof.
  intros cr alg p dk mid k0 c0 L I M. cbn in I.
  destruct I as [<-|[<-|[<-|[]]]]; vm_compute in L; injection L as <-; unfold derive_key, derive_key_v1; cbn [ap_version ap_id];
  rewrite M; reflexivity.
Qed.

(** ** Histories by computation *)
Lemma history_run : forall cr m ops, is_valid_mode m = true -> Forall op_bytes ops ->
  forallb (fun r => negb (stuck (o_rc r))) (snd (run cr (new_world m) ops)) = true ->
  history cr m ops (fst (run cr (new_world m) ops)).
Proof.
  intros cr m ops V B F. split; auto. split; auto. exists (snd (run cr (new_world m) ops)). split.
  - apply surjective_pairing.
  - apply Forall_forall. intros r I. rewrite forallb_forall in F. specialize (F r I).
    destruct (stuck (o_rc r)); [discriminate|reflexivity].
Qed.
