(** Decryption steps preserve the invariant. *)
From Verif Require Import Base AlgModel EncCtxModel HdrModel FrameModel CryptoModel SessionModel
  BaseProofs WireSpec SessionSpec EncCtxProofs HdrProofs FrameProofs SessionBase SessionInv SessionStep.
From Coq Require Import ZArith ZifyBool ZifyNat ZifyN.
Import List.
Open Scope list_scope.
Open Scope N_scope.

Lemma wire_auth_len : forall h p b a, hdr_wf h -> alg_lookup (h_alg_id h) = Some p -> wire_header h b a ->
  Nlen a = authtag_len p /\
  ((In (h_alg_id h) v1_suites /\ ap_version p = 1 /\ alg_is_committing (h_alg_id h) = false /\
    a = h_iv h ++ h_auth_tag h /\ Nlen (h_iv h) = 12 /\ h_alg_suite_data h = []) \/
   (In (h_alg_id h) v2_suites /\ ap_version p = 2 /\ alg_is_committing (h_alg_id h) = true /\
    a = h_auth_tag h)) /\ Nlen (h_auth_tag h) = 16.
Proof.
  intros h p b a WF LK W. destruct (alg_lookup_lens _ _ LK) as [VER [IVL [TGL ID]]].
  destruct WF as [V [TG _]]. unfold authtag_len. rewrite IVL, TGL.
  destruct W as [W|W]; unfold is_v1, is_v2 in *.
  - destruct V as [[_ [_ [SD IV]]]|[V _]]; [|destruct (v1_not_v2 _ W V)].
    pose proof (proj2 (v1_version _ _ LK) W) as V1. rewrite V1. change (1 =? HEADER_VERSION_1_0) with true. cbv iota.
    destruct (in_v1_cases _ W) as [q Q]. rewrite Nlen_app. split; [lia|]. split; [|auto]. left. repeat split; auto; tauto.
  - pose proof (proj2 (v2_version _ _ LK) W) as V2. rewrite V2. change (2 =? HEADER_VERSION_1_0) with false. cbv iota.
    destruct (in_v2_cases _ W) as [q Q]. split; [lia|]. split; [|auto]. right. repeat split; auto; tauto.
Qed.

Lemma firstn_app_N : forall A (a b : list A) n, n = Nlen a -> firstn (N.to_nat n) (a ++ b) = a.
Proof.
  intros A a b n ->. rewrite <- length_Nlen, firstn_app, firstn_all, Nat.sub_diag. cbn. apply app_nil_r.
Qed.
Lemma skipn_app_N : forall A (a b : list A) n, n = Nlen a -> skipn (N.to_nat n) (a ++ b) = b.
Proof.
  intros A a b n ->. rewrite <- length_Nlen, skipn_app, skipn_all, Nat.sub_diag. reflexivity.
Qed.

Lemma unwrap_nonces : forall l rq m, seal_nonces l = [] -> nonces_ok (EvUnwrap rq m :: l).
Proof. intros. now apply nonces_ok_none. Qed.

Lemma unwrap_keys_good : forall cr e s room input used rest s0 b a,
  crypto_sizes cr -> conf_ok s -> is_decrypt_mode (s_mode s) = true -> s_state s = ST_UNWRAP_KEY ->
  hdr_wf (s_hdr s) -> edk_limit_ok (s_max s) (s_hdr s) -> wire_header (s_hdr s) b a ->
  h_auth_len (s_hdr s) = Nlen b -> s_hcopy s = Some (b ++ a) -> s_hsize s = hdr_size (s_hdr s) ->
  s_hsize s = Nlen (b ++ a) -> s_sig s = None -> s_policy s0 = s_policy s ->
  used = b ++ a -> input = used ++ rest ->
  step_good cr e s0 room input [] [] [] (unwrap_keys cr e s rest).
Proof.
  intros cr e s room input used rest s0 b a CS CONF MODE ST WF LIM W AL HC HS HS' SIG POL0 USED INP.
  assert (FS : s_fsize s < 4294967296) by apply CONF.
  assert (FAIL : forall s' x lg, s_fsize s' = s_fsize s -> seal_nonces lg = [] ->
     step_good cr e s0 room input [] [] [] (mk_step s' rest [] (RFail x) lg)).
  { intros. apply (good_fail _ _ _ _ _ _ _ _ _ used); auto; [lia|]. now apply nonces_ok_none. }
  unfold unwrap_keys. sproj.
  destruct (alg_lookup (h_alg_id (s_hdr s))) as [p|] eqn:LK; [|now apply FAIL].
  destruct (wire_auth_len _ _ _ _ WF LK W) as [LA [VV TG]].
  destruct (alg_lookup_lens _ _ LK) as [VER [IVL [TGL ID]]].
  set (rq := mk_dec_request _ _ _). destruct (e_dec e rq) as [m|x]; [|now apply FAIL].
  destruct (alg_lookup (dm_alg m)) as [mp|] eqn:LKM; [|now apply FAIL]. sproj.
  destruct (match s_mode s with M_DECRYPT_UNSIGNED => true | _ => false end && negb (ap_sig_len mp =? 0)) eqn:UNS;
    [now apply FAIL|].
  unfold derive_data_key. sproj.
  destruct (N.eqb_spec (Nlen (dm_key m)) (ap_data_key_len p)) as [DK|DK]; cbn [negb]; [|now apply FAIL].
  destruct (e_debug e && negb (policy_is_valid (s_policy s))) eqn:DBG.
  { exists used. sproj. rewrite Nlen_nil. apply andb_prop in DBG. destruct DBG as [D P].
    repeat split; auto; try lia. rewrite POL0. now apply negb_true_iff. }
  rewrite ID. destruct (allowed_for_decrypt (h_alg_id (s_hdr s)) (s_policy s)) eqn:AD; cbn [negb]; [|now apply FAIL].
  pose proof (derive_key_spec cr _ p (dm_key m) (h_message_id (s_hdr s)) (ap_commitment_len p) (s_key s) (s_commit s) CS LK DK) as DS.
  cbn zeta in DS. set (k := derive_key cr p (dm_key m) _ _ _ _) in *.
  destruct (kd_rc k) eqn:RC; sproj; try (now apply FAIL).
  specialize (DS eq_refl). destruct DS as [CK [CPK [ML COM]]].
  destruct (commitment_eq (firstn (N.to_nat (ap_commitment_len p)) (kd_commit k)) (h_alg_suite_data (s_hdr s))) eqn:CEQ;
    [|now apply FAIL].
  apply commitment_eq_true in CEQ.
  unfold validate_header. sproj. rewrite HC, <- HS, N.eqb_refl. cbn [negb]. rewrite andb_false_r.
  destruct (N.eqb_spec (s_hsize s) 0) as [Z|Z]; [now apply FAIL|].
  destruct (sub64 (s_hsize s) (h_auth_len (s_hdr s)) =? authtag_len p) eqn:SZ; cbn [negb]; [|now apply FAIL].
  rewrite firstn_app_N, skipn_app_N, firstn_all_N by auto.
  unfold verify_header. rewrite IVL, TGL, CPK.
  change (12 + 16) with 28.
  (* the two versions *)
  set (iv := if alg_is_committing (h_alg_id (s_hdr s)) then msg_iv 0 else h_iv (s_hdr s)).
  assert (VH : (if ap_version p =? HEADER_VERSION_1_0
     then if negb (Nlen a =? 28) then ([], Err E_BAD_CIPHERTEXT)
          else (firstn (N.to_nat 12) a,
             match cr_dec cr (kd_key k) (firstn (N.to_nat 12) a) b [] (skipn (N.to_nat 12) a) with
             | OpenOk _ => Ok tt | OpenBadTag => Err E_BAD_CIPHERTEXT | OpenFail => Err E_CRYPTO_UNKNOWN end)
     else if ap_version p =? HEADER_VERSION_2_0
     then if negb (Nlen a =? 16) then ([], Err E_BAD_CIPHERTEXT)
          else (zeros 12, match cr_dec cr (kd_key k) (zeros 12) b [] a with
             | OpenOk _ => Ok tt | OpenBadTag => Err E_BAD_CIPHERTEXT | OpenFail => Err E_CRYPTO_UNKNOWN end)
     else ([], Err E_CRYPTO_UNKNOWN)) =
     (iv, match cr_dec cr (kd_key k) iv b [] (h_auth_tag (s_hdr s)) with
             | OpenOk _ => Ok tt | OpenBadTag => Err E_BAD_CIPHERTEXT | OpenFail => Err E_CRYPTO_UNKNOWN end) /\
     skipn (N.to_nat (Nlen a - 16)) a = h_auth_tag (s_hdr s)).
  { destruct VV as [[V [V1 [CM [-> [IV SD]]]]]|[V [V2 [CM ->]]]].
    - unfold iv. rewrite V1, CM, Nlen_app, IV, TG. change (1 =? HEADER_VERSION_1_0) with true. change (12 + 16 =? 28) with true.
      cbn [negb]. cbv iota. rewrite firstn_app_N, skipn_app_N by auto. split; [reflexivity|].
      now rewrite skipn_app_N by (rewrite IV; reflexivity).
    - unfold iv. rewrite V2, CM, TG. change (2 =? HEADER_VERSION_1_0) with false. change (2 =? HEADER_VERSION_2_0) with true.
      change (16 =? 16) with true. cbn [negb]. cbv iota. rewrite <- msg_iv_0. split; [reflexivity|]. reflexivity. }
  destruct VH as [VH TAGE]. cbn zeta. rewrite VH, TAGE. clear VH TAGE.
  destruct (cr_dec cr (kd_key k) iv b [] (h_auth_tag (s_hdr s))) as [pt| |] eqn:OPEN; [|now apply FAIL|now apply FAIL].
  assert (pt = []) as ->.
  { destruct CS as [_ [CS _]]. apply CS in OPEN. apply Nlen_0. now rewrite OPEN. }
  set (i := mk_dinfo rq m p mp (s_policy s) b a iv (kd_key k)).
  assert (COMMIT : In (h_alg_id (s_hdr s)) v2_suites ->
     key_commitment cr (h_message_id (s_hdr s)) (dm_key m) (h_alg_suite_data (s_hdr s))).
  { intros V2. destruct COM as [[V1 _]|[_ [CL [COM LC]]]]; [destruct (v1_not_v2 _ V1 V2)|].
    destruct (in_v2_cases _ V2) as [q [Lq [_ [_ [_ [_ [_ [CML _]]]]]]]]. rewrite LK in Lq. injection Lq as <-.
    rewrite CML, firstn_all_N in CEQ by auto. now rewrite <- CEQ. }
  assert (DONE : forall s', (ap_sig_len p <> 0 -> dm_sig m <> None) ->
     s_mode s' = s_mode s -> s_policy s' = s_policy s -> s_precise s' = s_precise s -> s_bound s' = s_bound s ->
     s_known s' = s_known s -> s_hcopy s' = s_hcopy s -> s_hsize s' = s_hsize s -> s_hdr s' = s_hdr s ->
     s_fsize s' = h_frame_len (s_hdr s) -> s_seqno s' = 1 -> s_alg s' = Some p -> s_key s' = kd_key k ->
     s_cmm_ok s' = true -> s_max s' = s_max s -> s_state s' = ST_DECRYPT_BODY ->
     s_sig s' = signed_so_far (dsig i) (b ++ a) ->
     step_good cr e s0 room input [] [] []
       (mk_step s' rest [] RGo ([EvUnwrap rq m] ++ [EvOpen (kd_key k) iv b [] (h_auth_tag (s_hdr s)) []]))).
  { intros s' DS E1 E2 E3 E4 E5 E6 E7 E8 E9 E10 E11 E12 E13 E14 E15 E16.
    exists used. sproj. split; auto. split; [rewrite Nlen_nil; lia|].
    cbn [app]. rewrite USED.
    replace (b ++ a) with (di_head i ++ body_wire []) by apply app_nil_r.
    replace [EvUnwrap rq m; EvOpen (kd_key k) iv b [] (h_auth_tag (s_hdr s)) []] with (dlog s' i [])
      by (unfold dlog, dec_log; rewrite E8; reflexivity).
    apply (inv_dbody cr s' i []); auto.
    - destruct CONF as [C1 [C2 [C3 C4]]]. unfold conf_ok. rewrite E3, E4, E5, E9. repeat split; auto.
      apply WF.
    - constructor; rewrite ?E1, ?E2, ?E6, ?E7, ?E8, ?E9, ?E11, ?E12, ?E13, ?E14; unfold i;
        cbn [di_rq di_m di_p di_mp di_pol di_body di_auth di_iv di_key]; auto.
      + intros M. rewrite M in UNS. cbn in UNS. lia.
      + unfold rq. now rewrite ID.
    - exact I.
    - rewrite Nlen_nil. lia.
    - constructor; [constructor|]. rewrite E10, Nlen_nil. reflexivity.
    - rewrite E16. unfold di_head, i. cbn [di_body di_auth body_wire map concat]. now rewrite app_nil_r. }
  assert (CHG : forall s1, s_state s1 = ST_UNWRAP_KEY -> s_alg s1 = Some p -> s_seqno s1 = 1 ->
     change_state s1 ST_DECRYPT_BODY = Some (set_state ST_DECRYPT_BODY s1)).
  { intros s1 E1 E2 E3. unfold change_state. rewrite E1, E2, E3. reflexivity. }
  destruct (N.eqb_spec (ap_sig_len p) 0) as [SZ0|SZ0]; cbn [negb].
  - rewrite CHG by (sproj; auto). cbn [finish]. apply DONE; sproj; auto.
    unfold dsig, i. cbn [di_p di_m]. rewrite SZ0. change (0 =? 0) with true. cbv iota. exact SIG.
  - destruct (dm_sig m) as [sc|] eqn:DSIG; [|now apply FAIL].
    destruct (sig_update cr sc (b ++ a)) as [sc'|] eqn:SU; [|now apply FAIL].
    rewrite CHG by (sproj; auto). cbn [finish]. apply DONE; sproj; auto; [intros; congruence|].
    assert (SU' : sig_update_opt cr (Some sc) (b ++ a) = Some (Some sc')) by (cbn; now rewrite SU).
    apply sig_update_opt_spec in SU'. rewrite SU'. unfold dsig, i. cbn [di_p di_m].
    destruct (N.eqb_spec (ap_sig_len p) 0); [congruence|]. now rewrite DSIG.
Qed.

Lemma hdr_cleared_ctx : hdr_cleared = set_hdr_ctx [] hdr_cleared. Proof. reflexivity. Qed.

Lemma try_parse_header_good : forall cr e s room input,
  crypto_sizes cr -> bytes_ok input -> conf_ok s -> pristine s -> is_decrypt_mode (s_mode s) = true ->
  s_state s = ST_READ_HEADER ->
  step_good cr e s room input [] [] [] (try_parse_header cr e s input).
Proof.
  intros cr e s room input CS BO CONF PR MODE ST. unfold try_parse_header.
  assert (FS : s_fsize s < 4294967296) by apply CONF.
  destruct (hdr_parse (s_max s) input) as [[h rest]|x] eqn:HP.
  2:{ assert (STAY : forall a b, inv cr (set_oest a (set_iest b (set_hdr hdr_cleared s))) [] [] []).
      { intros. apply inv_read; auto. destruct PR. constructor; sproj; auto.
        exists []. split; auto. }
      destruct x; try (apply (good_fail _ _ _ _ _ _ _ _ _ []); auto using nonces_ok_nil).
      sproj. apply good_stay, STAY. }
  destruct (hdr_parse_sound _ _ _ _ BO HP) as [WF [LIM [b [a [W [AL E]]]]]].
  rewrite app_assoc in E.
  destruct (N.eqb_spec (hdr_size h) 0) as [Z|Z].
  { apply (good_fail _ _ _ _ _ _ _ _ _ (b ++ a)); auto using nonces_ok_nil. }
  destruct (N.eqb_spec (hdr_size h) (Nlen input - Nlen rest)) as [SZ|SZ]; cbn [negb].
  2:{ apply (good_fail _ _ _ _ _ _ _ _ _ (b ++ a)); auto using nonces_ok_nil. }
  assert (SZ' : hdr_size h = Nlen (b ++ a)) by (rewrite SZ, E, Nlen_app; lia).
  assert (COPY : firstn (N.to_nat (hdr_size h)) input = b ++ a) by (rewrite E; now apply firstn_app_N).
  unfold change_state. sproj. rewrite ST, MODE, COPY. st_eval.
  destruct (N.eqb_spec (hdr_size h) 0); [contradiction|]. cbn [negb]. cbv iota.
  destruct PR.
  eapply unwrap_keys_good with (b := b) (a := a); sproj; auto.
Qed.

Lemma opened_frame : forall cr e s room input i l,
  crypto_sizes cr -> bytes_ok input -> conf_ok s -> dec_ok cr s i -> s_state s = ST_DECRYPT_BODY ->
  regular_from 1 l -> Nlen l <= 4294967294 -> dbody_ok cr s i l ->
  s_sig s = signed_so_far (dsig i) (di_head i ++ body_wire l) ->
  step_good cr e s room input (di_head i ++ body_wire l) (body_text l) (dlog s i l) (try_decrypt_body cr s room input).
Proof.
  intros cr e s room input i l CS BO CONF DO ST R L DB SG. unfold try_decrypt_body. rewrite (do_alg _ _ _ DO).
  assert (SL : std_lens (di_p i)) by (eapply lookup_std_lens; apply (do_lookup _ _ _ DO)).
  assert (FS : s_fsize s < 4294967296) by apply CONF.
  assert (STAY : forall x y, inv cr (set_oest x (set_iest y s)) (di_head i ++ body_wire l) (body_text l) (dlog s i l)).
  { intros. change (dlog s i l) with (dlog (set_oest x (set_iest y s)) i l). apply inv_dbody; auto.
    - destruct DO; constructor; sproj; auto.
    - destruct DB; constructor; sproj; auto. }
  set (d := deserialize_frame (di_p i) (s_fsize s) input).
  assert (NON : forall lg, seal_nonces lg = [] -> nonces_ok (dlog s i l ++ lg)).
  { intros. apply nonces_ok_none. rewrite seal_nonces_app, dlog_nonces. auto. }
  destruct (ds_res d) as [[f rest]|x] eqn:DS.
  2:{ destruct x; try (apply (good_fail _ _ _ _ _ _ _ _ _ []); sproj; auto).
      apply good_stay, STAY. }
  destruct (deserialize_frame_sound _ _ _ _ _ SL FS BO DS) as [WF E].
  assert (PS : ds_psize d = Nlen (fr_ciphertext f)).
  { unfold d. rewrite E. now rewrite deserialize_frame_complete. }
  sproj. rewrite PS.
  destruct (N.eqb_spec (s_seqno s) (fr_seqno f)) as [SQ|SQ]; cbn [negb];
    [|apply (good_fail _ _ _ _ _ _ _ _ _ (wire_frame f)); sproj; auto].
  destruct (N.ltb_spec room (Nlen (fr_ciphertext f))) as [RM|RM]; [apply good_stay, STAY|].
  unfold decrypt_body. rewrite N.eqb_refl. cbn [negb]. rewrite (do_key _ _ _ DO), (do_ckey _ _ _ DO).
  assert (SB : fr_seqno f < 4294967296 /\ Nlen (fr_ciphertext f) < 18446744073709551616).
  { destruct WF as [_ [_ WF]]. destruct (fr_type f); lia. }
  rewrite frame_aad_spec by tauto.
  destruct (cr_dec cr (di_key i) (fr_iv f) _ (fr_ciphertext f) (fr_authtag f)) as [pt| |] eqn:OP.
  2,3: apply (good_fail _ _ _ _ _ _ _ _ _ (wire_frame f)); sproj; auto.
  assert (PL : Nlen pt = Nlen (fr_ciphertext f)) by (destruct CS as [_ [CS _]]; eauto).
  rewrite PL, N.ltb_irrefl.
  set (ev := EvOpen _ _ _ _ _ _).
  assert (EV : ev = open_event (di_key i) (h_message_id (s_hdr s)) (f, pt)) by reflexivity.
  rewrite EV. clear ev EV.
  assert (USED : firstn (N.to_nat (Nlen input - Nlen rest)) input = wire_frame f).
  { rewrite E, Nlen_app. apply firstn_app_N. lia. }
  rewrite USED. sproj.
  destruct (sig_update_opt cr (s_sig s) (wire_frame f)) as [osc|] eqn:SU.
  2:{ apply (good_fail _ _ _ _ _ _ _ _ _ (wire_frame f)); sproj; auto. }
  apply sig_update_opt_spec in SU. rewrite SG, signed_so_far_app, <- app_assoc in SU.
  assert (OP' : opened cr (di_key i) (h_message_id (s_hdr s)) (s_fsize s) (f, pt)) by (unfold opened; auto).
  pose proof (db_seqno _ _ _ _ DB) as SQ1.
  assert (LOG : dlog s i l ++ [open_event (di_key i) (h_message_id (s_hdr s)) (f, pt)] = dlog s i (l ++ [(f, pt)])).
  { unfold dlog. now rewrite map_app, app_assoc. }
  assert (GOAL : forall st s', s' = set_state st (set_sig osc (set_seqno (add64 (s_seqno s) 1)
       (set_oest (Nlen (fr_ciphertext f)) (set_iest (ds_csize d) s)))) ->
     (st = ST_DECRYPT_BODY /\ fr_type f = FRAME_TYPE_FRAME \/ st = ST_CHECK_TRAILER /\ fr_type f <> FRAME_TYPE_FRAME) ->
     step_good cr e s room input (di_head i ++ body_wire l) (body_text l) (dlog s i l)
       (mk_step s' rest pt RGo [open_event (di_key i) (h_message_id (s_hdr s)) (f, pt)])).
  { intros st s' -> C. set (s' := set_state st _). exists (wire_frame f). sproj. split; auto. split; [lia|].
    rewrite LOG, <- body_text_snoc with (f := f), <- app_assoc, <- body_wire_snoc with (p := pt).
    change (dlog s i (l ++ [(f, pt)])) with (dlog s' i (l ++ [(f, pt)])).
    assert (DO' : dec_ok cr s' i) by (destruct DO; constructor; unfold s'; sproj; auto).
    assert (DB' : dbody_ok cr s' i (l ++ [(f, pt)])).
    { constructor; unfold s'; sproj.
      - apply Forall_app. split; [apply DB|]. constructor; auto.
      - rewrite add64_small by lia. rewrite Nlen_app, Nlen_cons, Nlen_nil. lia. }
    assert (SG' : s_sig s' = signed_so_far (dsig i) (di_head i ++ body_wire (l ++ [(f, pt)]))).
    { unfold s'. sproj. now rewrite body_wire_snoc. }
    destruct C as [[-> T]|[-> T]].
    - apply inv_dbody; auto.
      + apply regular_snoc; auto. lia.
      + destruct WF as [_ [_ WF]]. rewrite T in WF. rewrite Nlen_app, Nlen_cons, Nlen_nil. lia.
    - apply inv_dtrailer; auto. exists l, f, pt. repeat split; auto. lia. }
  unfold finish, change_state. sproj. rewrite ST. st_eval.
  destruct (fr_type f) eqn:T.
  - apply (GOAL ST_CHECK_TRAILER); auto. right. split; auto. discriminate.
  - apply (GOAL ST_DECRYPT_BODY); [|auto]. unfold set_state. sproj. now rewrite <- ST.
  - apply (GOAL ST_CHECK_TRAILER); auto. right. split; auto. discriminate.
Qed.

Lemma dsig_none : forall cr s i b, dec_ok cr s i -> signed_so_far (dsig i) b = None -> ap_sig_len (di_p i) = 0.
Proof.
  intros cr s i b DO H. unfold dsig in H. destruct (N.eqb_spec (ap_sig_len (di_p i)) 0) as [Z|Z]; auto.
  exfalso. apply (do_sig _ _ _ DO Z). destruct (dm_sig (di_m i)); [discriminate|reflexivity].
Qed.
Lemma dsig_some : forall i b sc, signed_so_far (dsig i) b = Some sc -> ap_sig_len (di_p i) <> 0.
Proof.
  intros i b sc H Z. unfold dsig in H. rewrite Z in H. discriminate.
Qed.

Lemma check_trailer_good : forall cr e s room input i l,
  bytes_ok input -> conf_ok s -> dec_ok cr s i -> s_state s = ST_CHECK_TRAILER -> whole_body l -> dbody_ok cr s i l ->
  s_sig s = signed_so_far (dsig i) (di_head i ++ body_wire l) ->
  step_good cr e s room input (di_head i ++ body_wire l) (body_text l) (dlog s i l) (check_trailer cr s input).
Proof.
  intros cr e s room input i l BO CONF DO ST W DB SG. unfold check_trailer. sproj.
  assert (STAY : forall x y, inv cr (set_iest x (set_oest y s)) (di_head i ++ body_wire l) (body_text l) (dlog s i l)).
  { intros. change (dlog s i l) with (dlog (set_iest x (set_oest y s)) i l). apply inv_dtrailer; auto.
    - destruct DO; constructor; sproj; auto.
    - destruct DB; constructor; sproj; auto. }
  destruct (s_sig s) as [sc|] eqn:S.
  - destruct (read_be 2 input) as [[n r]|] eqn:RB; [|apply good_stay; apply (STAY 2)].
    apply read_u16_inv in RB; auto. destruct RB as [E [NB BR]].
    destruct (read_bytes n r) as [[sg rest]|] eqn:RS; [|apply good_stay; apply (STAY (2 + n))].
    apply read_bytes_inv in RS. destruct RS as [E2 NL].
    assert (E3 : input = wire_trailer sg ++ rest).
    { unfold wire_trailer, field16. rewrite NL, <- app_assoc, <- E2. exact E. }
    destruct (cr_verify cr sc sg) eqn:V.
    + exists (wire_trailer sg). sproj. split; auto. rewrite Nlen_nil. split; [lia|].
      rewrite app_nil_r, <- app_assoc.
      set (s' := set_sig _ _). change (dlog s i l) with (dlog s' i l).
      apply (inv_dend cr s' i l); auto.
      * destruct DO; constructor; unfold s'; sproj; auto.
      * destruct DB; constructor; unfold s'; sproj; auto.
      * constructor; auto; [eapply dsig_some; eauto|lia].
    + apply (good_fail _ _ _ _ _ _ _ _ _ (wire_trailer sg)); auto; [apply CONF|].
      apply nonces_ok_none. rewrite app_nil_r. apply dlog_nonces.
  - unfold finish, change_state. sproj. rewrite ST. st_eval.
    exists []. sproj. rewrite Nlen_nil. split; auto. split; [lia|]. rewrite !app_nil_r.
    set (s' := set_state _ _). change (dlog s i l) with (dlog s' i l).
    replace (di_head i ++ body_wire l) with (di_head i ++ body_wire l ++ []) by now rewrite app_nil_r.
    rewrite <- (app_nil_r (dlog s' i l)).
    apply (inv_dend cr s' i l [] []); auto.
    * destruct DO; constructor; unfold s'; sproj; auto.
    * destruct DB; constructor; unfold s'; sproj; auto.
    * constructor. symmetry in SG. eapply dsig_none; eauto.
Qed.

Lemma dend_good : forall cr e s room input i l tr trlog,
  conf_ok s -> dec_ok cr s i -> s_state s = ST_CHECK_TRAILER -> s_sig s = None ->
  whole_body l -> dbody_ok cr s i l -> dtrailer cr i l tr trlog ->
  step_good cr e s room input (di_head i ++ body_wire l ++ tr) (body_text l) (dlog s i l ++ trlog) (check_trailer cr s input).
Proof.
  intros cr e s room input i l tr trlog CONF DO ST SG W DB DT. unfold check_trailer. sproj. rewrite SG.
  unfold finish, change_state. sproj. rewrite ST. st_eval.
  exists []. sproj. rewrite Nlen_nil. split; auto. split; [lia|]. rewrite !app_nil_r.
  set (s' := set_state _ _). change (dlog s i l) with (dlog s' i l).
  apply (inv_dend cr s' i l tr trlog); auto.
  - destruct DO; constructor; unfold s'; sproj; auto.
  - destruct DB; constructor; unfold s'; sproj; auto.
Qed.

(** ** One step *)

Theorem step_inv : forall cr e s room input win wout log,
  crypto_sizes cr -> bytes_ok input -> inv cr s win wout log ->
  step_good cr e s room input win wout log (step cr e s room input).
Proof.
  intros cr e s room input win wout log CS BO I. unfold step.
  destruct I as [s CONF PR MODE ST|s CONF PR MODE ST|s CONF PR MODE ST|s i CONF EO ST EB|s i l CONF EO ST R L EB
    |s i l CONF EO ST W EB K PE|s i l tr trlog CONF EO ST W F K PE ET|s i l CONF DO ST R L DB SG|s i l CONF DO ST W DB SG
    |s i l tr trlog CONF DO ST W DB DT|s s0 win wout log more ST FS NE MD I NON]; try rewrite ST.
  - destruct (policy_is_valid (s_policy s)) eqn:PV; cbn [negb].
    2:{ apply (good_fail _ _ _ _ _ _ _ _ _ []); auto using nonces_ok_nil. apply CONF. }
    destruct (is_encrypt_mode (s_mode s)) eqn:EM.
    + unfold finish, change_state. rewrite ST, EM. st_eval.
      exists []. sproj. split; auto. rewrite Nlen_nil. split; [lia|].
      apply inv_gen; auto; [destruct PR; constructor; sproj; auto|].
      sproj. destruct (s_mode s); auto; discriminate.
    + assert (DM : is_decrypt_mode (s_mode s) = true) by (destruct (s_mode s); auto; discriminate).
      unfold finish, change_state. rewrite ST, DM. st_eval.
      exists []. sproj. split; auto. rewrite Nlen_nil. split; [lia|].
      apply inv_read; auto. destruct PR; constructor; sproj; auto.
  - now apply try_gen_key_good.
  - now apply try_parse_header_good.
  - now apply try_write_header_good.
  - now apply try_encrypt_body_good.
  - now apply write_trailer_good.
  - apply good_stay. now apply inv_edone.
  - now apply opened_frame.
  - now apply check_trailer_good.
  - destruct ST as [ST|[ST SG]]; rewrite ST.
    + apply good_stay. apply inv_dend; auto.
    + now apply dend_good.
  - apply (good_fail _ _ _ _ _ _ _ _ _ []); auto. now rewrite app_nil_r.
Qed.
