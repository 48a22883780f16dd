(** Every step of the session preserves the invariant. *)
From Verif Require Import Base AlgModel EncCtxModel HdrModel FrameModel CryptoModel SessionModel
  BaseProofs WireSpec SessionSpec EncCtxProofs HdrProofs FrameProofs SessionBase SessionInv.
From Coq Require Import ZArith ZifyBool ZifyNat ZifyN.
Import List.
Open Scope list_scope.
Open Scope N_scope.

Ltac sproj := cbn [s_error s_mode s_state s_policy s_precise s_bound s_sofar s_known s_hcopy s_hsize s_hdr
  s_fsize s_trace s_iest s_oest s_seqno s_alg s_key s_commit s_sig s_cmm_ok s_max
  set_error set_state set_policy set_precise set_bound set_sofar set_known set_hcopy set_hsize set_hdr
  set_fsize set_trace set_iest set_oest set_seqno set_alg set_key set_commit set_sig set_cmm_ok set_max
  sr_sess sr_in sr_out sr_rc sr_log
  h_alg_id h_frame_len h_iv h_auth_tag h_message_id h_alg_suite_data h_enc_ctx h_edks h_auth_len
  set_hdr_mid set_hdr_ctx set_hdr_suite set_hdr_auth] in *.

(** What one step does to the observable history. *)
Definition step_good (cr : crypto) (e : env) (s : session) (room : N) (input win wout : list N)
  (log : list event) (r : stepres) : Prop :=
  exists used, input = used ++ sr_in r /\ Nlen (sr_out r) <= room /\
  match sr_rc r with
  | RGo => inv cr (sr_sess r) (win ++ used) (wout ++ sr_out r) (log ++ sr_log r)
  | RFail _ => s_fsize (sr_sess r) < 4294967296 /\ sr_out r = [] /\ nonces_ok (log ++ sr_log r)
  | RAbort => False
  | RAssert => e_debug e = true /\ policy_is_valid (s_policy s) = false
  end.

Lemma good_fail : forall cr e s room input win wout log s' used rest x lg,
  input = used ++ rest -> s_fsize s' < 4294967296 -> nonces_ok (log ++ lg) ->
  step_good cr e s room input win wout log (mk_step s' rest [] (RFail x) lg).
Proof.
  intros. exists used. sproj. repeat split; auto. rewrite Nlen_nil. lia.
Qed.

Lemma good_stay : forall cr e s room input win wout log s',
  inv cr s' win wout log ->
  step_good cr e s room input win wout log (mk_step s' input [] RGo []).
Proof.
  intros. exists []. sproj. rewrite !app_nil_r. repeat split; auto. rewrite Nlen_nil. lia.
Qed.

Ltac st_eval := repeat match goal with |- context [sstate_eqb ?a ?b] =>
    let v := eval compute in (sstate_eqb a b) in change (sstate_eqb a b) with v end;
  cbn [andb negb is_encrypt_mode is_decrypt_mode]; cbv iota.

Ltac failing := match goal with |- step_good _ _ _ _ _ _ _ _ (mk_step _ _ _ (RFail _) _) =>
  apply (good_fail _ _ _ _ _ _ _ _ _ []); [reflexivity|sproj; auto; try assumption|cbn [app]] end.

(** ** Header writing *)

(** IV and tag only occur at the end of the header. *)
Lemma hdr_write_auth : forall h p iv tag iv' tag' n out, alg_lookup (h_alg_id h) = Some p ->
  Nlen iv' = Nlen iv -> Nlen tag' = Nlen tag ->
  hdr_write (set_hdr_auth iv tag h) n = Ok out ->
  exists pre, out = pre ++ (if ap_version p =? 1 then iv ++ tag else tag) /\
    hdr_write (set_hdr_auth iv' tag' h) n = Ok (pre ++ (if ap_version p =? 1 then iv' ++ tag' else tag')).
Proof.
  intros h p iv tag iv' tag' n out L LI LT W. unfold hdr_write in *. sproj. rewrite L in *.
  change HEADER_VERSION_1_0 with 1 in *.
  destruct (enc_ctx_serialize _ _ _) as [aad|]; [|discriminate].
  match type of W with (if ?c then _ else _) = _ => destruct c eqn:C; [discriminate|] end.
  rewrite LI in *. clear L.
  repeat match type of W with context [be_bytes ?k ?x] =>
    let b := fresh "b" in set (b := be_bytes k x) in *; clearbody b end.
  set (z := zeros 4) in *; clearbody z. set (ed := concat _) in *; clearbody ed.
  injection W as W.
  destruct (ap_version p =? 1).
  - eexists. split.
    + rewrite !app_assoc in W. rewrite <- (app_assoc _ iv tag) in W. symmetry. exact W.
    + match goal with |- (if ?c then _ else _) = _ => destruct c eqn:C' end.
      * exfalso. rewrite !Nlen_app in *. lia.
      * f_equal. rewrite <- !app_assoc. reflexivity.
  - eexists. split.
    + cbn [app] in W. rewrite !app_assoc in W. symmetry. exact W.
    + match goal with |- (if ?c then _ else _) = _ => destruct c eqn:C' end.
      * exfalso. rewrite !Nlen_app in *. lia.
      * f_equal. cbn [app]. rewrite <- !app_assoc. reflexivity.
Qed.

Lemma through_int_or : forall n, through_int n < 2147483648 \/ 2 ^ 63 <= through_int n.
Proof.
  intros n. unfold through_int. change two32 with 4294967296. change (2 ^ 31) with 2147483648.
  change two64 with 18446744073709551616.
  destruct (N.ltb_spec (n mod 4294967296) 2147483648); [left; auto|right].
  assert (n mod 4294967296 < 4294967296) by (apply N.mod_lt; discriminate).
  change (2 ^ 63) with 9223372036854775808. lia.
Qed.
Lemma hdr_size_or : forall h, hdr_size h < 2147483648 \/ 2 ^ 63 <= hdr_size h.
Proof.
  intros h. unfold hdr_size. destruct (alg_lookup _); [|left; reflexivity].
  destruct (static_fields_len _); [|left; reflexivity]. destruct (enc_ctx_size _); [|left; reflexivity].
  match goal with |- context [if ?c then _ else _] => destruct c end; [left; reflexivity|apply through_int_or].
Qed.

Lemma sig_update_opt_spec : forall cr o b o', sig_update_opt cr o b = Some o' -> o' = signed_so_far o b.
Proof.
  intros cr [sc|] b o'; cbn; [|congruence]. unfold sig_update.
  destruct b as [|x b].
  - intros H. inv H. destruct sc; cbn. now rewrite app_nil_r.
  - destruct (cr_upd_ok cr sc (x :: b)); intros H; now inv H.
Qed.
Lemma signed_so_far_app : forall o a b, signed_so_far (signed_so_far o a) b = signed_so_far o (a ++ b).
Proof. intros [sc|] a b; cbn; [|reflexivity]. now rewrite app_assoc. Qed.
Lemma signed_so_far_nil : forall o, signed_so_far o [] = o.
Proof. intros [[k d]|]; cbn; [|reflexivity]. now rewrite app_nil_r. Qed.

Lemma seal1_nonces : forall rq c m mid key aad ct tag,
  nonces_ok ([EvGen rq c m] ++ [EvRand mid] ++ [EvSeal key (msg_iv 0) aad [] ct tag]).
Proof. intros. exists key, 1%nat. split; [lia|]. reflexivity. Qed.
Lemma gen_nonces : forall rq c m, nonces_ok [EvGen rq c m].
Proof. intros. now apply nonces_ok_none. Qed.
Lemma gen2_nonces : forall rq c m mid, nonces_ok ([EvGen rq c m] ++ [EvRand mid]).
Proof. intros. now apply nonces_ok_none. Qed.

(** ** Encryption: making the header *)

Lemma sign_header_good : forall cr e s room input s0 p rq ctx m mid suite,
  crypto_sizes cr -> conf_ok s -> s_mode s = M_ENCRYPT -> alg_lookup (em_alg m) = Some p -> s_alg s = Some p ->
  Nlen (em_key m) = ap_data_key_len p -> 1 <= Nlen (em_edks m) -> (s_max s = 0 \/ Nlen (em_edks m) <= s_max s) ->
  has_sig (em_sig m) = negb (ap_sig_len p =? 0) -> allowed_for_encrypt (em_alg m) (rq_policy rq) = true ->
  s_policy s = rq_policy rq -> rq_alg rq = 0 -> Nlen mid = message_id_len p ->
  content_key cr (em_alg m) mid (em_key m) (s_key s) -> cipher_key p (s_key s) = s_key s ->
  ((In (em_alg m) v1_suites /\ suite = []) \/
   (In (em_alg m) v2_suites /\ key_commitment cr mid (em_key m) suite /\ Nlen suite = 32)) ->
  s_hdr s = mk_hdr (em_alg m) (s_fsize s) (zeros 12) (zeros 16) mid suite ctx (em_edks m) 0 ->
  s_cmm_ok s = true -> s_sig s = em_sig m -> s_sofar s = 0 -> s_state s = ST_GEN_KEY ->
  step_good cr e s0 room input [] [] [] (sign_header cr s p input ([EvGen rq ctx m] ++ [EvRand mid])).
Proof.
  intros cr e s room input s0 p rq ctx m mid suite CS CONF MODE LK ALG DK EDK MAX SIG POL PEQ RQ MID CK CPK SUI HDR CMM
    SG SOF ST.
  destruct (alg_lookup_lens _ _ LK) as [VER [IVL [TGL ID]]].
  unfold sign_header. sproj.
  assert (FS : s_fsize s < 4294967296) by apply CONF.
  destruct (N.eqb_spec (hdr_size (s_hdr s)) 0) as [Z|Z].
  { apply (good_fail _ _ _ _ _ _ _ _ _ []); auto. apply gen2_nonces. }
  destruct (N.leb_spec (2 ^ 63) (hdr_size (s_hdr s))) as [B|B].
  { apply (good_fail _ _ _ _ _ _ _ _ _ []); auto. apply gen2_nonces. }
  assert (SM : hdr_size (s_hdr s) < 2147483648) by (destruct (hdr_size_or (s_hdr s)); lia).
  set (n := hdr_size (s_hdr s)) in *.
  rewrite HDR. sproj. rewrite !Nlen_zeros.
  set (h0 := mk_hdr (em_alg m) (s_fsize s) [] [] mid suite ctx (em_edks m) 0).
  change (set_hdr_auth (fill 66 12) (fill 222 16) (mk_hdr (em_alg m) (s_fsize s) (zeros 12) (zeros 16) mid suite ctx (em_edks m) 0))
    with (set_hdr_auth (fill 66 12) (fill 222 16) h0).
  destruct (hdr_write (set_hdr_auth (fill 0x42 12) (fill 0xDE 16) h0) n) as [copy1|x] eqn:W1.
  2:{ apply (good_fail _ _ _ _ _ _ _ _ _ []); auto. apply gen2_nonces. }
  sproj. destruct (N.eqb_spec (Nlen copy1) n) as [N1|N1]; cbn [negb].
  2:{ apply (good_fail _ _ _ _ _ _ _ _ _ []); auto. apply gen2_nonces. }
  unfold sign_header_tag.
  assert (((ap_version p =? HEADER_VERSION_1_0) || (ap_version p =? HEADER_VERSION_2_0)) = true) as ->.
  { unfold HEADER_VERSION_1_0, HEADER_VERSION_2_0. lia. }
  rewrite CPK, IVL, <- msg_iv_0.
  set (aad := firstn (N.to_nat (sub64 n (authtag_len p))) copy1).
  destruct (cr_enc cr (s_key s) (msg_iv 0) aad []) as [[c tag]|] eqn:ENC.
  2:{ apply (good_fail _ _ _ _ _ _ _ _ _ []); auto. apply gen2_nonces. }
  assert (c = [] /\ Nlen tag = 16) as [-> TAG].
  { destruct CS as [CS _]. apply CS in ENC. destruct ENC as [L1 L2]. split; auto. now apply Nlen_0. }
  cbn zeta. rewrite <- app_assoc.
  set (iv := if ap_version p =? HEADER_VERSION_1_0 then msg_iv 0 else fill 0x42 12).
  assert (IV : Nlen iv = 12) by (unfold iv; destruct (ap_version p =? HEADER_VERSION_1_0); reflexivity).
  assert (exists pre, copy1 = pre ++ (if ap_version p =? 1 then fill 0x42 12 ++ fill 0xDE 16 else fill 0xDE 16) /\
    hdr_write (set_hdr_auth iv tag h0) n = Ok (pre ++ (if ap_version p =? 1 then iv ++ tag else tag))) as [pre [C1 W2]].
  { eapply hdr_write_auth; [exact LK| | |exact W1]; [rewrite IV; reflexivity|rewrite TAG; reflexivity]. }
  assert (AAD : aad = pre).
  { unfold aad. assert (LA : authtag_len p = Nlen (if ap_version p =? 1 then fill 0x42 12 ++ fill 0xDE 16 else fill 0xDE 16)).
    { unfold authtag_len. rewrite IVL, TGL. change HEADER_VERSION_1_0 with 1. destruct (ap_version p =? 1); reflexivity. }
    rewrite <- N1, C1, Nlen_app. unfold sub64. rewrite LA.
    set (t := if ap_version p =? 1 then _ else _).
    replace ((Nlen pre + Nlen t + two64 - Nlen t) mod two64) with (Nlen pre).
    - rewrite <- length_Nlen, firstn_app, firstn_all, Nat.sub_diag. cbn. apply app_nil_r.
    - replace (Nlen pre + Nlen t + two64 - Nlen t) with (Nlen pre + 1 * two64) by lia.
      rewrite N.mod_add by discriminate. rewrite N.mod_small; auto.
      rewrite C1, Nlen_app in N1. change two64 with 18446744073709551616. lia. }
  match goal with |- context [if ap_version p =? HEADER_VERSION_1_0 then ?a else ?b] =>
    replace (if ap_version p =? HEADER_VERSION_1_0 then a else b) with (set_hdr_auth iv tag h0)
      by (unfold iv, h0; destruct (ap_version p =? HEADER_VERSION_1_0); reflexivity) end.
  rewrite W2.
  set (i := mk_einfo rq ctx m mid p suite iv tag pre (s_key s)).
  assert (AUTH : (if ap_version p =? 1 then iv ++ tag else tag) = ei_auth i).
  { unfold ei_auth, i, ei_alg. cbn [ei_m ei_tag ei_iv].
    destruct (N.eqb_spec (ap_version p) 1) as [V|V].
    - apply (v1_version _ _ LK) in V. destruct (in_v1_cases _ V) as [q Q].
      assert (CM : alg_is_committing (em_alg m) = false) by tauto. now rewrite CM.
    - assert (ap_version p = 2) as V2 by lia. apply (v2_version _ _ LK) in V2.
      destruct (in_v2_cases _ V2) as [q Q].
      assert (CM : alg_is_committing (em_alg m) = true) by tauto. now rewrite CM. }
  rewrite AUTH in *. change (pre ++ ei_auth i) with (ei_head i) in *.
  sproj. destruct (N.eqb_spec (Nlen (ei_head i)) n) as [N2|N2]; cbn [negb].
  2:{ apply (good_fail _ _ _ _ _ _ _ _ _ []); auto. rewrite AAD. apply seal1_nonces. }
  rewrite SG. destruct (sig_update_opt cr (em_sig m) (ei_head i)) as [osc|] eqn:SU.
  2:{ apply (good_fail _ _ _ _ _ _ _ _ _ []); auto. rewrite AAD. apply seal1_nonces. }
  apply sig_update_opt_spec in SU.
  unfold change_state. sproj. rewrite ST, MODE. cbn [sstate_eqb sstate_eq_dec sstate_rec sstate_rect is_encrypt_mode andb negb].
  change (sstate_eqb ST_GEN_KEY ST_WRITE_HEADER) with false.
  change (sstate_eqb ST_GEN_KEY ST_ERROR && negb (sstate_eqb ST_WRITE_HEADER ST_CONFIG)) with false.
  change (sstate_eqb ST_GEN_KEY ST_GEN_KEY) with true.
  destruct (N.eqb_spec n 0); [contradiction|]. cbn [negb andb finish].
  exists []. sproj. split; [reflexivity|]. split; [rewrite Nlen_nil; lia|].
  cbn [app]. rewrite AAD.
  change ([EvGen rq ctx m; EvRand mid; EvSeal (s_key s) (msg_iv 0) pre [] [] tag]) with (elog i []).
  apply inv_ehead; [exact CONF| |reflexivity|].
  - constructor; sproj; unfold i, ei_alg in *; cbn [ei_m ei_p ei_rq ei_mid ei_suite ei_iv ei_tag ei_aad ei_key ei_ctx] in *; auto.
    + destruct SUI as [[V ->]|V]; [|tauto]. left. repeat split; auto. unfold iv.
      apply (v1_version _ _ LK) in V. rewrite V. reflexivity.
    + now rewrite <- AAD.
  - constructor; sproj; cbn [body_wire map concat]; auto.
    rewrite app_nil_r. unfold i at 1. cbn [ei_m]. exact SU.
Qed.

Lemma allowed_enc_v : forall alg p c, alg_lookup alg = Some p -> allowed_for_encrypt alg c = true ->
  (must_include_commitment c = true /\ In alg v2_suites) \/ (must_include_commitment c = false /\ In alg v1_suites).
Proof.
  intros alg p c L A. destruct (alg_lookup_cases _ _ L) as [V|V].
  - right. destruct (in_v1_cases _ V) as [q Q]. assert (CM : alg_is_committing alg = false) by tauto.
    unfold allowed_for_encrypt in A. rewrite CM in A. destruct c; cbn in *; try discriminate; auto.
  - left. destruct (in_v2_cases _ V) as [q Q]. assert (CM : alg_is_committing alg = true) by tauto.
    unfold allowed_for_encrypt in A. rewrite CM in A. destruct c; cbn in *; try discriminate; auto.
Qed.

Lemma try_gen_key_good : forall cr e s room input,
  crypto_sizes cr -> conf_ok s -> pristine s -> s_mode s = M_ENCRYPT -> s_state s = ST_GEN_KEY ->
  step_good cr e s room input [] [] [] (try_gen_key cr e s input).
Proof.
  intros cr e s room input CS CONF PR MODE ST. unfold try_gen_key. sproj.
  assert (FS : s_fsize s < 4294967296) by apply CONF.
  set (rq := mk_enc_request _ _ _ _).
  destruct (e_gen e rq) as [ctx r]. sproj. cbn [app].
  destruct r as [m|x]; [|failing; apply nonces_ok_nil].
  destruct (alg_lookup (em_alg m)) as [p|] eqn:LK; [|failing; apply gen_nonces].
  destruct (alg_lookup_lens _ _ LK) as [VER [IVL [TGL ID]]].
  destruct (N.eqb_spec (Nlen (em_key m)) (ap_data_key_len p)) as [DK|DK]; cbn [negb];
    [|failing; apply gen_nonces].
  destruct (N.eqb_spec (Nlen (em_edks m)) 0) as [EK|EK]; [failing; apply gen_nonces|].
  destruct (negb (s_max s =? 0) && (s_max s <? Nlen (em_edks m))) eqn:MX;
    [failing; apply gen_nonces|].
  destruct (Bool.eqb (negb (ap_sig_len p =? 0)) (has_sig (em_sig m))) eqn:SG; cbn [negb];
    [|failing; apply gen_nonces].
  apply Bool.eqb_prop in SG.
  destruct (e_debug e && negb (policy_is_valid (s_policy s))) eqn:DBG.
  { exists []. sproj. rewrite Nlen_nil. apply andb_prop in DBG. destruct DBG as [D P].
    repeat split; auto; try lia; now apply negb_true_iff. }
  destruct (allowed_for_encrypt (em_alg m) (s_policy s)) eqn:AL; cbn [negb];
    [|failing; apply gen_nonces].
  destruct (e_rand e (message_id_len p)) as [mid|]; [|failing; apply gen_nonces].
  destruct PR as [SEQ HC PALG PSIG SOF CMM TR [c [HDR _]]].
  rewrite HDR in *. sproj. unfold hdr_cleared in *. sproj. rewrite Nlen_nil.
  set (clen := if must_include_commitment (s_policy s) then ap_commitment_len p else 0).
  pose proof (derive_key_spec cr (em_alg m) p (em_key m) mid clen (s_key s) (s_commit s) CS LK DK) as DS. cbn zeta in DS.
  set (k := derive_key cr p (em_key m) mid clen (s_key s) (s_commit s)) in *.
  destruct (allowed_enc_v _ _ _ LK AL) as [[MI V]|[MI V]]; rewrite MI in *; sproj.
  - destruct (kd_rc k) eqn:RC.
    2,3: failing; apply gen2_nonces.
    specialize (DS eq_refl). destruct DS as [CK [CPK [ML [[V1 _]|[_ [CL [COM LCOM]]]]]]]; [destruct (v1_not_v2 _ V1 V)|].
    destruct (suite_facts _ _ LK) as [_ [_ [_ [[V1 _]|[_ [_ [COL _]]]]]]]; [destruct (v1_not_v2 _ V1 V)|].
    unfold clen in *. rewrite COL in *.
    unfold build_header. sproj. change UINT32_MAX with 4294967295.
    destruct (N.ltb_spec 4294967295 (s_fsize s)); [lia|].
    sproj. rewrite MI, firstn_all_N by auto.
    eapply sign_header_good with (mid := mid) (suite := kd_commit k); sproj; auto; try lia; try exact CONF;
      try (rewrite ?IVL, ?TGL, ?ID; reflexivity).
  - destruct (kd_rc k) eqn:RC.
    2,3: failing; apply gen2_nonces.
    specialize (DS eq_refl). destruct DS as [CK [CPK [ML [[_ [CL COM]]|[V2 _]]]]]; [|destruct (v1_not_v2 _ V V2)].
    unfold build_header. sproj. change UINT32_MAX with 4294967295.
    destruct (N.ltb_spec 4294967295 (s_fsize s)); [lia|].
    sproj.
    eapply sign_header_good with (mid := mid) (suite := []); sproj; auto; try lia; try exact CONF;
      try (rewrite ?IVL, ?TGL, ?ID; reflexivity).
Qed.

(** ** Encryption: writing *)

Ltac enc_ok_same EO := destruct EO; constructor; sproj; auto.

Lemma try_write_header_good : forall cr e s room input i, conf_ok s -> enc_ok cr s i ->
  s_state s = ST_WRITE_HEADER -> ebody_ok cr s i [] ->
  step_good cr e s room input [] [] (elog i []) (try_write_header s room input).
Proof.
  intros cr e s room input i CONF EO ST EB. unfold try_write_header. sproj.
  rewrite (eo_copy _ _ _ EO).
  assert (STAY : inv cr (set_oest (s_hsize s) s) [] [] (elog i [])).
  { apply inv_ehead; [exact CONF|enc_ok_same EO|exact ST|destruct EB; constructor; sproj; auto]. }
  destruct (N.leb_spec (s_hsize s) room) as [R|R]; [|now apply good_stay].
  unfold change_state. sproj. rewrite ST. rewrite (eo_alg _ _ _ EO), (eb_seqno _ _ _ _ EB).
  st_eval. destruct (N.eqb_spec (1 + Nlen (@nil (frame * list N))) 0) as [Z|_]; [discriminate|]. cbn [negb finish].
  exists []. sproj. split; [reflexivity|]. split; [rewrite (eo_size _ _ _ EO); lia|].
  rewrite app_nil_r. cbn [app].
  replace (ei_head i) with (ei_head i ++ body_wire []) by (cbn; apply app_nil_r).
  apply (inv_ebody cr _ i []); [exact CONF|enc_ok_same EO|reflexivity|exact I|rewrite Nlen_nil; lia|].
  destruct EB; constructor; sproj; auto.
Qed.

Lemma sub64_le : forall a b, b <= a -> a < 18446744073709551616 -> sub64 a b = a - b.
Proof.
  intros a b H L. unfold sub64. change two64 with 18446744073709551616.
  replace (a + 18446744073709551616 - b) with (a - b + 1 * 18446744073709551616) by lia.
  rewrite N.mod_add by discriminate. apply N.mod_small. lia.
Qed.
Lemma sub64_gt : forall a b, a < b -> b < 18446744073709551616 -> sub64 a b = a + 18446744073709551616 - b.
Proof. intros a b H L. unfold sub64. change two64 with 18446744073709551616. apply N.mod_small. lia. Qed.

Lemma sealed_len : forall cr key mid fs l, regular_from 1 l -> Forall (sealed cr key mid fs) l ->
  fs < 4294967296 -> Nlen l <= 4294967294 -> Nlen (body_text l) <= 4294967294 * 4294967295.
Proof.
  intros cr key mid fs l R F B L. rewrite (regular_text_len cr key mid fs l 1 R F).
  apply N.mul_le_mono; lia.
Qed.

(** Type and size of the next frame, given the invariant. *)
Lemma next_frame_cases : forall cr key mid s l, conf_ok s -> regular_from 1 l -> Nlen l <= 4294967294 ->
  Forall (sealed cr key mid (s_fsize s)) l -> s_sofar s = Nlen (body_text l) ->
  next_frame s = None \/
  next_frame s = Some (FRAME_TYPE_FRAME, s_fsize s) /\ s_fsize s <> 0 \/
  (s_known s = true /\ s_fsize s <> 0 /\ exists n, next_frame s = Some (FRAME_TYPE_FINAL, n) /\ n < s_fsize s /\
    s_precise s = Nlen (body_text l) + n) \/
  (s_known s = true /\ s_fsize s = 0 /\ next_frame s = Some (FRAME_TYPE_SINGLE, s_precise s) /\ l = []).
Proof.
  intros cr key mid s l [FS [PR _]] R L F SOF. pose proof (sealed_len _ _ _ _ _ R F FS L) as BL.
  unfold next_frame. destruct (N.eqb_spec (s_fsize s) 0) as [Z|Z]; cbn [negb].
  - destruct (s_known s) eqn:K; [|auto]. right. right. right. repeat split; auto.
    destruct l as [|[f p] l]; auto. exfalso. inversion F as [|? ? F1 _]; subst.
    destruct R as [T _]. destruct F1 as [[_ [_ W]] _]. rewrite T in W. tauto.
  - destruct (s_known s) eqn:K; cbn [andb]; [|auto].
    destruct (N.ltb_spec (sub64 (s_precise s) (s_sofar s)) (s_fsize s)) as [LT|LT]; [|auto].
    right. right. left. repeat split; auto. eexists. split; [reflexivity|]. split; auto.
    rewrite SOF in *. destruct (N.le_gt_cases (Nlen (body_text l)) (s_precise s)) as [LE|GT].
    + rewrite sub64_le in * by auto. lia.
    + rewrite sub64_gt in LT by (auto; lia). lia.
Qed.

Lemma nonces_elog_more : forall cr key mid fs i l x, key = ei_key i -> mid = ei_mid i -> regular_from 1 l ->
  Nlen l <= 4294967294 -> Forall (sealed cr key mid fs) l -> seal_nonce x = [(ei_key i, msg_iv (1 + Nlen l))] ->
  nonces_ok (elog i l ++ [x]).
Proof.
  intros cr key mid fs i l x -> -> R L F X. exists (ei_key i), (S (S (length l))). split; [unfold Nlen in *; lia|].
  rewrite seal_nonces_app, (elog_nonces cr (ei_key i) (ei_mid i) fs) by auto.
  replace (S (S (length l))) with (S (length l) + 1)%nat by lia. rewrite nonce_seq_app. f_equal.
  unfold seal_nonces. cbn [map concat]. rewrite X. cbn [app nonce_seq]. do 3 f_equal. unfold Nlen. lia.
Qed.

Lemma try_encrypt_body_good : forall cr e s room input i l,
  crypto_sizes cr -> conf_ok s -> enc_ok cr s i -> s_state s = ST_ENCRYPT_BODY ->
  regular_from 1 l -> Nlen l <= 4294967294 -> ebody_ok cr s i l ->
  step_good cr e s room input (body_text l) (ei_head i ++ body_wire l) (elog i l)
    (try_encrypt_body cr (e_in_null e) (e_garbage e) s room input).
Proof.
  intros cr e s room input i l CS CONF EO ST R L EB.
  assert (SL : std_lens (ei_p i)) by (eapply lookup_std_lens; apply (eo_lookup _ _ _ EO)).
  assert (FS : s_fsize s < 4294967296) by apply CONF.
  assert (STAY : forall a b, inv cr (set_iest a (set_oest b s)) (body_text l) (ei_head i ++ body_wire l) (elog i l)).
  { intros. apply inv_ebody; auto; [enc_ok_same EO|destruct EB; constructor; sproj; auto]. }
  assert (SQ : s_seqno s = 1 + Nlen l) by apply EB.
  assert (FAIL : forall s' x, s_fsize s' = s_fsize s -> step_good cr e s room input (body_text l)
     (ei_head i ++ body_wire l) (elog i l) (mk_step s' input [] (RFail x) [])).
  { intros. apply (good_fail _ _ _ _ _ _ _ _ _ []); auto; [lia|]. rewrite app_nil_r.
    eapply inv_nonces. exact (STAY 0 0). }
  unfold try_encrypt_body.
  destruct (next_frame_cases cr (ei_key i) (ei_mid i) s l CONF R L (eb_sealed _ _ _ _ EB) (eb_sofar _ _ _ _ EB))
    as [NF|NF].
  { rewrite NF. apply good_stay. apply STAY. }
  assert (exists ty psize, next_frame s = Some (ty, psize) /\
    ((ty = FRAME_TYPE_FRAME /\ psize = s_fsize s /\ s_fsize s <> 0) \/
     (ty <> FRAME_TYPE_FRAME /\ s_known s = true /\ s_precise s = Nlen (body_text l) + psize /\
      ((ty = FRAME_TYPE_FINAL /\ psize < s_fsize s /\ s_fsize s <> 0) \/ (ty = FRAME_TYPE_SINGLE /\ s_fsize s = 0 /\ l = [])))))
    as [ty [psize [NF' TY]]].
  { destruct NF as [[NF Z]|[[K [Z [n [NF [LT PE]]]]]|[K [Z [NF LE]]]]].
    - exists FRAME_TYPE_FRAME, (s_fsize s). split; auto.
    - exists FRAME_TYPE_FINAL, n. split; auto. right. repeat split; auto; discriminate.
    - exists FRAME_TYPE_SINGLE, (s_precise s). split; auto. right. split; [discriminate|]. split; auto.
      split; [subst l; reflexivity|]. auto. }
  clear NF. rewrite NF', (eo_alg _ _ _ EO). change UINT32_MAX with 4294967295.
  destruct (N.ltb_spec 4294967295 (s_seqno s)) as [BIG|SQB]; [now apply FAIL|].
  assert (PSB : psize < 18446744073709551616).
  { destruct CONF as [_ [PB _]]. destruct TY as [[_ [-> _]]|[_ [_ [PE _]]]]; lia. }
  assert (FW : frame_writable ty (s_seqno s) psize \/ ~ frame_writable ty (s_seqno s) psize)
    by (unfold frame_writable; destruct ty; lia).
  destruct FW as [FW|FW].
  2:{ destruct (serialize_frame_refused (ei_p i) ty (s_seqno s) psize room FW) as [x [SR NX]]. cbn zeta. rewrite SR.
      destruct x; try congruence; now apply FAIL. }
  rewrite serialize_frame_spec by (auto; lia). cbn zeta. cbn [sr_res sr_size].
  destruct (N.ltb_spec room (frame_total ty psize)) as [RM|RM]; [apply good_stay, STAY|].
  destruct ((Nlen input <? psize) || e_in_null e) eqn:INP; [apply good_stay, STAY|].
  assert (PS : psize <= Nlen input) by lia.
  sproj. unfold encrypt_body.
  assert (LO : lo_ct_len (the_layout ty (s_seqno s) psize) = psize /\ lo_seqno (the_layout ty (s_seqno s) psize) = s_seqno s).
  { unfold the_layout. destruct ty; cbn; auto. split; auto.
    destruct TY as [[TY _]|[_ [_ [_ [[TY _]|[_ [_ ->]]]]]]]; try discriminate. rewrite SQ. reflexivity. }
  destruct LO as [LC LS]. rewrite LC, LS.
  set (pt := firstn (N.to_nat psize) input). assert (PL : Nlen pt = psize) by (apply Nlen_firstn; auto).
  rewrite PL, N.eqb_refl. cbn [negb].
  destruct (N.eqb_spec (s_seqno s) 0) as [Z|Z]; [lia|].
  destruct SL as [IVL TGL]. rewrite IVL. change (12 <? 8) with false. cbv iota.
  rewrite frame_iv_spec by (auto; try split; auto; lia).
  rewrite (eo_key _ _ _ EO), (eo_ckey _ _ _ EO), (eo_hdr _ _ _ EO). sproj.
  rewrite frame_aad_spec by lia.
  destruct (cr_enc cr (ei_key i) (msg_iv (s_seqno s)) (body_aad (ei_mid i) ty (s_seqno s) psize) pt) as [[ct tag]|] eqn:ENC;
    [|now apply FAIL].
  assert (CT : Nlen ct = psize /\ Nlen tag = 16) by (destruct CS as [CS _]; apply CS in ENC; rewrite <- PL; auto).
  destruct CT as [CT TAG]. rewrite CT. rewrite N.ltb_irrefl.
  set (f := mk_frame ty (s_seqno s) (msg_iv (s_seqno s)) ct tag).
  assert (OUT : layout_bytes (the_layout ty (s_seqno s) psize) (msg_iv (s_seqno s)) ct tag = wire_frame f).
  { rewrite <- CT. apply the_layout_bytes. intros ->.
    destruct TY as [[TY _]|[_ [_ [_ [[TY _]|[_ [_ ->]]]]]]]; try discriminate. rewrite SQ. reflexivity. }
  rewrite OUT.
  assert (WF : frame_wf (s_fsize s) f).
  { unfold frame_wf, f. cbn [fr_iv fr_authtag fr_type fr_ciphertext fr_seqno]. split; [reflexivity|]. split; auto.
    destruct TY as [[-> [PE Z']]|[_ [_ [_ [[-> [PE Z']]|[-> [PE ->]]]]]]]; cbn [frame_writable] in FW; cbn iota.
    - repeat split; auto; lia.
    - repeat split; auto; lia.
    - repeat split; auto; try lia. }
  assert (SEAL : sealed cr (ei_key i) (ei_mid i) (s_fsize s) (f, pt)).
  { unfold sealed. split; [exact WF|]. unfold f. cbn [fr_iv fr_authtag fr_type fr_ciphertext fr_seqno].
    split; [|split; [reflexivity|split; [lia|rewrite PL; exact ENC]]].
    unfold chunk_len_ok. destruct TY as [[-> [PE Z']]|[_ [_ [_ [[-> [PE Z']]|[-> [PE ->]]]]]]]; lia. }
  assert (EVE : EvSeal (ei_key i) (msg_iv (s_seqno s)) (body_aad (ei_mid i) ty (s_seqno s) psize) pt ct tag =
                seal_event (ei_key i) (ei_mid i) (f, pt)).
  { unfold seal_event, f. cbn [fr_iv fr_authtag fr_type fr_ciphertext fr_seqno]. now rewrite PL. }
  rewrite EVE.
  assert (SPLIT : input = pt ++ skipn (N.to_nat psize) input) by (symmetry; apply firstn_skipn).
  destruct (sig_update_opt cr (s_sig s) (wire_frame f)) as [osc|] eqn:SU.
  2:{ apply (good_fail _ _ _ _ _ _ _ _ _ []); auto.
      apply (nonces_elog_more cr (ei_key i) (ei_mid i) (s_fsize s)); auto; [apply EB|].
      unfold f. cbn. now rewrite SQ. }
  apply sig_update_opt_spec in SU. rewrite (eb_sig _ _ _ _ EB), signed_so_far_app, <- app_assoc in SU.
  assert (OUTLEN : Nlen (wire_frame f) <= room).
  { rewrite (Nlen_wire_frame (s_fsize s) f WF). unfold f at 1 2. cbn [fr_type fr_ciphertext]. rewrite CT.
    unfold frame_total in RM. exact RM. }
  assert (ELOG : elog i l ++ [seal_event (ei_key i) (ei_mid i) (f, pt)] = elog i (l ++ [(f, pt)])).
  { unfold elog. now rewrite map_app, app_assoc. }
  assert (SOFB : s_sofar s + psize < 18446744073709551616).
  { pose proof (sealed_len _ _ _ _ _ R (eb_sealed _ _ _ _ EB) FS L) as BL. rewrite (eb_sofar _ _ _ _ EB).
    destruct TY as [[_ [-> _]]|[_ [_ [PE _]]]]; [lia|]. destruct CONF as [_ [PB _]]. lia. }
  assert (EB' : forall st, ebody_ok cr (set_state st (set_seqno (add64 (s_seqno s) 1) (set_sofar (add64 (s_sofar s) psize) (set_sig osc
      (set_iest psize (set_oest (frame_total ty psize) s)))))) i (l ++ [(f, pt)])).
  { intros st. constructor; sproj.
    - apply Forall_app. split; [apply EB|]. constructor; auto.
    - rewrite body_wire_snoc. exact SU.
    - rewrite add64_small by lia. rewrite Nlen_app, Nlen_cons, Nlen_nil. lia.
    - rewrite add64_small by lia. rewrite body_text_snoc, Nlen_app, (eb_sofar _ _ _ _ EB). lia. }
  destruct TY as [[-> [PE Z']]|[NT [K [PE TY]]]].
  - exists pt. sproj. split; auto. split; auto.
    rewrite <- body_text_snoc with (f := f), <- app_assoc, <- body_wire_snoc with (p := pt), ELOG.
    cbn [frame_writable] in FW.
    apply inv_ebody; [exact CONF|enc_ok_same EO|exact ST| | |].
    + apply regular_snoc; auto.
    + rewrite Nlen_app, Nlen_cons, Nlen_nil. lia.
    + specialize (EB' (s_state s)). destruct EB'; constructor; sproj; auto.
  - assert (EQ : match ty with FRAME_TYPE_FRAME =>
         mk_step (set_seqno (add64 (s_seqno s) 1) (set_sofar (add64 (s_sofar s) psize) (set_sig osc
           (set_iest psize (set_oest (frame_total ty psize) s))))) (skipn (N.to_nat psize) input) (wire_frame f) RGo
           [seal_event (ei_key i) (ei_mid i) (f, pt)]
       | _ => mk_step (set_state ST_WRITE_TRAILER (set_seqno (add64 (s_seqno s) 1) (set_sofar (add64 (s_sofar s) psize) (set_sig osc
           (set_iest psize (set_oest (frame_total ty psize) s)))))) (skipn (N.to_nat psize) input) (wire_frame f) RGo
           [seal_event (ei_key i) (ei_mid i) (f, pt)] end =
       mk_step (set_state ST_WRITE_TRAILER (set_seqno (add64 (s_seqno s) 1) (set_sofar (add64 (s_sofar s) psize) (set_sig osc
           (set_iest psize (set_oest (frame_total ty psize) s)))))) (skipn (N.to_nat psize) input) (wire_frame f) RGo
           [seal_event (ei_key i) (ei_mid i) (f, pt)]).
    { destruct ty; congruence. }
    assert (GOAL : step_good cr e s room input (body_text l) (ei_head i ++ body_wire l) (elog i l)
       (mk_step (set_state ST_WRITE_TRAILER (set_seqno (add64 (s_seqno s) 1) (set_sofar (add64 (s_sofar s) psize) (set_sig osc
           (set_iest psize (set_oest (frame_total ty psize) s)))))) (skipn (N.to_nat psize) input) (wire_frame f) RGo
           [seal_event (ei_key i) (ei_mid i) (f, pt)])).
    { exists pt. sproj. split; auto. split; auto.
      rewrite <- body_text_snoc with (f := f), <- app_assoc, <- body_wire_snoc with (p := pt), ELOG.
      apply inv_etrailer; [exact CONF|enc_ok_same EO|reflexivity| |apply EB'|exact K|].
      - exists l, f, pt. repeat split; auto.
      - rewrite body_text_snoc, Nlen_app. sproj. lia. }
    unfold finish, change_state. sproj. rewrite ST.
    change (sstate_eqb ST_ENCRYPT_BODY ST_WRITE_TRAILER) with false.
    change (sstate_eqb ST_ENCRYPT_BODY ST_ERROR) with false.
    change (sstate_eqb ST_ENCRYPT_BODY ST_ENCRYPT_BODY) with true. cbn [andb]. cbv iota.
    destruct ty; [exact GOAL|congruence|exact GOAL].
Qed.

Lemma write_trailer_good : forall cr e s room input i l,
  conf_ok s -> enc_ok cr s i -> s_state s = ST_WRITE_TRAILER ->
  whole_body l -> ebody_ok cr s i l -> s_known s = true -> s_precise s = Nlen (body_text l) ->
  step_good cr e s room input (body_text l) (ei_head i ++ body_wire l) (elog i l) (write_trailer e s room input).
Proof.
  intros cr e s room input i l CONF EO ST W EB K PE. unfold write_trailer. sproj. rewrite (eo_alg _ _ _ EO).
  assert (NON : nonces_ok (elog i l)).
  { eapply inv_nonces. apply (inv_etrailer cr s i l); auto. }
  unfold finish, change_state. sproj. rewrite ST.
  change (sstate_eqb ST_WRITE_TRAILER ST_DONE) with false.
  change (sstate_eqb ST_WRITE_TRAILER ST_ERROR) with false. cbn [andb]. cbv iota.
  destruct (N.eqb_spec (ap_sig_len (ei_p i)) 0) as [Z|Z].
  - exists []. sproj. rewrite Nlen_nil. split; [reflexivity|]. split; [lia|].
    rewrite app_nil_r, <- app_assoc. apply inv_edone; auto; [enc_ok_same EO|apply EB|now constructor].
  - destruct (N.ltb_spec room (2 + ap_sig_len (ei_p i))) as [RM|RM].
    { apply good_stay. apply inv_etrailer; auto; [enc_ok_same EO|destruct EB; constructor; sproj; auto]. }
    assert (exists sc, s_sig s = Some sc /\ signed_so_far (em_sig (ei_m i)) (ei_head i ++ body_wire l) = Some sc) as [sc [SG SG']].
    { rewrite (eb_sig _ _ _ _ EB). pose proof (eo_sig _ _ _ EO) as H. destruct (em_sig (ei_m i)); cbn in *; [eauto|lia]. }
    rewrite SG. destruct (e_sign e sc) as [sg|x].
    2:{ apply (good_fail _ _ _ _ _ _ _ _ _ []); auto; [apply CONF|]. now rewrite app_nil_r. }
    destruct (N.ltb_spec room (2 + Nlen sg)) as [RS|RS].
    { apply (good_fail _ _ _ _ _ _ _ _ _ []); auto; [apply CONF|].
      destruct NON as [key [k [B N]]]. exists key, k. split; auto. rewrite seal_nonces_app, N. apply app_nil_r. }
    exists []. sproj. split; [reflexivity|]. rewrite Nlen_app, Nlen_be_bytes. split; [lia|].
    rewrite app_nil_r, <- app_assoc. apply inv_edone; auto; [enc_ok_same EO|apply EB|now constructor].
Qed.
