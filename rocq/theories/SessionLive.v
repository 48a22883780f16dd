(** An encryption whose helpers work does not fail, and ends. *)
From Verif Require Import Base AlgModel EncCtxModel HdrModel FrameModel CryptoModel SessionModel
  BaseProofs WireSpec SessionSpec SuiteSpec LiveSpec EncCtxProofs HdrProofs FrameProofs SessionBase SessionInv SessionStep SessionStepD
  SessionRun SessionTheorems SessionReport.
From Coq Require Import ZArith ZifyBool ZifyNat ZifyN.
Import List.
Open Scope list_scope.
Open Scope N_scope.

Lemma permits_lookup : forall c alg, policy_permits_encrypt c alg ->
  exists p, alg_lookup alg = Some p /\ allowed_for_encrypt alg c = true /\ policy_is_valid c = true.
Proof.
  intros c alg P. destruct c; cbn [policy_permits_encrypt] in P; try contradiction;
    cbn in P; repeat (destruct P as [<-|P]; [eexists; split; [reflexivity|split; reflexivity]|]); contradiction.
Qed.

Lemma sig_len_longest : forall alg p, alg_lookup alg = Some p -> ap_sig_len p = longest_signature alg.
Proof.
  intros id p L. destruct (alg_lookup_cases _ _ L) as [V|V]; cbn in V;
  repeat (destruct V as [<-|V]; [vm_compute in L; inv L; reflexivity|]); contradiction.
Qed.
Lemma sig_len_signed : forall alg p, alg_lookup alg = Some p -> (ap_sig_len p = 0 <-> ~ In alg signed_suites) /\ ap_sig_len p <= 103.
Proof.
  intros id p L. destruct (alg_lookup_cases _ _ L) as [V|V]; cbn in V;
  repeat (destruct V as [<-|V]; [vm_compute in L; inv L; split; [|cbn; lia]; cbn; split; [intros; lia || (intros; intuition congruence)|intros; try reflexivity; exfalso; apply H; tauto]|]);
  contradiction.
Qed.

Lemma derive_key_works : forall cr id p dk mid k0 c0, crypto_works cr -> alg_lookup id = Some p ->
  Nlen mid = message_id_len p -> forall clen, (ap_version p = 1 /\ clen = 0 \/ ap_version p = 2 /\ clen = ap_commitment_len p) ->
  kd_rc (derive_key cr p dk mid clen k0 c0) = KOk.
Proof.
  intros cr id p dk mid k0 c0 [_ HK _] L M clen C.
  destruct (suite_facts _ _ L) as [ID [CKL [DKL [[V1 [VER [CL SHA]]]|[V2 [VER [CL [SHA SKL]]]]]]]].
  all: assert (KL : 16 <= ap_content_key_len p <= 32) by (rewrite CKL; unfold suite_key_len; destruct (_ =? _); [lia|destruct (_ =? _); lia]).
  - destruct C as [[_ C]|[C _]]; [|lia]. unfold derive_key, message_id_len in *. rewrite VER in *.
    change (1 =? HEADER_VERSION_1_0) with true in *. cbv iota in *. subst clen. cbn [N.eqb negb].
    unfold derive_key_v1. rewrite M. cbn [N.eqb Pos.eqb negb]. rewrite ID.
    destruct SHA as [[W _]|[[W _]|[W _]]]; rewrite W; [reflexivity| |]; unfold hkdf.
    + match goal with |- context [cr_hkdf ?a ?b ?c ?d ?e ?f] => pose proof (HK b c d e f ltac:(discriminate) ltac:(lia)); destruct (cr_hkdf a b c d e f) end; [reflexivity|contradiction].
    + match goal with |- context [cr_hkdf ?a ?b ?c ?d ?e ?f] => pose proof (HK b c d e f ltac:(discriminate) ltac:(lia)); destruct (cr_hkdf a b c d e f) end; [reflexivity|contradiction].
  - destruct C as [[C _]|[_ C]]; [lia|]. unfold derive_key, message_id_len in *. rewrite VER in *.
    change (2 =? HEADER_VERSION_1_0) with false in *. change (2 =? HEADER_VERSION_2_0) with true in *. cbv iota in *.
    unfold derive_key_v2. rewrite C, N.ltb_irrefl, M. cbn [N.eqb Pos.eqb negb]. rewrite ID, SHA. unfold hkdf.
    match goal with |- context [cr_hkdf ?a ?b ?c ?d ?e ?f] => pose proof (HK b c d e f ltac:(discriminate) ltac:(lia)); destruct (cr_hkdf a b c d e f) end; [|contradiction].
    match goal with |- context [cr_hkdf ?a ?b ?c ?d ?e ?f] => pose proof (HK b c d e f ltac:(discriminate) ltac:(lia)); destruct (cr_hkdf a b c d e f) end; [|contradiction].
    reflexivity.
Qed.

Lemma sig_update_works : forall cr o b, crypto_works cr -> exists o', sig_update_opt cr o b = Some o'.
Proof.
  intros cr [sc|] b W; cbn; [|eauto]. unfold sig_update. destruct b; [eauto|]. rewrite (cw_upd _ W). eauto.
Qed.

(** ** Making the header *)

Lemma sign_header_works : forall cr s p input log mid suite ctx edks,
  crypto_sizes cr -> crypto_works cr -> alg_lookup (ap_id p) = Some p -> s_mode s = M_ENCRYPT -> s_state s = ST_GEN_KEY ->
  s_fsize s < 4294967296 -> Nlen mid = message_id_len p ->
  (ap_version p = 1 /\ suite = [] \/ ap_version p = 2 /\ Nlen suite = 32) ->
  ctx_fits ctx -> Nlen edks <= 65535 -> Forall edk_fits edks -> Nlen (concat (map wire_edk edks)) <= 2147400000 ->
  s_hdr s = mk_hdr (ap_id p) (s_fsize s) (zeros 12) (zeros 16) mid suite ctx edks 0 ->
  let r := sign_header cr s p input log in
  sr_rc r = RGo /\ s_state (sr_sess r) = ST_WRITE_HEADER /\ s_fsize (sr_sess r) = s_fsize s /\ s_alg (sr_sess r) = s_alg s /\
  sr_in r = input /\ sr_out r = [].
Proof.
  intros cr s p input log mid suite ctx edks CS CW LK MODE ST FS MID SUI CF EL EF TOT HDR. cbn zeta.
  destruct (alg_lookup_lens _ _ LK) as [VER [IVL [TGL _]]].
  set (ts := hdr_true_size p (s_hdr s)).
  assert (TS : ts < 2147483648 /\ 1 <= ts).
  { assert (M : Nlen mid <= 32) by (rewrite MID; unfold message_id_len; repeat match goal with |- context [if ?c then _ else _] => destruct c end; lia).
    assert (S : Nlen suite <= 32) by (destruct SUI as [[_ ->]|[_ B]]; [rewrite Nlen_nil|]; lia).
    unfold ts, hdr_true_size. rewrite HDR. sproj. rewrite <- Nlen_wire_edks. unfold ctx_fits in CF.
    repeat match goal with |- context [if ?c then _ else _] => destruct c end; lia. }
  assert (HS : hdr_size (s_hdr s) = ts).
  { rewrite (hdr_size_spec _ p); rewrite HDR; sproj; auto.
    - rewrite <- HDR. fold ts. apply through_int_small. lia.
    - rewrite <- HDR. fold ts. change UINT64_MAX with 18446744073709551615. lia. }
  assert (WR : forall iv tag, Nlen iv = 12 -> Nlen tag = 16 ->
     exists c, hdr_write (mk_hdr (ap_id p) (s_fsize s) iv tag mid suite ctx edks 0) ts = Ok c /\ Nlen c = ts).
  { intros iv tag IV TG. set (h := mk_hdr _ _ _ _ _ _ _ _ _).
    assert (HF : hdr_fits h).
    { unfold hdr_fits, h. sproj. split; [|auto]. unfold is_v1, is_v2. sproj.
      destruct (alg_lookup_cases _ _ LK) as [V|V].
      - left. split; [exact V|]. split; [|exact IV]. apply (v1_version _ _ LK) in V. destruct SUI as [[_ B]|[B _]]; [exact B|lia].
      - right. exact V. }
    pose proof (hdr_write_spec h ts HF) as W.
    assert (L : Nlen (wire_bytes h) = ts).
    { pose proof (hdr_write_spec h (Nlen (wire_bytes h)) HF) as W'. rewrite N.ltb_irrefl in W'.
      destruct (hdr_write_len h p _ _ LK (fun _ => IV) TG W') as [W'' _]. rewrite W''. unfold ts, hdr_true_size, h. rewrite HDR. sproj. reflexivity. }
    exists (wire_bytes h). rewrite L, N.ltb_irrefl in W. auto. }
  unfold sign_header. cbn zeta. rewrite HS. sproj.
  destruct (N.eqb_spec ts 0) as [Z|_]; [lia|].
  destruct (N.leb_spec (2 ^ 63) ts) as [Z|_]; [change (2^63) with 9223372036854775808 in Z; lia|].
  rewrite HDR. sproj. rewrite !Nlen_zeros. unfold set_hdr_auth. sproj.
  destruct (WR (fill 66 12) (fill 222 16) eq_refl eq_refl) as [c1 [W1 L1]]. rewrite W1. sproj.
  rewrite L1, N.eqb_refl. cbn [negb]. unfold sign_header_tag.
  assert (((ap_version p =? HEADER_VERSION_1_0) || (ap_version p =? HEADER_VERSION_2_0)) = true) as ->.
  { unfold HEADER_VERSION_1_0, HEADER_VERSION_2_0. lia. }
  match goal with |- context [cr_enc cr ?a ?b ?c ?d] => pose proof (cw_enc _ CW a b c d) as NE; destruct (cr_enc cr a b c d) as [[ct tag]|] eqn:ENC end; [clear NE|contradiction].
  assert (TAG : Nlen tag = 16) by (destruct CS as [CS _]; eapply CS; eassumption).
  rewrite IVL.
  assert (exists c, hdr_write (if ap_version p =? HEADER_VERSION_1_0 then mk_hdr (ap_id p) (s_fsize s) (zeros 12) tag mid suite ctx edks 0
     else mk_hdr (ap_id p) (s_fsize s) (fill 66 12) tag mid suite ctx edks 0) ts = Ok c /\ Nlen c = ts) as [c2 [W2 L2]].
  { destruct (_ =? _); apply WR; auto. }
  rewrite W2. sproj. rewrite L2, N.eqb_refl. cbn [negb].
  destruct (sig_update_works cr (s_sig s) c2 CW) as [osc SU]. rewrite SU.
  unfold change_state. sproj. rewrite ST, MODE. cbn [is_encrypt_mode andb].
  change (sstate_eqb ST_GEN_KEY ST_WRITE_HEADER) with false.
  change (sstate_eqb ST_GEN_KEY ST_ERROR && negb (sstate_eqb ST_WRITE_HEADER ST_CONFIG)) with false.
  change (sstate_eqb ST_GEN_KEY ST_GEN_KEY) with true.
  destruct (N.eqb_spec ts 0) as [Z|_]; [lia|]. cbn [negb andb finish]. sproj. auto 10.
Qed.

Lemma try_gen_key_works : forall cr e s input alg,
  crypto_sizes cr -> crypto_works cr -> conf_ok s -> pristine s -> s_mode s = M_ENCRYPT -> s_state s = ST_GEN_KEY ->
  env_works e s alg ->
  let r := try_gen_key cr e s input in
  sr_rc r = RGo /\ s_state (sr_sess r) = ST_WRITE_HEADER /\ s_fsize (sr_sess r) = s_fsize s /\ get_alg_id (sr_sess r) = Some alg /\
  sr_in r = input /\ sr_out r = [].
Proof.
  intros cr e s input alg CS CW CONF PR MODE ST EW. cbn zeta.
  assert (FS : s_fsize s < 4294967296) by apply CONF.
  destruct PR as [SEQ HC PALG PSIG SOF CMM TR [c [HDR _]]].
  assert (GW : gen_works e s alg) by (apply (ew_gen _ _ _ EW); unfold get_alg_id; now rewrite PALG).
  unfold try_gen_key. cbn zeta.
  set (rq := mk_enc_request _ _ _ _).
  destruct (GW rq) as [ctx [m [G F]]].
  { unfold visible_ctx. rewrite MODE. reflexivity. }
  { reflexivity. }
  { reflexivity. }
  destruct F as [FA FP FK FE FM FSG FC FF FT].
  rewrite G, FA. destruct (permits_lookup _ _ FP) as [p [LK [AL PV]]]. rewrite LK.
  destruct (alg_lookup_lens _ _ LK) as [VER [IVL [TGL ID]]].
  destruct (suite_facts _ _ LK) as [_ [_ [DKL VCASE]]].
  rewrite DKL, FK, N.eqb_refl. cbn [negb].
  destruct (N.eqb_spec (Nlen (em_edks m)) 0) as [Z|_]; [lia|]. sproj.
  assert (negb (s_max s =? 0) && (s_max s <? Nlen (em_edks m)) = false) as -> by lia.
  assert (Bool.eqb (negb (ap_sig_len p =? 0)) (has_sig (em_sig m)) = true) as ->.
  { destruct (sig_len_signed _ _ LK) as [SL _]. destruct (em_sig m) as [sc|]; cbn [has_sig].
    - assert (In alg signed_suites) by (apply FSG; congruence). destruct (N.eqb_spec (ap_sig_len p) 0) as [Z|_]; [|reflexivity].
      apply SL in Z. contradiction.
    - assert (~ In alg signed_suites) by (intros Z; apply FSG in Z; congruence).
      destruct (N.eqb_spec (ap_sig_len p) 0) as [_|Z]; [reflexivity|]. destruct Z. now apply SL. }
  cbn [negb]. rewrite PV. cbn [negb]. rewrite andb_false_r, AL. cbn [negb].
  destruct (ew_rand _ _ _ EW (message_id_len p)) as [mid [RD RL]]. rewrite RD. sproj.
  rewrite HDR. unfold hdr_cleared, set_hdr_ctx, set_hdr_mid, set_hdr_suite. sproj. rewrite Nlen_nil.
  assert (CLV : ap_version p = 1 /\ (if must_include_commitment (s_policy s) then ap_commitment_len p else 0) = 0 \/
     ap_version p = 2 /\ (if must_include_commitment (s_policy s) then ap_commitment_len p else 0) = ap_commitment_len p).
  { destruct (allowed_enc_v _ _ _ LK AL) as [[MI V]|[MI V]]; rewrite MI.
    - right. split; [|reflexivity]. destruct VCASE as [[V1 _]|[_ [V2 _]]]; [destruct (v1_not_v2 _ V1 V)|exact V2].
    - left. split; [|reflexivity]. destruct VCASE as [[_ [V1 _]]|[V2 _]]; [exact V1|destruct (v1_not_v2 _ V V2)]. }
  set (clen := if must_include_commitment (s_policy s) then ap_commitment_len p else 0) in *.
  pose proof (derive_key_works cr alg p (em_key m) mid (s_key s) (s_commit s) CW LK RL clen CLV) as DK.
  assert (DS := derive_key_spec cr alg p (em_key m) mid clen (s_key s) (s_commit s) CS LK). cbn zeta in DS.
  specialize (DS ltac:(congruence) DK).
  set (k := derive_key _ _ _ _ _ _ _) in *. rewrite DK. clearbody k.
  destruct DS as [CK [CPK [_ DS]]].
  unfold build_header. change UINT32_MAX with 4294967295.
  destruct (must_include_commitment (s_policy s)) eqn:MI; sproj.
  - destruct (N.ltb_spec 4294967295 (s_fsize s)); [lia|]. sproj.
    assert (V2 : ap_version p = 2 /\ ap_commitment_len p = 32 /\ Nlen (kd_commit k) = 32).
    { destruct VCASE as [[V1 _]|[_ [V2 [CL _]]]].
      - destruct (allowed_enc_v _ _ _ LK AL) as [[_ V]|[Z _]]; [|congruence]. destruct (v1_not_v2 _ V1 V).
      - split; [exact V2|]. split; [exact CL|]. destruct DS as [[V1 [_ _]]|[_ [_ [_ L]]]]; [|exact L].
        destruct (allowed_enc_v _ _ _ LK AL) as [[_ V]|[Z _]]; [|congruence]. destruct (v1_not_v2 _ V1 V). }
    destruct V2 as [V2 [CL CC]].
    match goal with |- context [sign_header cr ?a p input ?l] =>
      destruct (sign_header_works cr a p input l mid (firstn (N.to_nat clen) (kd_commit k)) ctx (em_edks m)) as (A1 & A2 & A3 & A4 & A5 & A6) end;
      sproj; auto; try (rewrite ?IVL, ?TGL, ?ID; auto; fail).
    + right. split; [exact V2|]. unfold clen. rewrite CL. rewrite firstn_all_N; auto.
    + lia.
    + split; [exact A1|]. split; [exact A2|]. split; [exact A3|]. split; [unfold get_alg_id; now rewrite A4, ID|]. auto.
  - destruct (N.ltb_spec 4294967295 (s_fsize s)); [lia|]. sproj.
    assert (V1 : ap_version p = 1).
    { destruct CLV as [[V1 _]|[V2 Z]]; [exact V1|]. destruct VCASE as [[_ [V1 _]]|[_ [_ [CL _]]]]; [exact V1|]. unfold clen in Z. lia. }
    match goal with |- context [sign_header cr ?a p input ?l] =>
      destruct (sign_header_works cr a p input l mid [] ctx (em_edks m)) as (A1 & A2 & A3 & A4 & A5 & A6) end;
      sproj; auto; try (rewrite ?IVL, ?TGL, ?ID; auto; fail).
    + lia.
    + split; [exact A1|]. split; [exact A2|]. split; [exact A3|]. split; [unfold get_alg_id; now rewrite A4, ID|]. auto.
Qed.

(** ** Steps *)

(** Output that a session in state [st] with [n] bytes of input to go still needs room for. *)
Definition need (st : sstate) (n : N) : N :=
  match st with
  | ST_CONFIG | ST_GEN_KEY | ST_WRITE_HEADER => 2147483648 + (41 * n + 40) + 105
  | ST_ENCRYPT_BODY => 41 * n + 40 + 105
  | ST_WRITE_TRAILER => 105
  | _ => 0
  end.

Definition moves (e : env) (s : session) (room : N) (input win : list N) (r : stepres) : Prop :=
  e_in_null e = false -> s_known s = true -> s_precise s = Nlen win + Nlen input -> need (s_state s) (Nlen input) <= room ->
  s_state s = ST_DONE \/
  (made_progress s input r = true /\ Nlen (sr_out r) + need (s_state (sr_sess r)) (Nlen (sr_in r)) <= need (s_state s) (Nlen input)).

Definition step_works (e : env) (s : session) (room : N) (input win : list N) (alg : N) (r : stepres) : Prop :=
  sr_rc r = RGo /\ s_fsize (sr_sess r) = s_fsize s /\ env_works e (sr_sess r) alg /\ moves e s room input win r.

Lemma env_works_alg : forall e s s' alg, env_works e s alg -> get_alg_id s' = Some alg -> env_works e s' alg.
Proof. intros e s s' alg [G A R S] E. constructor; auto; congruence. Qed.

Lemma env_works_same : forall e s s' alg, env_works e s alg -> s_alg s' = s_alg s -> s_policy s' = s_policy s ->
  s_max s' = s_max s -> visible_ctx s' = visible_ctx s -> env_works e s' alg.
Proof.
  intros e s s' alg [G A R S] E1 E2 E3 E4. assert (E : get_alg_id s' = get_alg_id s) by (unfold get_alg_id; now rewrite E1).
  constructor; auto; rewrite ?E; auto. intros N. specialize (G N). unfold gen_works in *. rewrite E2, E3, E4. exact G.
Qed.

Lemma progress_by_state : forall s input r, s_state (sr_sess r) <> s_state s -> made_progress s input r = true.
Proof.
  intros s input r H. unfold made_progress. destruct (sstate_eqb_spec (s_state (sr_sess r)) (s_state s)); [contradiction|]. cbn. apply orb_true_r.
Qed.

Lemma try_write_header_works : forall cr e s room input i alg, enc_ok cr s i -> s_state s = ST_WRITE_HEADER ->
  ebody_ok cr s i [] -> env_works e s alg ->
  step_works e s room input [] alg (try_write_header s room input).
Proof.
  intros cr e s room input i alg EO ST EB EW. unfold try_write_header. sproj. rewrite (eo_copy _ _ _ EO).
  pose proof (eo_small _ _ _ EO) as SM.
  destruct (N.leb_spec (s_hsize s) room) as [R|R].
  - unfold change_state. sproj. rewrite ST. rewrite (eo_alg _ _ _ EO), (eb_seqno _ _ _ _ EB).
    st_eval. destruct (N.eqb_spec (1 + Nlen (@nil (frame * list N))) 0) as [Z|_]; [discriminate|]. cbn [negb finish].
    split; [reflexivity|]. split; [reflexivity|].
    split; [apply (env_works_same _ s); auto; sproj; now rewrite ?(eo_alg _ _ _ EO)|].
    intros _ _ _ _. right. split; [apply progress_by_state; sproj; congruence|]. sproj. rewrite ST. cbn [need].
    rewrite (eo_size _ _ _ EO). lia.
  - split; [reflexivity|]. split; [reflexivity|]. split; [apply (env_works_same _ s); auto|].
    intros _ _ _ H. rewrite ST in H. cbn [need] in H. lia.
Qed.

Lemma write_trailer_works : forall cr e s room input i l alg, enc_ok cr s i -> s_state s = ST_WRITE_TRAILER ->
  ebody_ok cr s i l -> env_works e s alg ->
  step_works e s room input (body_text l) alg (write_trailer e s room input).
Proof.
  intros cr e s room input i l alg EO ST EB EW. unfold write_trailer. sproj. rewrite (eo_alg _ _ _ EO).
  assert (ALG : get_alg_id s = Some alg) by (apply (ew_alg _ _ _ EW); unfold get_alg_id; rewrite (eo_alg _ _ _ EO); discriminate).
  assert (ID : ei_alg i = alg).
  { unfold get_alg_id in ALG. rewrite (eo_alg _ _ _ EO) in ALG. destruct (alg_lookup_lens _ _ (eo_lookup _ _ _ EO)) as [_ [_ [_ ID]]]. congruence. }
  assert (SL := sig_len_longest _ _ (eo_lookup _ _ _ EO)). rewrite ID in SL.
  assert (SB := proj2 (sig_len_signed _ _ (eo_lookup _ _ _ EO))).
  assert (KEEP : forall s', s_alg s' = s_alg s -> env_works e s' alg).
  { intros s' E. apply (env_works_alg _ s); auto. unfold get_alg_id in *. now rewrite E. }
  unfold finish, change_state. sproj. rewrite ST.
  change (sstate_eqb ST_WRITE_TRAILER ST_DONE) with false.
  change (sstate_eqb ST_WRITE_TRAILER ST_ERROR) with false. cbn [andb]. cbv iota.
  destruct (N.eqb_spec (ap_sig_len (ei_p i)) 0) as [Z|Z].
  - split; [reflexivity|]. split; [reflexivity|]. split; [apply KEEP; sproj; now rewrite (eo_alg _ _ _ EO)|].
    intros _ _ _ _. right. split; [apply progress_by_state; sproj; congruence|]. sproj. rewrite ST. cbn [need]. rewrite Nlen_nil. lia.
  - destruct (N.ltb_spec room (2 + ap_sig_len (ei_p i))) as [RM|RM].
    { split; [reflexivity|]. split; [reflexivity|]. split; [apply KEEP; sproj; now rewrite (eo_alg _ _ _ EO)|].
      intros _ _ _ H. rewrite ST in H. cbn [need] in H. lia. }
    assert (exists sc, s_sig s = Some sc) as [sc SG].
    { rewrite (eb_sig _ _ _ _ EB). pose proof (eo_sig _ _ _ EO) as H. destruct (em_sig (ei_m i)); cbn in *; [eauto|lia]. }
    rewrite SG. destruct (ew_sign _ _ _ EW sc) as [sg [SN LN]]. rewrite SN.
    destruct (N.ltb_spec room (2 + Nlen sg)) as [RS|RS]; [lia|].
    split; [reflexivity|]. split; [reflexivity|]. split; [apply KEEP; sproj; now rewrite (eo_alg _ _ _ EO)|].
    intros _ _ _ _. right. split; [apply progress_by_state; sproj; congruence|]. sproj. rewrite ST. cbn [need].
    rewrite Nlen_app, Nlen_be_bytes. lia.
Qed.

Lemma try_encrypt_body_works : forall cr e s room input i l alg,
  crypto_sizes cr -> crypto_works cr -> conf_ok s -> enc_ok cr s i -> s_state s = ST_ENCRYPT_BODY ->
  regular_from 1 l -> Nlen l <= 4294967294 -> ebody_ok cr s i l -> env_works e s alg ->
  message_fits s (Nlen (body_text l) + Nlen input) ->
  step_works e s room input (body_text l) alg (try_encrypt_body cr (e_in_null e) (e_garbage e) s room input).
Proof.
  intros cr e s room input i l alg CS CW CONF EO ST R L EB EW MF.
  assert (SL : std_lens (ei_p i)) by (eapply lookup_std_lens; apply (eo_lookup _ _ _ EO)).
  assert (FS : s_fsize s < 4294967296) by apply CONF.
  assert (SQ : s_seqno s = 1 + Nlen l) by apply EB.
  assert (ALG : get_alg_id s = Some alg) by (apply (ew_alg _ _ _ EW); unfold get_alg_id; rewrite (eo_alg _ _ _ EO); discriminate).
  assert (KEEP : forall s', s_alg s' = s_alg s -> env_works e s' alg).
  { intros s' E. apply (env_works_alg _ s); auto. unfold get_alg_id in *. now rewrite E. }
  assert (TL := regular_text_len cr (ei_key i) (ei_mid i) (s_fsize s) l 1 R (eb_sealed _ _ _ _ EB)).
  unfold try_encrypt_body.
  destruct (next_frame_cases cr (ei_key i) (ei_mid i) s l CONF R L (eb_sealed _ _ _ _ EB) (eb_sofar _ _ _ _ EB))
    as [NF|NF].
  { rewrite NF. split; [reflexivity|]. split; [reflexivity|]. split; [apply KEEP; reflexivity|].
    intros _ K _ _. unfold next_frame in NF. rewrite K in NF. destruct (negb _); [destruct (_ && _)|]; discriminate. }
  assert (exists ty psize, next_frame s = Some (ty, psize) /\ frame_writable ty (s_seqno s) psize /\ psize < 18446744073709551616 /\
    (s_known s = true -> s_precise s = Nlen (body_text l) + Nlen input -> psize <= Nlen input) /\
    (ty = FRAME_TYPE_FRAME -> psize <> 0) /\ (ty = FRAME_TYPE_SINGLE -> l = [])) as [ty [psize [NF' [FW [PSB [PSI [PNZ SG]]]]]]].
  { unfold message_fits in MF. assert (PB : s_precise s < 18446744073709551616) by apply CONF.
    assert (DIV : s_fsize s <> 0 -> Nlen l <= (Nlen (body_text l) + Nlen input) / s_fsize s).
    { intros Z. rewrite TL. rewrite N.div_add_l by exact Z. apply N.le_add_r. }
    destruct NF as [[NF Z]|[[K [Z [n [NF [LT PE]]]]]|[K [Z [NF LE]]]]].
    - exists FRAME_TYPE_FRAME, (s_fsize s). split; [exact NF|]. destruct (N.eqb_spec (s_fsize s) 0) as [?|_]; [contradiction|]. specialize (DIV Z).
      split; [cbn [frame_writable]; lia|]. split; [lia|]. split; [|split; [auto|discriminate]].
      intros K PE. unfold next_frame in NF. destruct (N.eqb_spec (s_fsize s) 0) as [?|_]; [contradiction|]. cbn [negb] in NF. rewrite K in NF. cbn [andb] in NF.
      rewrite (eb_sofar _ _ _ _ EB), sub64_le in NF by (auto; lia).
      destruct (N.ltb_spec (s_precise s - Nlen (body_text l)) (s_fsize s)); [discriminate|]. lia.
    - exists FRAME_TYPE_FINAL, n. split; [exact NF|]. split; [cbn [frame_writable]; lia|]. split; [lia|]. split; [intros; lia|]. split; discriminate.
    - exists FRAME_TYPE_SINGLE, (s_precise s). split; [exact NF|]. rewrite Z in MF. cbn [N.eqb] in MF. specialize (MF K).
      split; [cbn [frame_writable]; lia|]. split; [lia|]. split; [|split; [discriminate|auto]]. intros _ PE. subst l. rewrite PE. cbn [body_text map concat]. rewrite Nlen_nil. lia. }
  clear NF. rewrite NF', (eo_alg _ _ _ EO). change UINT32_MAX with 4294967295.
  destruct (N.ltb_spec 4294967295 (s_seqno s)) as [BIG|SQB]; [lia|].
  rewrite serialize_frame_spec by (auto; lia). cbn zeta. cbn [sr_res sr_size].
  assert (ALG' : forall s', s_alg s' = Some (ei_p i) -> env_works e s' alg) by (intros s' E; apply KEEP; now rewrite E, (eo_alg _ _ _ EO)).
  assert (FT : frame_total ty psize <= 40 + psize /\ (ty = FRAME_TYPE_FRAME -> frame_total ty psize <= 32 + psize)).
  { unfold frame_total. destruct ty; split; intros; try discriminate; lia. }
  destruct FT as [FT FT'].
  destruct (N.ltb_spec room (frame_total ty psize)) as [RM|RM].
  { split; [reflexivity|]. split; [reflexivity|]. split; [apply KEEP; reflexivity|].
    intros _ K PE H. rewrite ST in H. cbn [need] in H. specialize (PSI K PE). lia. }
  destruct ((Nlen input <? psize) || e_in_null e) eqn:INP.
  { split; [reflexivity|]. split; [reflexivity|]. split; [apply KEEP; reflexivity|].
    intros NN K PE H. specialize (PSI K PE). rewrite NN in INP. lia. }
  assert (PS : psize <= Nlen input) by lia.
  sproj. unfold encrypt_body.
  assert (LO : lo_ct_len (the_layout ty (s_seqno s) psize) = psize /\ lo_seqno (the_layout ty (s_seqno s) psize) = s_seqno s).
  { unfold the_layout. destruct ty; cbn; auto. split; auto. rewrite SQ, (SG eq_refl). reflexivity. }
  destruct LO as [LC LS]. rewrite LC, LS.
  set (pt := firstn (N.to_nat psize) input). assert (PL : Nlen pt = psize) by (apply Nlen_firstn; auto).
  rewrite PL, N.eqb_refl. cbn [negb].
  destruct (N.eqb_spec (s_seqno s) 0) as [Z|Z]; [lia|].
  destruct SL as [IVL TGL]. rewrite IVL. change (12 <? 8) with false. cbv iota.
  match goal with |- context [cr_enc cr ?a ?b ?c ?d] => pose proof (cw_enc _ CW a b c d) as NE; destruct (cr_enc cr a b c d) as [[ct tag]|] eqn:ENC end; [clear NE|contradiction].
  assert (CT : Nlen ct = psize /\ Nlen tag = 16) by (destruct CS as [CS _]; apply CS in ENC; rewrite <- PL; auto).
  destruct CT as [CT TAG]. rewrite CT, N.ltb_irrefl.
  rewrite frame_iv_spec in * by (auto; try split; auto; lia).
  set (f := mk_frame ty (s_seqno s) (msg_iv (s_seqno s)) ct tag).
  assert (OUT : layout_bytes (the_layout ty (s_seqno s) psize) (msg_iv (s_seqno s)) ct tag = wire_frame f).
  { rewrite <- CT. apply the_layout_bytes. intros ->. rewrite SQ, (SG eq_refl). reflexivity. }
  rewrite OUT.
  assert (OL : Nlen (wire_frame f) = frame_total ty psize).
  { rewrite <- OUT. unfold layout_bytes, the_layout, frame_total. destruct ty; cbn [lo_fixed1 lo_fixed2]; rewrite !Nlen_app, CT, TAG, ?Nlen_nil;
      repeat match goal with |- context [Nlen (u32 ?x)] => change (Nlen (u32 x)) with 4 | |- context [Nlen (u64 ?x)] => change (Nlen (u64 x)) with 8 | |- context [Nlen (msg_iv ?x)] => change (Nlen (msg_iv x)) with 12 end; lia. }
  destruct (sig_update_works cr (s_sig s) (wire_frame f) CW) as [osc SU]. rewrite SU.
  assert (RL : Nlen (skipn (N.to_nat psize) input) = Nlen input - psize) by (unfold Nlen; rewrite skipn_length; lia).
  assert (DONE : forall s' o lg, s_alg s' = Some (ei_p i) -> s_fsize s' = s_fsize s ->
     (ty = FRAME_TYPE_FRAME /\ s_state s' = ST_ENCRYPT_BODY \/ s_state s' = ST_WRITE_TRAILER) -> o = wire_frame f ->
     step_works e s room input (body_text l) alg (mk_step s' (skipn (N.to_nat psize) input) o RGo lg)).
  { intros s' o lg E1 E2 E3 ->. split; [reflexivity|]. split; [exact E2|]. split; [now apply ALG'|].
    intros _ K PE H. right. split.
    - unfold made_progress. sproj. destruct (wire_frame f) eqn:WF; [|reflexivity]. exfalso. rewrite <- OL in FT. clear - OL WF.
      rewrite Nlen_nil in OL. unfold frame_total in OL. destruct ty; lia.
    - sproj. rewrite ST, OL, RL. destruct E3 as [[T E3]| E3]; rewrite E3; cbn [need].
      + specialize (FT' T). specialize (PNZ T). lia.
      + lia. }
  unfold finish, change_state. sproj. rewrite ST.
  change (sstate_eqb ST_ENCRYPT_BODY ST_WRITE_TRAILER) with false.
  change (sstate_eqb ST_ENCRYPT_BODY ST_ERROR) with false.
  change (sstate_eqb ST_ENCRYPT_BODY ST_ENCRYPT_BODY) with true. cbn [andb]. cbv iota.
  destruct ty; apply DONE; sproj; auto; try (apply (eo_alg _ _ _ EO)).
Qed.

Lemma step_lives : forall cr e s room input win wout log alg,
  crypto_sizes cr -> crypto_works cr -> inv cr s win wout log -> s_mode s = M_ENCRYPT -> s_state s <> ST_ERROR ->
  env_works e s alg -> message_fits s (Nlen win + Nlen input) ->
  step_works e s room input win alg (step cr e s room input).
Proof.
  intros cr e s room input win wout log alg CS CW I MODE NE EW MF. unfold step.
  destruct I as [s CONF PR MD ST|s CONF PR MD ST|s CONF PR MD ST|s i CONF EO ST EB|s i l CONF EO ST R L EB
    |s i l CONF EO ST W EB K PE|s i l tr trlog CONF EO ST W F K PE ET|s i l CONF DO ST R L DB SG|s i l CONF DO ST W DB SG
    |s i l tr trlog CONF DO ST W DB DT|s s0 win wout log more ST FS NE' MD I NON].
  - rewrite ST, MODE. cbn [is_encrypt_mode].
    assert (PV : policy_is_valid (s_policy s) = true).
    { destruct (ew_gen _ _ _ EW) with (mk_enc_request (h_enc_ctx (s_hdr s)) 0 0 (s_policy s)) as [ctx [em [_ F]]].
      - unfold get_alg_id. now rewrite (pr_alg _ PR).
      - unfold visible_ctx. rewrite MODE. reflexivity.
      - reflexivity.
      - reflexivity.
      - destruct (permits_lookup _ _ (ft_policy _ _ _ _ _ F)) as [p [_ [_ PV]]]. exact PV. }
    rewrite PV. cbn [negb]. unfold finish, change_state. rewrite ST, MODE. st_eval.
    split; [reflexivity|]. split; [reflexivity|]. split; [apply (env_works_same _ s); auto|].
    intros _ _ _ _. right. split; [apply progress_by_state; sproj; congruence|]. sproj. rewrite ST. cbn [need]. rewrite Nlen_nil. lia.
  - rewrite ST. destruct (try_gen_key_works cr e s input alg CS CW CONF PR MODE ST EW) as (A1 & A2 & A3 & A4 & A5 & A6).
    split; [exact A1|]. split; [exact A3|]. split; [now apply (env_works_alg _ s)|].
    intros _ _ _ _. right. split; [apply progress_by_state; rewrite A2, ST; discriminate|]. rewrite A2, A5, A6, ST. cbn [need]. rewrite Nlen_nil. lia.
  - rewrite MODE in MD. discriminate.
  - rewrite ST. now apply try_write_header_works with (cr := cr) (i := i).
  - rewrite ST. now apply try_encrypt_body_works with (i := i).
  - rewrite ST. now apply write_trailer_works with (cr := cr) (i := i).
  - rewrite ST. split; [reflexivity|]. split; [reflexivity|]. split; [exact EW|]. intros _ _ _ _. now left.
  - pose proof (do_mode _ _ _ DO) as Z. rewrite MODE in Z. discriminate.
  - pose proof (do_mode _ _ _ DO) as Z. rewrite MODE in Z. discriminate.
  - pose proof (do_mode _ _ _ DO) as Z. rewrite MODE in Z. discriminate.
  - contradiction.
Qed.

(** ** The loop and whole calls *)

Lemma inv_mode_step : forall cr e s room input, s_mode s = M_ENCRYPT -> s_mode (sr_sess (step cr e s room input)) = M_ENCRYPT.
Proof. intros. destruct (step_conf cr e s room input) as [C _]. congruence. Qed.

Lemma inv_done_all : forall cr s win wout log, inv cr s win wout log -> s_mode s = M_ENCRYPT -> s_state s = ST_DONE ->
  s_precise s = Nlen win.
Proof.
  intros cr s win wout log I M ST. destruct I; try congruence.
  match goal with H : dec_ok _ _ _ |- _ => pose proof (do_mode _ _ _ H) as Z; rewrite M in Z; discriminate end.
Qed.

Lemma loop_lives : forall fuel cr e s room input out lg win wout log alg,
  crypto_sizes cr -> crypto_works cr -> bytes_ok input -> inv cr s win wout log -> s_mode s = M_ENCRYPT -> s_state s <> ST_ERROR ->
  env_works e s alg -> message_fits s (Nlen win + Nlen input) ->
  let r := process_loop fuel cr e s room input out lg in
  (lr_rc r = POk \/ lr_rc r = POutOfFuel) /\
  (e_in_null e = false -> s_known s = true -> s_precise s = Nlen win + Nlen input -> need (s_state s) (Nlen input) <= room ->
   lr_rc r = POk -> s_state (lr_sess r) = ST_DONE /\ lr_in r = []).
Proof.
  induction fuel as [|fuel IH]; intros cr e s room input out lg win wout log alg CS CW BO I MODE NE EW MF; cbn zeta.
  { cbn [process_loop lr_rc]. split; [now right|]. discriminate. }
  cbn [process_loop].
  pose proof (step_lives cr e s room input win wout log alg CS CW I MODE NE EW MF) as (RC & FS & EW' & MV).
  pose proof (step_inv cr e s room input _ _ _ CS BO I) as G.
  pose proof (step_adv cr e s room input _ _ _ CS BO I RC) as (_ & NE' & _).
  pose proof (step_conf cr e s room input) as C.
  pose proof (inv_mode_step cr e s room input MODE) as MODE'.
  assert (DN : s_state s = ST_DONE -> sr_in (step cr e s room input) = input /\ s_state (sr_sess (step cr e s room input)) = ST_DONE /\
      made_progress s input (step cr e s room input) = false).
  { intros Z. unfold step. rewrite Z. unfold made_progress. sproj. rewrite Z. rewrite N.eqb_refl. auto. }
  remember (step cr e s room input) as r eqn:Hr. clear Hr.
  destruct G as [used [E [OUT G]]]. rewrite RC in *.
  fold (made_progress s input r). destruct (made_progress s input r) eqn:MP.
  - assert (BO' : bytes_ok (sr_in r)) by (rewrite E in BO; apply Forall_app in BO; tauto).
    assert (LEN : Nlen win + Nlen input = Nlen (win ++ used) + Nlen (sr_in r)) by (rewrite E, !Nlen_app; lia).
    destruct C as (C1 & C2 & C3 & C4 & C5 & C6).
    assert (MF' : message_fits (sr_sess r) (Nlen (win ++ used) + Nlen (sr_in r))).
    { rewrite <- LEN. unfold message_fits in *. rewrite FS, C3, C5. exact MF. }
    specialize (IH cr e (sr_sess r) (room - Nlen (sr_out r)) (sr_in r) (out ++ sr_out r) (lg ++ sr_log r) (win ++ used) _ _ alg CS CW BO' G MODE' NE' EW' MF').
    cbn zeta in IH. destruct IH as [IH1 IH2]. split; [exact IH1|].
    intros NN K PE RM OK. apply IH2; auto; try congruence.
    destruct (MV NN K PE RM) as [Z|[_ ND]]; [|lia]. destruct (DN Z) as (_ & _ & X). congruence.
  - cbn [lr_sess lr_in lr_out lr_rc lr_log]. split; [now left|].
    intros NN K PE RM _. destruct (MV NN K PE RM) as [Z|[X _]]; [|congruence].
    destruct (DN Z) as (D1 & D2 & _). split; [exact D2|]. rewrite D1. pose proof (inv_done_all _ _ _ _ _ I MODE Z) as P.
    apply Nlen_0. lia.
Qed.

Lemma process_lives : forall cr e s cap input win wout log alg,
  crypto_sizes cr -> crypto_works cr -> bytes_ok input -> inv cr s win wout log -> s_mode s = M_ENCRYPT -> s_state s <> ST_ERROR ->
  env_works e s alg -> message_fits s (Nlen win + Nlen input) ->
  let r := process cr e s cap input in
  pr_rc r = POk /\
  (e_in_null e = false -> s_known s = true -> s_precise s = Nlen win + Nlen input -> need (s_state s) (Nlen input) <= cap ->
   is_done (pr_sess r) = true /\ pr_read r = Nlen input).
Proof.
  intros cr e s cap input win wout log alg CS CW BO I MODE NE EW MF. cbn zeta.
  assert (I' : inv cr s win (wout ++ []) (log ++ [])) by now rewrite !app_nil_r.
  pose proof (loop_good (loop_fuel input) cr e s cap input [] [] win wout log CS BO I') as [_ [used [_ [_ P]]]].
  pose proof (loop_lives (loop_fuel input) cr e s cap input [] [] win wout log alg CS CW BO I MODE NE EW MF) as [L1 L2]. cbn zeta in L1, L2.
  unfold process in *. set (l := process_loop _ _ _ _ _ _ _ _) in *. clearbody l.
  destruct L1 as [L1|L1]; rewrite L1 in *; cbn [pr_rc pr_sess pr_read] in *.
  2:{ exfalso. unfold loop_fuel in P. assert (rank (s_state s) <= 9)%nat by (destruct (s_state s); cbn; lia). lia. }
  destruct P as [_ [_ [NE2 _]]].
  destruct (sstate_eqb_spec (s_state (lr_sess l)) ST_ERROR) as [Z|Z]; [contradiction|].
  - split; [reflexivity|]. intros NN K PE RM. destruct (L2 NN K PE RM eq_refl) as [D IN]. unfold is_done. rewrite D, IN, Nlen_nil. split; [reflexivity|lia].
Qed.

Lemma need_le : forall st n, need st n <= 2147483648 + 41 * n + 145.
Proof. intros st n. destruct st; cbn [need]; lia. Qed.

(** ** The theorems *)

Theorem C67_lemma : forall cr m ops w e cap input w' r alg, crypto_sizes cr -> crypto_works cr -> history cr m ops w ->
  s_mode (w_s w) = M_ENCRYPT -> s_state (w_s w) <> ST_ERROR -> bytes_ok input -> env_works e (w_s w) alg ->
  message_fits (w_s w) (Nlen (w_in w) + Nlen input) ->
  exec cr w (OProcess e cap input) = (w', r) ->
  o_rc r = POk.
Proof.
  intros cr m ops w e cap input w' r alg CS CW H MODE NE BO EW MF E. pose proof (history_inv _ _ _ _ CS H) as I. unfold winv in I.
  destruct (process_lives cr e (w_s w) cap input _ _ _ alg CS CW BO I MODE NE EW MF) as [P _].
  cbn [exec] in E. unfold after_process in E. assert (R := f_equal snd E). cbn [snd] in R. rewrite <- R. exact P.
Qed.

Theorem C67_done_lemma : forall cr m ops w e cap input w' r alg, crypto_sizes cr -> crypto_works cr -> history cr m ops w ->
  s_mode (w_s w) = M_ENCRYPT -> s_state (w_s w) <> ST_ERROR -> bytes_ok input -> env_works e (w_s w) alg ->
  message_fits (w_s w) (Nlen (w_in w) + Nlen input) ->
  e_in_null e = false -> s_known (w_s w) = true -> s_precise (w_s w) = Nlen (w_in w) + Nlen input ->
  2147483648 + 41 * Nlen input + 145 <= cap ->
  exec cr w (OProcess e cap input) = (w', r) ->
  o_rc r = POk /\ o_read r = Nlen input /\ is_done (w_s w') = true.
Proof.
  intros cr m ops w e cap input w' r alg CS CW H MODE NE BO EW MF NN K PE CAP E. pose proof (history_inv _ _ _ _ CS H) as I. unfold winv in I.
  destruct (process_lives cr e (w_s w) cap input _ _ _ alg CS CW BO I MODE NE EW MF) as [P D].
  pose proof (need_le (s_state (w_s w)) (Nlen input)) as NL.
  destruct (D NN K PE ltac:(lia)) as [D1 D2].
  cbn [exec] in E. unfold after_process in E. rewrite P in E.
  assert (R := f_equal snd E). assert (W := f_equal (fun x => w_s (fst x)) E). cbn [fst snd w_s] in R, W. rewrite <- R, <- W. auto.
Qed.

Theorem C67_full_lemma : forall cr m ops w e cap input w' r alg, crypto_sizes cr -> crypto_works cr -> history cr m ops w ->
  s_mode (w_s w) = M_ENCRYPT -> s_state (w_s w) = ST_CONFIG -> bytes_ok input -> env_works e (w_s w) alg ->
  size_fits (s_fsize (w_s w)) (Nlen input) ->
  e_in_null e = false -> s_known (w_s w) = false -> Nlen input <= s_bound (w_s w) ->
  2147483648 + 41 * Nlen input + 145 <= cap ->
  exec cr w (OProcessFull e cap input) = (w', r) ->
  o_rc r = POk /\ o_read r = Nlen input /\ is_done (w_s w') = true.
Proof.
  intros cr m ops w e cap input w' r alg CS CW H MODE ST BO EW SF NN K BD CAP E. pose proof (history_inv _ _ _ _ CS H) as I. unfold winv in I.
  assert (BB : s_bound (w_s w) < 18446744073709551616 /\ w_in w = []).
  { destruct I as [s CONF PR MD ST'|s CONF PR MD ST'|s CONF PR MD ST'|s i CONF EO ST' EB|s i l CONF EO ST' R L EB
    |s i l CONF EO ST' W EB K' PE|s i l tr trlog CONF EO ST' W F K' PE ET|s i l CONF DO ST' R L DB SG|s i l CONF DO ST' W DB SG
    |s i l tr trlog CONF DO ST' W DB DT|s s0 win wout log more ST' FS NE' MD I NON]; try congruence.
    - split; [apply CONF|reflexivity].
    - destruct ST' as [|[]]; congruence. }
  destruct BB as [BB WIN].
  assert (SM : set_message_size cr (e_garbage e) (Nlen input) (w_s w) = (set_known true (set_precise (Nlen input) (w_s w)), POk)).
  { unfold set_message_size. rewrite MODE, K. cbn [is_encrypt_mode negb]. change two64 with 18446744073709551616.
    rewrite N.mod_small by lia. destruct (N.ltb_spec (s_bound (w_s w)) (Nlen input)); [lia|].
    unfold compute_body_estimate. sproj. now rewrite ST. }
  pose proof (set_message_size_inv cr (e_garbage e) (Nlen input) _ _ _ _ I) as SI. rewrite SM in SI. cbn [fst] in SI. rewrite WIN in SI.
  set (s1 := set_known true (set_precise (Nlen input) (w_s w))) in *.
  assert (MF : message_fits s1 (Nlen (@nil N) + Nlen input)).
  { unfold message_fits, s1. sproj. rewrite Nlen_nil. unfold size_fits in SF. destruct (s_fsize (w_s w) =? 0); auto. }
  assert (EW1 : env_works e s1 alg) by (apply (env_works_same _ (w_s w)); auto).
  destruct (process_lives cr e s1 cap input _ _ _ alg CS CW BO SI MODE ltac:(unfold s1; sproj; congruence) EW1 MF) as [P D].
  pose proof (need_le (s_state s1) (Nlen input)) as NL.
  destruct (D NN eq_refl ltac:(unfold s1; sproj; rewrite Nlen_nil; reflexivity) ltac:(lia)) as [D1 D2].
  cbn [exec] in E. unfold process_full in E. rewrite ST, MODE in E. cbn [is_encrypt_mode] in E. rewrite SM in E. fold s1 in E.
  change (sstate_eqb ST_CONFIG ST_CONFIG) with true in E. cbn [negb] in E. cbv iota zeta in E.
  rewrite P, D1, D2, N.eqb_refl in E. cbn [andb] in E. cbv iota in E. rewrite P in E. unfold after_process in E. rewrite P in E.
  assert (R := f_equal snd E). assert (W := f_equal (fun x => w_s (fst x)) E). cbn [fst snd w_s] in R, W. rewrite <- R, <- W. auto.
Qed.
