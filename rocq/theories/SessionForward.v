(** A session fed a valid message never fails. *)
From Verif Require Import Base AlgModel EncCtxModel HdrModel FrameModel CryptoModel SessionModel
  BaseProofs WireSpec SessionSpec StreamSpec EncCtxProofs HdrProofs FrameProofs SessionBase SessionInv SessionStep SessionStepD
  SessionRun SessionTheorems SessionStream.
From Coq Require Import Permutation ZArith ZifyBool ZifyNat ZifyN.
Import List.
Open Scope list_scope.
Open Scope N_scope.

(** ** Reading part of something readable *)
Lemma good_prefix_read : forall A (p : parser A) (a : A) s z r, good p -> p (s ++ z) = Ok (a, r) ->
  p s = Err E_SHORT_BUFFER \/ exists r0, p s = Ok (a, r0) /\ r = r0 ++ z.
Proof.
  intros A p a s z r [_ [G2 G3]] H. destruct (p s) as [[a' r0]|e] eqn:E.
  - right. rewrite (G2 _ _ _ z E) in H. apply Ok_pair_inj in H. destruct H as [-> <-]. eauto.
  - left. assert (D : e = E_SHORT_BUFFER \/ e <> E_SHORT_BUFFER) by (destruct e; auto; right; discriminate).
    destruct D as [->|N]; auto. rewrite (G3 _ _ z E N) in H. discriminate.
Qed.

Lemma derive_key_ok : forall cr id p dk mid k0 c0 key, alg_lookup id = Some p -> Nlen mid = message_id_len p ->
  content_key cr id mid dk key -> (In id v2_suites -> exists com, key_commitment cr mid dk com) ->
  kd_rc (derive_key cr p dk mid (ap_commitment_len p) k0 c0) = KOk.
Proof.
  intros cr id p dk mid k0 c0 key L ML CK COM.
  destruct (suite_facts _ _ L) as [ID [CKL [DKL [[V1 [VER [CL SHA]]]|[V2 [VER [CL [SHA SKL]]]]]]]].
  - unfold derive_key, message_id_len in *. rewrite VER in *. change (1 =? HEADER_VERSION_1_0) with true in *. cbv iota in *.
    rewrite CL. change (0 =? 0) with true. cbn [negb]. unfold derive_key_v1.
    rewrite ML. change (16 =? 16) with true. cbn [negb]. rewrite ID in *.
    destruct SHA as [[W I]|[[W I]|[W I]]]; rewrite W in *; [reflexivity| |].
    + unfold hkdf. change (md_size SHA256) with 32. rewrite be2 by (apply suite_id_small; auto). rewrite CKL.
      inversion CK as [J|k J H|k J H|k J H]; subst; try (rewrite H; reflexivity); exfalso;
        cbn in I, J; repeat match goal with H : _ \/ _ |- _ => destruct H end; try contradiction; congruence.
    + unfold hkdf. change (md_size SHA384) with 48. rewrite be2 by (apply suite_id_small; auto). rewrite CKL.
      inversion CK as [J|k J H|k J H|k J H]; subst; try (rewrite H; reflexivity); exfalso;
        cbn in I, J; repeat match goal with H : _ \/ _ |- _ => destruct H end; try contradiction; congruence.
  - destruct (COM V2) as [com C]. unfold derive_key, message_id_len in *. rewrite VER in *.
    change (2 =? HEADER_VERSION_1_0) with false in *. change (2 =? HEADER_VERSION_2_0) with true in *. cbv iota in *.
    unfold derive_key_v2. rewrite CL, CKL, SKL, ID, SHA, N.ltb_irrefl, ML.
    change (32 =? 32) with true. cbn [negb].
    unfold hkdf. destruct mid as [|x mid']; [discriminate ML|]. remember (x :: mid') as mid.
    rewrite be2 by (apply suite_id_small; auto). rewrite !c_str_text.
    unfold key_commitment in C. rewrite C.
    inversion CK as [J|k J H|k J H|k J H]; subst; try (rewrite H; reflexivity); exfalso;
        cbn in V2, J; repeat match goal with H : _ \/ _ |- _ => destruct H end; try contradiction; congruence.
Qed.

Lemma commitment_eq_refl : forall x, Nlen x = 0 \/ Nlen x = 32 -> commitment_eq x x = true.
Proof.
  intros x L. unfold commitment_eq. rewrite N.eqb_refl. cbn [negb].
  destruct (N.eqb_spec (Nlen x) 0); auto. destruct (N.eqb_spec (Nlen x) 32); [|lia]. cbn [negb]. now apply bytes_eqb_spec.
Qed.

Lemma known_suite_lookup : forall id, In id v1_suites \/ In id v2_suites -> exists p, alg_lookup id = Some p.
Proof.
  intros id [H|H]; [destruct (in_v1_cases _ H) as [p [L _]]|destruct (in_v2_cases _ H) as [p [L _]]]; eauto.
Qed.

Lemma permits_allowed : forall id c, In id v1_suites \/ In id v2_suites -> policy_permits_decrypt c id ->
  allowed_for_decrypt id c = true /\ policy_is_valid c = true.
Proof.
  intros id [] K P; cbn in P |- *; try contradiction; auto. split; auto. destruct (in_v2_cases _ P) as [p Q]. tauto.
Qed.

Lemma sig_update_ok : forall cr o b, updates_ok cr -> exists o', sig_update_opt cr o b = Some o'.
Proof.
  intros cr [sc|] b U; cbn; eauto. unfold sig_update. destruct b; eauto. rewrite U. eauto.
Qed.

(** ** Unwrapping *)
Lemma unwrap_keys_forward : forall cr e s rest b a iv key dm,
  crypto_sizes cr -> updates_ok cr -> s_state s = ST_UNWRAP_KEY ->
  authentic_header cr (dm_key dm) (s_hdr s) b a iv key ->
  hdr_size (s_hdr s) = Nlen (b ++ a) -> s_hsize s = Nlen (b ++ a) -> Nlen (b ++ a) < 2147483648 ->
  h_auth_len (s_hdr s) = Nlen b -> s_hcopy s = Some (b ++ a) ->
  policy_permits_decrypt (s_policy s) (h_alg_id (s_hdr s)) ->
  Nlen (dm_key dm) = suite_key_len (h_alg_id (s_hdr s)) ->
  (is_v2 (s_hdr s) -> key_commitment cr (h_message_id (s_hdr s)) (dm_key dm) (h_alg_suite_data (s_hdr s))) ->
  e_dec e (mk_dec_request (h_alg_id (s_hdr s)) (h_edks (s_hdr s)) (h_enc_ctx (s_hdr s))) = Ok dm ->
  (In (dm_alg dm) v1_suites \/ In (dm_alg dm) v2_suites) ->
  (s_mode s = M_DECRYPT_UNSIGNED -> ~ In (dm_alg dm) signed_suites) ->
  (In (h_alg_id (s_hdr s)) signed_suites -> dm_sig dm <> None) ->
  sr_rc (unwrap_keys cr e s rest) = RGo /\ s_state (sr_sess (unwrap_keys cr e s rest)) = ST_DECRYPT_BODY.
Proof.
  intros cr e s rest b a iv key dm CS UP ST [WF W CK IV1 IV2 OPEN] HS HS' SMALL AL HC POL DK COM DEC KN UNS SIG.
  assert (KNOWN : In (h_alg_id (s_hdr s)) v1_suites \/ In (h_alg_id (s_hdr s)) v2_suites) by (destruct W; auto).
  destruct (known_suite_lookup _ KNOWN) as [p LK]. destruct (known_suite_lookup _ KN) as [mp LKM].
  destruct (alg_lookup_lens _ _ LK) as [VER [IVL [TGL ID]]].
  destruct (wire_auth_len _ _ _ _ WF LK W) as [LA [VV TG]].
  destruct (suite_facts _ _ LK) as [_ [CKL [DKL SF]]].
  destruct (permits_allowed _ _ KNOWN POL) as [AD PV].
  unfold unwrap_keys. sproj. rewrite LK, ID, DEC, LKM. sproj.
  assert (U : match s_mode s with M_DECRYPT_UNSIGNED => true | _ => false end && negb (ap_sig_len mp =? 0) = false).
  { destruct (s_mode s) eqn:M; auto. cbn [andb]. destruct (ap_sig_len mp =? 0) eqn:Z; auto.
    exfalso. apply (UNS eq_refl). now apply (sig_len_spec _ _ LKM). }
  rewrite U. unfold derive_data_key. sproj. rewrite DK, DKL, N.eqb_refl, PV, ID, AD. cbn [negb]. rewrite andb_false_r. cbn [negb].
  assert (ML : Nlen (h_message_id (s_hdr s)) = message_id_len p).
  { destruct WF as [V _]. unfold message_id_len.
    destruct V as [[V [M _]]|[V [M _]]].
    - rewrite (proj2 (v1_version _ _ LK) V). exact M.
    - rewrite (proj2 (v2_version _ _ LK) V). exact M. }
  pose proof (derive_key_ok cr _ p (dm_key dm) (h_message_id (s_hdr s)) (s_key s) (s_commit s) key LK ML CK
    (fun V => ex_intro _ _ (COM V))) as RC.
  assert (DK' : Nlen (dm_key dm) = ap_data_key_len p) by (now rewrite DK, DKL).
  pose proof (derive_key_spec cr _ p (dm_key dm) (h_message_id (s_hdr s)) (ap_commitment_len p) (s_key s) (s_commit s) CS LK DK') as DS.
  cbn zeta in DS. set (k := derive_key cr p (dm_key dm) _ _ _ _) in *. clearbody k.
  specialize (DS RC). rewrite RC. destruct DS as [CK' [CPK [_ COM']]].
  assert (KEY : kd_key k = key) by (eapply content_key_fun; eauto).
  sproj.
  assert (CEQ : commitment_eq (firstn (N.to_nat (ap_commitment_len p)) (kd_commit k)) (h_alg_suite_data (s_hdr s)) = true).
  { destruct SF as [[V1 [_ [CL _]]]|[V2 [_ [CL _]]]].
    - rewrite CL. destruct VV as [[_ [_ [_ [_ [_ SD]]]]]|[V2 _]]; [|destruct (v1_not_v2 _ V1 V2)].
      rewrite SD. reflexivity.
    - destruct COM' as [[V1 _]|[_ [_ [COM' LC]]]]; [destruct (v1_not_v2 _ V1 V2)|].
      specialize (COM V2). unfold key_commitment in *. rewrite COM in COM'. injection COM' as E.
      rewrite CL, <- E, firstn_all_N by (rewrite E; auto). apply commitment_eq_refl. right. now rewrite E. }
  rewrite CEQ. unfold validate_header. sproj. rewrite HC, HS, HS', N.eqb_refl. cbn [negb]. rewrite andb_false_r.
  assert (POS : 16 <= Nlen (b ++ a)).
  { rewrite Nlen_app, LA. unfold authtag_len. rewrite IVL, TGL. destruct (ap_version p =? HEADER_VERSION_1_0); lia. }
  destruct (N.eqb_spec (Nlen (b ++ a)) 0) as [Z|_]; [lia|].
  assert (SUB : sub64 (Nlen (b ++ a)) (h_auth_len (s_hdr s)) = authtag_len p).
  { rewrite AL, <- LA. rewrite Nlen_app in *. rewrite sub64_le by lia. lia. }
  rewrite SUB, N.eqb_refl. cbn [negb].
  rewrite firstn_app_N, skipn_app_N, firstn_all_N by auto.
  assert (VH : exists iv', verify_header cr p (kd_key k) a b = (iv', Ok tt)).
  { unfold verify_header. rewrite IVL, TGL, CPK, KEY. change (12 + 16) with 28. cbn zeta.
    destruct VV as [[V [V1 [CM [-> [IV SD]]]]]|[V [V2 [CM ->]]]].
    - rewrite V1, Nlen_app, IV, TG. change (1 =? HEADER_VERSION_1_0) with true. change (12 + 16 =? 28) with true.
      cbn [negb]. cbv iota. rewrite firstn_app_N, skipn_app_N by auto. rewrite <- (IV1 V), OPEN. eauto.
    - rewrite V2, TG. change (2 =? HEADER_VERSION_1_0) with false. change (2 =? HEADER_VERSION_2_0) with true.
      change (16 =? 16) with true. cbn [negb]. cbv iota. rewrite <- msg_iv_0, <- (IV2 V), OPEN. eauto. }
  destruct VH as [iv' ->].
  assert (CHG : forall s1, s_state s1 = ST_UNWRAP_KEY -> s_alg s1 = Some p -> s_seqno s1 = 1 ->
     change_state s1 ST_DECRYPT_BODY = Some (set_state ST_DECRYPT_BODY s1)).
  { intros s1 E1 E2 E3. unfold change_state. rewrite E1, E2, E3. reflexivity. }
  destruct (ap_sig_len p =? 0) eqn:SZ0; cbn [negb].
  - rewrite CHG by (sproj; auto). cbn [finish sr_rc sr_sess]. sproj. auto.
  - destruct (dm_sig dm) as [sc|] eqn:DSIG; [|exfalso; apply SIG; auto; now apply (sig_len_spec _ _ LK)].
    destruct (sig_update_ok cr (Some sc) (b ++ a) UP) as [o' SU]. cbn [sig_update_opt] in SU.
    destruct (sig_update cr sc (b ++ a)) as [sc'|]; [|discriminate].
    rewrite CHG by (sproj; auto). cbn [finish sr_rc sr_sess]. sproj. auto.
Qed.

(** ** Reading a valid message *)
Section Forward.
Variables (cr : crypto) (dk : list N) (vk : option sigctx) (h : hdr) (hb ha key : list N)
  (l : list (frame * list N)) (tr : list N).
Hypothesis CS : crypto_sizes cr.
Hypothesis UP : updates_ok cr.
Hypothesis VM : valid_message cr dk vk h hb ha key l tr.

Definition the_request := mk_dec_request (h_alg_id h) (h_edks h) (h_enc_ctx h).
(** The unwrapped keys in a log are the right ones. *)
Definition keys_right (log : list event) : Prop :=
  forall dm, In (EvUnwrap the_request dm) log -> dm_key dm = dk /\ (In (h_alg_id h) signed_suites -> dm_sig dm = vk).

Lemma header_known : In (h_alg_id h) v1_suites \/ In (h_alg_id h) v2_suites.
Proof. destruct (vm_head _ _ _ _ _ _ _ _ _ VM) as [iv AH]. destruct (ah_wire _ _ _ _ _ _ _ AH); auto. Qed.
Lemma header_fsize : h_frame_len h < 4294967296.
Proof. destruct (vm_head _ _ _ _ _ _ _ _ _ VM) as [iv AH]. apply (ah_wf _ _ _ _ _ _ _ AH). Qed.

(** A session in the body of the message. *)
Lemma in_message : forall s i l1 log z, dec_ok cr s i -> dbody_ok cr s i l1 -> keys_right log ->
  In (EvUnwrap (di_rq i) (di_m i)) log -> body_so_far l1 ->
  hb ++ ha ++ body_wire l ++ tr = di_head i ++ body_wire l1 ++ z ->
  with_al 0 (s_hdr s) = with_al 0 h /\ di_head i = hb ++ ha /\ body_wire l1 ++ z = body_wire l ++ tr /\
  di_key i = key /\ prefix l1 l /\ (In (h_alg_id h) signed_suites -> dm_sig (di_m i) = vk).
Proof.
  intros s i l1 log z DO DB KR IN BS E. destruct (vm_head _ _ _ _ _ _ _ _ _ VM) as [iv AH]. destruct AH.
  unfold di_head in E. rewrite <- app_assoc in E.
  destruct (two_headers _ _ _ _ _ _ _ _ ah_wf ah_wire (do_wf _ _ _ DO) (do_wire _ _ _ DO) E) as [HH [HB [HA RR]]].
  pose proof (f_equal h_alg_id HH) as HAL. pose proof (f_equal h_message_id HH) as HM. pose proof (f_equal h_edks HH) as HE.
  pose proof (f_equal h_frame_len HH) as HF. pose proof (f_equal h_enc_ctx HH) as HC. cbn in HAL, HM, HF, HC, HE.
  assert (RQ : di_rq i = the_request) by (rewrite (do_rq _ _ _ DO); unfold the_request; congruence).
  rewrite RQ in IN. destruct (KR _ IN) as [K1 K2].
  assert (KK : di_key i = key).
  { eapply content_key_eq; [apply (do_content _ _ _ DO)|exact ah_key|..]; congruence. }
  pose proof (db_opened _ _ _ _ DB) as O1. rewrite (do_fsize _ _ _ DO), <- HF, <- HM, KK in O1.
  split; auto. split; [unfold di_head; congruence|]. split; auto. split; auto. split; auto.
  symmetry in RR.
  destruct (two_bodies _ _ _ _ _ _ _ _ header_fsize O1 (vm_body _ _ _ _ _ _ _ _ _ VM) RR) as [C|C]; auto.
  rewrite (whole_prefix _ _ (vm_whole _ _ _ _ _ _ _ _ _ VM) BS C). apply prefix_refl.
Qed.

Lemma regular_not_whole : forall l1, regular_from 1 l1 -> whole_body l1 -> False.
Proof.
  intros l1 R [l0 [f [p [-> [_ [_ T]]]]]]. apply T. eapply regular_types; eauto. apply in_or_app. right. now left.
Qed.

(** Frame number [Nlen l1 + 1]. *)
Lemma next_in_message : forall l1, regular_from 1 l1 -> prefix l1 l -> exists f p l2, l = l1 ++ (f, p) :: l2 /\
  fr_seqno f = 1 + Nlen l1 /\ opened cr key (h_message_id h) (h_frame_len h) (f, p).
Proof.
  intros l1 R [l2 E]. pose proof (vm_whole _ _ _ _ _ _ _ _ _ VM) as W. pose proof (vm_body _ _ _ _ _ _ _ _ _ VM) as B.
  destruct l2 as [|[f p] l2].
  - rewrite app_nil_r in E. subst l1. destruct (regular_not_whole _ R W).
  - exists f, p, l2. split; auto. split.
    + pose proof (so_far_numbered _ (or_intror W)) as NU. rewrite E in NU. clear - NU.
      revert NU. generalize 1. induction l1 as [|[g q] l1 IH]; intros n NU; cbn [app numbered] in NU.
      * rewrite Nlen_nil. destruct NU. lia.
      * destruct NU as [_ NU]. apply IH in NU. rewrite NU, Nlen_cons. lia.
    + rewrite E in B. apply Forall_app in B. destruct B as [_ B]. now inversion B.
Qed.

Lemma vstep : forall e s room input win wout log z, inv cr s win wout log -> s_state s <> ST_ERROR ->
  accepts s h -> can_decrypt (s_mode s) dk vk h e -> keys_right log ->
  hb ++ ha ++ body_wire l ++ tr = win ++ input ++ z ->
  sr_rc (step cr e s room input) = RGo /\
  (z = [] -> Nlen (body_text l) <= Nlen wout + room ->
   made_progress s input (step cr e s room input) = true \/ s_state (sr_sess (step cr e s room input)) = ST_DONE).
Proof.
  intros e s room input win wout log z I NE [MODE [POL LIM]] [dm [DEC [DMK [DMA [DMU DMS]]]]] KR E.
  assert (MOVE : forall r, s_state (sr_sess r) <> s_state s -> made_progress s input r = true).
  { intros r D. unfold made_progress. destruct (sstate_eqb_spec (s_state (sr_sess r)) (s_state s)); [contradiction|].
    cbn [negb]. apply orb_true_r. }
  unfold step.
  destruct I as [s CONF PR MD ST|s CONF PR MD ST|s CONF PR MD ST|s i CONF EO ST EB|s i l1 CONF EO ST R L EB
    |s i l1 CONF EO ST W EB K PE|s i l1 tr1 trlog CONF EO ST W F K PE ET|s i l1 CONF DO ST R L DB SG|s i l1 CONF DO ST W DB SG
    |s i l1 tr1 trlog CONF DO ST W DB DT|s s0 win wout log more ST FS NE0 MD I NON]; try contradiction.
  - rewrite ST. destruct (permits_allowed _ _ header_known POL) as [_ ->]. cbn [negb].
    assert (is_encrypt_mode (s_mode s) = false) as -> by (destruct (s_mode s); auto; discriminate).
    unfold finish, change_state. rewrite ST, MODE. st_eval. cbn [sr_rc sr_sess]. split; auto. intros _ _. left. apply MOVE.
    rewrite ST. cbn. discriminate.
  - rewrite MD in MODE. discriminate.
  - rewrite ST. cbn [app] in E. destruct (vm_head _ _ _ _ _ _ _ _ _ VM) as [iv AH]. pose proof AH as [WF W CK IV1 IV2 OPEN].
    set (h' := with_al (Nlen hb) h).
    assert (W' : wire_header h' hb ha) by (destruct W as [V|V]; [exact (wire_v1 h' V)|exact (wire_v2 h' V)]).
    assert (AH' : authentic_header cr (dm_key dm) h' hb ha iv key).
    { rewrite DMK. constructor; auto. }
    assert (HP : hdr_parse (s_max s) (input ++ z) = Ok (h', body_wire l ++ tr)).
    { rewrite <- E. apply hdr_parse_complete; auto. }
    unfold try_parse_header.
    destruct (good_prefix_read _ _ _ _ _ _ (good_hdr_parse (s_max s)) HP) as [SH|[r0 [HP' ER]]].
    { rewrite SH. sproj. split; auto. intros -> _. rewrite app_nil_r in HP. congruence. }
    rewrite HP'. cbn zeta. destruct (known_suite_lookup _ header_known) as [p LK].
    pose proof (wire_header_len _ _ _ _ WF LK W) as LEN. pose proof (vm_size _ _ _ _ _ _ _ _ _ VM) as SMALL.
    assert (SZ : hdr_size h' = Nlen (hb ++ ha)).
    { rewrite (hdr_size_spec h' p LK); [|apply WF|].
      - change (hdr_true_size p h') with (hdr_true_size p h). rewrite through_int_small; rewrite <- LEN; rewrite Nlen_app in *; lia.
      - change (hdr_true_size p h') with (hdr_true_size p h). rewrite <- LEN. rewrite Nlen_app in SMALL. unfold UINT64_MAX. lia. }
    assert (IE : input = (hb ++ ha) ++ r0).
    { rewrite ER in E. rewrite !app_assoc in E. apply app_inv_tail in E. now rewrite E. }
    assert (NZ : Nlen (hb ++ ha) <> 0).
    { rewrite Nlen_app. destruct (wire_auth_len _ _ _ _ WF LK W) as [_ [VV TG]]. 
      destruct VV as [[_ [_ [_ [-> _]]]]|[_ [_ [_ ->]]]]; rewrite ?Nlen_app; lia. }
    rewrite SZ. destruct (N.eqb_spec (Nlen (hb ++ ha)) 0); [contradiction|].
    assert (Nlen input - Nlen r0 = Nlen (hb ++ ha)) as -> by (rewrite IE, !Nlen_app; lia).
    rewrite N.eqb_refl. cbn [negb]. rewrite IE, firstn_app_N by auto.
    unfold change_state. sproj. rewrite ST, MODE. st_eval. destruct (N.eqb_spec (Nlen (hb ++ ha)) 0); [contradiction|]. cbn [negb]. cbv iota.
    set (s1 := set_state ST_UNWRAP_KEY _).
    destruct (unwrap_keys_forward cr e s1 r0 hb ha iv key dm CS UP) as [RC ST']; unfold s1; sproj; auto.
    + rewrite DMK. apply (vm_dk _ _ _ _ _ _ _ _ _ VM).
    + rewrite DMK. apply (vm_commit _ _ _ _ _ _ _ _ _ VM).
    + intros S N. change (h_alg_id h') with (h_alg_id h) in S. rewrite (DMS S) in N.
      destruct (vm_signed _ _ _ _ _ _ _ _ _ VM S) as [sc [sg [V _]]]. congruence.
    + fold s1. split; auto. intros _ _. left. unfold made_progress. fold s1 in ST'. rewrite ST', ST. apply orb_true_r.
  - rewrite (eo_mode _ _ _ EO) in MODE. discriminate.
  - rewrite (eo_mode _ _ _ EO) in MODE. discriminate.
  - rewrite (eo_mode _ _ _ EO) in MODE. discriminate.
  - rewrite (eo_mode _ _ _ EO) in MODE. discriminate.
  - rewrite ST. rewrite <- app_assoc in E.
    destruct (in_message _ _ _ _ _ DO DB KR (or_introl eq_refl) (or_introl R) E) as [HH [HD [RR [KK [PF DS]]]]].
    pose proof (f_equal h_frame_len HH) as HF. pose proof (f_equal h_message_id HH) as HM. cbn in HF, HM.
    destruct (next_in_message _ R PF) as [f [p [l2 [EL [SQ OP]]]]].
    assert (IE : input ++ z = wire_frame f ++ (body_wire l2 ++ tr)).
    { rewrite EL in RR. unfold body_wire in RR. rewrite map_app, concat_app in RR. cbn [map concat fst] in RR.
      rewrite <- !app_assoc in RR. apply app_inv_head in RR. exact RR. }
    destruct OP as [FW [PL OP]].
    assert (SL : std_lens (di_p i)) by (eapply lookup_std_lens; apply (do_lookup _ _ _ DO)).
    assert (FSE : s_fsize s = h_frame_len h) by (rewrite (do_fsize _ _ _ DO); exact HF).
    pose proof (deserialize_frame_complete _ (h_frame_len h) f (body_wire l2 ++ tr) SL header_fsize FW) as DF.
    assert (FP : frame_parser (di_p i) (h_frame_len h) (input ++ z) = Ok (f, body_wire l2 ++ tr)).
    { rewrite <- deserialize_frame_parser, IE, DF. reflexivity. }
    unfold try_decrypt_body. rewrite (do_alg _ _ _ DO), FSE. cbn zeta.
    destruct (good_prefix_read _ _ _ _ _ _ (good_frame_parser _ _) FP) as [SH|[r0 [FP' ER]]].
    { rewrite deserialize_frame_parser, SH. sproj. split; auto. intros -> _. rewrite app_nil_r in FP. congruence. }
    assert (II : input = wire_frame f ++ r0).
    { rewrite ER, app_assoc in IE. now apply app_inv_tail in IE. }
    rewrite II, (deserialize_frame_complete _ (h_frame_len h) f r0 SL header_fsize FW). cbn [ds_res ds_psize ds_csize]. sproj.
    rewrite (db_seqno _ _ _ _ DB), SQ, N.eqb_refl. cbn [negb].
    destruct (N.ltb_spec room (Nlen (fr_ciphertext f))) as [RM|RM].
    { split; auto. intros _ BIG. exfalso. rewrite EL in BIG. rewrite body_text_app, body_text_cons, !Nlen_app in BIG. lia. }
    unfold decrypt_body. rewrite N.eqb_refl. cbn [negb]. rewrite (do_key _ _ _ DO), (do_ckey _ _ _ DO).
    assert (SB : fr_seqno f < 4294967296 /\ Nlen (fr_ciphertext f) < 18446744073709551616).
    { pose proof header_fsize. destruct FW as [_ [_ FW]]. destruct (fr_type f); lia. }
    rewrite <- SQ, frame_aad_spec by tauto. rewrite KK, HM, OP, PL, N.ltb_irrefl.
    match goal with |- context [sig_update_opt cr ?a ?b] => destruct (sig_update_ok cr a b UP) as [o' ->] end.
    assert (POS : 0 < Nlen (wire_frame f)) by (eapply wire_frame_pos; eauto).
    assert (PROG : forall s' o lg, made_progress s (wire_frame f ++ r0) (mk_step s' r0 o RGo lg) = true).
    { intros. unfold made_progress. sproj. rewrite Nlen_app. destruct (N.eqb_spec (Nlen r0) (Nlen (wire_frame f) + Nlen r0)); [lia|].
      cbn [negb]. rewrite orb_true_r. reflexivity. }
    unfold finish, change_state. sproj. rewrite ST. st_eval.
    destruct (fr_type f); sproj; (split; [reflexivity|]; intros _ _; left; apply PROG).
  - rewrite ST. rewrite <- app_assoc in E.
    destruct (in_message _ _ _ _ _ DO DB KR (or_introl eq_refl) (or_intror W) E) as [HH [HD [RR [KK [PF DS]]]]].
    pose proof (f_equal h_alg_id HH) as HAL. cbn in HAL.
    pose proof (whole_prefix _ _ W (or_intror (vm_whole _ _ _ _ _ _ _ _ _ VM)) PF) as ->.
    apply app_inv_head in RR. unfold check_trailer. sproj. rewrite SG.
    pose proof (do_lookup _ _ _ DO) as LK. rewrite HAL in LK. pose proof (sig_len_spec _ _ LK) as SLS.
    unfold dsig. destruct (ap_sig_len (di_p i) =? 0) eqn:Z.
    + cbn [signed_so_far]. unfold finish, change_state. sproj. rewrite ST. st_eval. sproj. auto.
    + destruct SLS as [SLS _]. specialize (SLS eq_refl). rewrite (DS SLS).
      destruct (vm_signed _ _ _ _ _ _ _ _ _ VM SLS) as [sc [sg [V [ET [LS VER]]]]]. rewrite V. cbn [signed_so_far].
      assert (RD : forall t, read_be 2 (u16 (Nlen sg) ++ t) = Ok (Nlen sg, t)) by (intros; now apply read_u16).
      assert (RS : forall t, read_bytes (Nlen sg) (sg ++ t) = Ok (sg, t)) by (intros; now apply read_bytes_app).
      assert (TR : input ++ z = u16 (Nlen sg) ++ sg) by (rewrite RR, ET; reflexivity).
      assert (R1 : read_be 2 (input ++ z) = Ok (Nlen sg, sg)) by (rewrite TR; apply RD).
      destruct (good_prefix_read _ _ _ _ _ _ (good_read_be 2) R1) as [SH|[r0 [R1' ER]]].
      { rewrite SH. sproj. split; auto. intros -> _. rewrite app_nil_r in R1. congruence. }
      rewrite R1'. assert (R2 : read_bytes (Nlen sg) (r0 ++ z) = Ok (sg, [])) by (rewrite <- ER; generalize (RS []); now rewrite app_nil_r).
      destruct (good_prefix_read _ _ _ _ _ _ (good_read_bytes (Nlen sg)) R2) as [SH|[r1 [R2' ER2]]].
      { rewrite SH. sproj. split; auto. intros -> _. rewrite app_nil_r in R2. congruence. }
      rewrite R2', HD. rewrite <- !app_assoc in *. rewrite VER. sproj. split; auto. intros _ _. left.
      unfold made_progress. sproj. symmetry in ER2. apply app_eq_nil in ER2. destruct ER2 as [-> ->].
      rewrite app_nil_r in TR. rewrite TR, Nlen_app. change (Nlen (u16 (Nlen sg))) with 2.
      destruct (N.eqb_spec (@Nlen N []) (2 + Nlen sg)) as [X|X]; [change (@Nlen N []) with 0 in X; lia|]. cbn [negb]. rewrite orb_true_r. reflexivity.
  - destruct ST as [ST|[ST SG]]; rewrite ST.
    + sproj. auto.
    + unfold check_trailer. sproj. rewrite SG. unfold finish, change_state. sproj. rewrite ST. st_eval. sproj. auto.
Qed.

(** Unwrap events record answers of the materials manager. *)
Definition answers (e : env) (log : list event) : Prop := forall rq dm, In (EvUnwrap rq dm) log -> e_dec e rq = Ok dm.
Lemma answers_app : forall e a b, answers e a -> answers e b -> answers e (a ++ b).
Proof. intros e a b H1 H2 rq dm H. apply in_app_or in H. destruct H; eauto. Qed.
Lemma answers_none : forall e lg, (forall rq dm, ~ In (EvUnwrap rq dm) lg) -> answers e lg.
Proof. intros e lg H rq dm K. destruct (H _ _ K). Qed.
Lemma answers_finish : forall e os i o lg s, answers e lg -> answers e (sr_log (finish os i o lg s)).
Proof. intros e [s'|] i o lg s H; exact H. Qed.

Ltac ans := apply answers_none; intros ? ?; cbn [sr_log app In snd]; intuition discriminate.
Lemma sign_header_answers : forall e s p input log, answers e log -> answers e (sr_log (sign_header cr s p input log)).
Proof.
  intros e s p input log H. unfold sign_header. cbn zeta.
  repeat match goal with
    | |- answers _ (sr_log (mk_step _ _ _ _ _)) => cbn [sr_log]
    | |- answers _ (sr_log (finish _ _ _ _ _)) => apply answers_finish
    | |- answers _ (_ ++ _) => apply answers_app; [|ans]
    | |- answers _ _ => exact H
    | |- context [if ?c then _ else _] => destruct c
    | |- context [match ?c with _ => _ end] => destruct c end.
Qed.
Lemma try_gen_key_answers : forall e s input, answers e (sr_log (try_gen_key cr e s input)).
Proof.
  intros e s input. unfold try_gen_key. cbn zeta.
  repeat match goal with
    | |- answers _ (sr_log (mk_step _ _ _ _ _)) => ans
    | |- answers _ (sr_log (sign_header _ _ _ _ _)) => apply sign_header_answers; ans
    | |- context [match e_gen ?a ?b with _ => _ end] => destruct (e_gen a b) as [? []]
    | |- context [match alg_lookup ?b with _ => _ end] => destruct (alg_lookup b)
    | |- context [match e_rand ?a ?b with _ => _ end] => destruct (e_rand a b)
    | |- context [match kd_rc ?b with _ => _ end] => destruct (kd_rc b)
    | |- context [match build_header ?a ?b ?c with _ => _ end] => destruct (build_header a b c) as [[]|]
    | |- context [if ?c then _ else _] => destruct c
    end.
Qed.
Lemma validate_header_answers : forall e s p, answers e (snd (validate_header cr e s p)).
Proof.
  intros e s p. unfold validate_header. cbn zeta.
  repeat match goal with
    | |- answers _ (snd (_, _)) => ans
    | |- context [match verify_header ?a ?b ?c ?d ?e with _ => _ end] => destruct (verify_header a b c d e) as [? []]
    | |- context [if ?c then _ else _] => destruct c
    end.
Qed.
Lemma unwrap_keys_answers : forall e s input, answers e (sr_log (unwrap_keys cr e s input)).
Proof.
  intros e s input. unfold unwrap_keys. cbn zeta. destruct (alg_lookup _) as [p|]; [|ans].
  destruct (e_dec e _) as [m|] eqn:D; [|ans].
  assert (A : answers e [EvUnwrap (mk_dec_request (ap_id p) (h_edks (s_hdr (set_alg (Some p) s))) (h_enc_ctx (s_hdr (set_alg (Some p) s)))) m]).
  { intros rq dm [H|[]]. injection H as <- <-. exact D. }
  repeat match goal with
    | |- answers _ (sr_log (mk_step _ _ _ _ _)) => cbn [sr_log]
    | |- answers _ (sr_log (finish _ _ _ _ _)) => apply answers_finish
    | |- answers _ (_ ++ _) => apply answers_app
    | |- answers _ _ => assumption
    | |- context [match alg_lookup ?b with _ => _ end] => destruct (alg_lookup b)
    | |- context [match derive_data_key ?a ?b ?c ?d ?e with _ => _ end] => destruct (derive_data_key a b c d e) as [? []]
    | |- context [match validate_header ?a ?b ?c ?d with _ => _ end] =>
        let H := fresh in pose proof (validate_header_answers b c d) as H; destruct (validate_header a b c d) as [[] ?]; cbn [snd] in H
    | |- context [match dm_sig ?a with _ => _ end] => destruct (dm_sig a)
    | |- context [match sig_update ?a ?b ?c with _ => _ end] => destruct (sig_update a b c)
    | |- context [if ?c then _ else _] => destruct c
    end.
Qed.
Lemma step_answers : forall e s room input, answers e (sr_log (step cr e s room input)).
Proof.
  intros e s room input. unfold step. destruct (s_state s).
  - destruct (negb _); [ans|]. destruct (is_encrypt_mode _); apply answers_finish; ans.
  - ans.
  - ans.
  - unfold try_parse_header. cbn zeta. destruct (hdr_parse _ _) as [[h0 rest]|[]]; try ans.
    destruct (_ =? 0); [ans|]. destruct (negb _); [ans|].
    match goal with |- context [change_state ?a ?b] => destruct (change_state a b) end; [|ans]. apply unwrap_keys_answers.
  - apply unwrap_keys_answers.
  - unfold try_decrypt_body. cbn zeta. destruct (s_alg s); [|ans]. destruct (ds_res _) as [[f rest]|[]]; try ans.
    destruct (negb _); [ans|]. destruct (_ <? _); [ans|]. destruct (decrypt_body _ _ _ _ _ _ _ _ _ _); try ans.
    destruct (sig_update_opt _ _ _); [|ans]. destruct (fr_type f); try ans; apply answers_finish; ans.
  - unfold check_trailer. cbn zeta. sproj. destruct (s_sig s).
    + destruct (read_be _ _) as [[]|]; [|ans]. destruct (read_bytes _ _) as [[]|]; [|ans]. destruct (cr_verify _ _ _); ans.
    + apply answers_finish; ans.
  - apply try_gen_key_answers.
  - unfold try_write_header. sproj. destruct (s_hcopy s); [|ans]. destruct (_ <=? _); [|ans]. apply answers_finish; ans.
  - unfold try_encrypt_body. cbn zeta. destruct (next_frame s) as [[ty n]|]; [|ans]. destruct (s_alg s); [|ans].
    destruct (_ <? _); [ans|]. destruct (sr_res _) as [lo|[]]; try ans.
    destruct (_ || _); [ans|]. destruct (encrypt_body _ _ _ _ _ _ _ _); try ans.
    destruct (sig_update_opt _ _ _); [|ans]. destruct ty; try ans; apply answers_finish; ans.
  - unfold write_trailer. cbn zeta. sproj. destruct (s_alg s); [|ans].
    destruct (_ =? _); [apply answers_finish; ans|]. destruct (_ <? _); [ans|]. destruct (s_sig s); [|ans].
    destruct (e_sign e _); [|ans]. destruct (_ <? _); [ans|]. apply answers_finish; ans.
Qed.

Lemma keys_right_app : forall e m log lg, can_decrypt m dk vk h e -> keys_right log -> answers e lg -> keys_right (log ++ lg).
Proof.
  intros e m log lg [dm [DEC [DMK [_ [_ DMS]]]]] KR A dm' IN. apply in_app_or in IN. destruct IN as [IN|IN]; [now apply KR|].
  apply A in IN. unfold the_request in IN. rewrite DEC in IN. injection IN as <-. auto.
Qed.

Lemma accepts_conf : forall s s', same_conf s s' -> accepts s h -> accepts s' h.
Proof. intros s s' [M [P [_ [_ [_ X]]]]] A. unfold accepts in *. now rewrite M, P, X. Qed.

(** ** The loop never fails *)
Lemma vloop : forall fuel e s room input out lg win wout log z, bytes_ok input ->
  inv cr s win (wout ++ out) (log ++ lg) -> s_state s <> ST_ERROR ->
  accepts s h -> can_decrypt (s_mode s) dk vk h e -> keys_right (log ++ lg) ->
  hb ++ ha ++ body_wire l ++ tr = win ++ input ++ z ->
  let r := process_loop fuel cr e s room input out lg in
  (lr_rc r = POk \/ lr_rc r = POutOfFuel) /\ keys_right (log ++ lr_log r) /\
  (lr_rc r = POk -> z = [] -> Nlen (body_text l) <= Nlen (wout ++ out) + room -> s_state (lr_sess r) = ST_DONE).
Proof.
  induction fuel as [|fuel IH]; intros e s room input out lg win wout log z BO I NE AC CD KR E; cbn zeta.
  { cbn [process_loop lr_rc lr_log lr_sess]. split; auto. split; auto. discriminate. }
  cbn [process_loop].
  pose proof (vstep e s room input _ _ _ z I NE AC CD KR E) as [RC DONE].
  pose proof (step_inv cr e s room input _ _ _ CS BO I) as G.
  pose proof (step_adv cr e s room input _ _ _ CS BO I) as A.
  pose proof (step_conf cr e s room input) as C. pose proof (step_answers e s room input) as ANS.
  remember (step cr e s room input) as r eqn:Hr.
  destruct G as [used [EI [OUT G]]]. unfold advances in A. rewrite RC in *.
  destruct (A eq_refl) as [_ [NE' _]].
  pose proof (keys_right_app _ _ _ _ CD KR ANS) as KR'. rewrite <- app_assoc in KR'.
  fold (made_progress s input r). destruct (made_progress s input r) eqn:MP.
  - assert (BO' : bytes_ok (sr_in r)) by (rewrite EI in BO; apply Forall_app in BO; tauto).
    rewrite <- !app_assoc in G.
    assert (CD' : can_decrypt (s_mode (sr_sess r)) dk vk h e) by (destruct C as [-> _]; exact CD).
    assert (E' : hb ++ ha ++ body_wire l ++ tr = (win ++ used) ++ sr_in r ++ z).
    { rewrite E, EI at 1. now rewrite <- !app_assoc. }
    destruct (IH e (sr_sess r) (room - Nlen (sr_out r)) (sr_in r) (out ++ sr_out r) (lg ++ sr_log r) (win ++ used) wout log z
      BO' G NE' (accepts_conf _ _ C AC) CD' KR' E') as [IH1 [IH2 IH3]].
    split; auto. split; auto. intros R Z B. apply IH3; auto. rewrite !Nlen_app in *. lia.
  - cbn [lr_rc lr_log lr_sess]. split; auto. split; auto. intros _ Z B. destruct (DONE Z B); congruence.
Qed.

(** Output and input of a session that has read part of the message. *)
Lemma vshape : forall s win wout log z, inv cr s win wout log -> s_state s <> ST_ERROR ->
  is_decrypt_mode (s_mode s) = true -> keys_right log -> hb ++ ha ++ body_wire l ++ tr = win ++ z ->
  prefix wout (body_text l) /\ (is_done s = true -> z = [] /\ wout = body_text l).
Proof.
  intros s win wout log z I NE DM KR E.
  assert (OUT : (wout = [] /\ is_done s = false) \/ (wout <> [] \/ is_done s = true)).
  { destruct wout; [|right; left; discriminate]. destruct (is_done s); auto. }
  destruct OUT as [[-> ->]|OUT]; [split; [apply prefix_nil|discriminate]|].
  destruct (dec_shape _ _ _ _ _ I NE DM OUT) as [i [l1 [tr1 [trlog [DO [DB [CONF [E1 [E2 [E3 [BS [FIN _]]]]]]]]]]]].
  rewrite E1 in E. rewrite <- !app_assoc in E.
  assert (IN : In (EvUnwrap (di_rq i) (di_m i)) log) by (rewrite E3; now left).
  destruct (in_message _ _ _ _ _ DO DB KR IN BS E) as [HH [HD [RR [KK [PF DS]]]]].
  rewrite E2. split; [now apply prefix_body_text|]. intros D. destruct (FIN D) as [W DT].
  pose proof (whole_prefix _ _ W (or_intror (vm_whole _ _ _ _ _ _ _ _ _ VM)) PF) as ->. apply app_inv_head in RR.
  split; auto. pose proof (f_equal h_alg_id HH) as HAL. cbn in HAL.
  pose proof (do_lookup _ _ _ DO) as LK. rewrite HAL in LK. pose proof (sig_len_spec _ _ LK) as SLS.
  destruct DT as [Z|sc sg NZ SG VER LS].
  - rewrite Z in SLS. change (0 =? 0) with true in SLS. cbn [app] in RR. rewrite RR.
    apply (vm_unsigned _ _ _ _ _ _ _ _ _ VM). intros S. apply SLS in S. discriminate.
  - destruct SLS as [SLS _]. assert (S : In (h_alg_id h) signed_suites) by (apply SLS; now apply N.eqb_neq).
    destruct (vm_signed _ _ _ _ _ _ _ _ _ VM S) as [sc' [sg' [V [ET [LS' _]]]]]. rewrite ET in RR.
    unfold wire_trailer, field16 in RR. rewrite <- app_assoc in RR.
    apply app_inj_len in RR; [|reflexivity]. destruct RR as [R1 R2].
    pose proof (u16_inj _ _ LS LS' R1) as R3. rewrite <- (app_nil_r sg') in R2.
    apply app_inj_len in R2; [|unfold Nlen in R3; lia]. tauto.
Qed.

(** ** Feeding the message *)
Definition feeding (w : world) : Prop :=
  winv cr w /\ s_state (w_s w) <> ST_ERROR /\ accepts (w_s w) h /\ keys_right (w_log w) /\
  prefix (w_in w) (hb ++ ha ++ body_wire l ++ tr).

Lemma vcall : forall w e cap input, feeding w -> bytes_ok (hb ++ ha ++ body_wire l ++ tr) ->
  can_decrypt (s_mode (w_s w)) dk vk h e -> prefix (w_in w ++ input) (hb ++ ha ++ body_wire l ++ tr) ->
  feeding (fst (exec cr w (OProcess e cap input))) /\ o_rc (snd (exec cr w (OProcess e cap input))) = POk /\
  s_mode (w_s (fst (exec cr w (OProcess e cap input)))) = s_mode (w_s w) /\
  (w_in w ++ input = hb ++ ha ++ body_wire l ++ tr -> Nlen (body_text l) <= Nlen (w_out w) + cap ->
   is_done (w_s (fst (exec cr w (OProcess e cap input)))) = true).
Proof.
  intros w e cap input [I [NE [AC [KR PF]]]] BM CD [z E]. rewrite <- app_assoc in E.
  assert (BO : bytes_ok input).
  { rewrite E in BM. apply Forall_app in BM. destruct BM as [_ BM]. apply Forall_app in BM. tauto. }
  unfold winv in I.
  assert (I' : inv cr (w_s w) (w_in w) (w_out w ++ []) (w_log w ++ [])) by now rewrite !app_nil_r.
  assert (KR' : keys_right (w_log w ++ [])) by now rewrite app_nil_r.
  pose proof (vloop (loop_fuel input) e (w_s w) cap input [] [] (w_in w) (w_out w) (w_log w) z BO I' NE AC CD KR' E) as V. cbn zeta in V.
  pose proof (loop_good (loop_fuel input) cr e (w_s w) cap input [] [] _ _ _ CS BO I') as L. cbn zeta in L.
  cbn [exec]. unfold after_process, process.
  set (q := process_loop _ _ _ _ _ _ _ _) in *. clearbody q.
  destruct V as [RC [KQ DN]]. destruct L as [C [used [EI [[more [EM MR]] P]]]]. cbn [app] in EM. subst more.
  destruct RC as [RC|RC]; rewrite RC in *.
  2:{ exfalso. unfold loop_fuel in P. assert ((rank (s_state (w_s w)) <= 9)%nat) by (destruct (s_state (w_s w)); cbn; lia). lia. }
  destruct P as [P1 [P2 [P3 _]]]. destruct (sstate_eqb_spec (s_state (lr_sess q)) ST_ERROR) as [Z|_]; [contradiction|].
  cbn [pr_rc pr_sess pr_read pr_mem pr_log pr_written fst snd w_s w_in w_out w_log o_rc].
  assert (U : firstn (N.to_nat (Nlen input - Nlen (lr_in q))) input = used) by (rewrite EI at 2; rewrite EI at 1; apply firstn_used).
  rewrite U. split.
  { unfold feeding, winv. cbn [w_s w_in w_out w_log]. split; [exact P1|]. split; [exact P3|].
    split; [eapply accepts_conf; eauto|]. split; [exact KQ|].
    exists (lr_in q ++ z). rewrite E, EI at 1. now rewrite <- !app_assoc. }
  split; [reflexivity|]. split; [apply C|]. intros EF B.
  assert (z = []) as ->.
  { rewrite (app_assoc (w_in w)), EF in E. rewrite <- (app_nil_r (hb ++ ha ++ body_wire l ++ tr)) in E at 1. apply app_inv_head in E. auto. }
  unfold is_done. rewrite DN; auto. now rewrite app_nil_r.
Qed.

Lemma feed_feeding : forall w rs w', feed cr (can_decrypt (s_mode (w_s w)) dk vk h) (hb ++ ha ++ body_wire l ++ tr) w rs w' ->
  bytes_ok (hb ++ ha ++ body_wire l ++ tr) -> feeding w ->
  feeding w' /\ s_mode (w_s w') = s_mode (w_s w) /\ Forall (fun r => o_rc r = POk) rs.
Proof.
  intros w rs w' F BM. remember (s_mode (w_s w)) as m eqn:M.
  induction F as [w|w e cap input w1 r rs w2 G PF EX F IH]; intros FW; [auto|].
  rewrite M in G. destruct (vcall w e cap input FW BM G PF) as [F1 [R1 [M1 _]]].
  rewrite EX in *. cbn [fst snd] in *.
  destruct (IH ltac:(congruence) F1) as [F2 [M2 R2]]. split; auto.
Qed.
End Forward.

(** ** C13, the decrypting side *)
Lemma decrypts : forall cr dk vk h hb ha key l tr m ops w rs w', crypto_sizes cr -> updates_ok cr ->
  valid_message cr dk vk h hb ha key l tr -> bytes_ok (hb ++ ha ++ body_wire l ++ tr) ->
  history cr m ops w -> s_state (w_s w) = ST_CONFIG -> accepts (w_s w) h ->
  feed cr (can_decrypt (s_mode (w_s w)) dk vk h) (hb ++ ha ++ body_wire l ++ tr) w rs w' ->
  Forall (fun r => o_rc r = POk) rs /\ prefix (w_out w') (body_text l) /\
  (is_done (w_s w') = true -> w_in w' = hb ++ ha ++ body_wire l ++ tr /\ w_out w' = body_text l) /\
  (forall e cap input, can_decrypt (s_mode (w_s w)) dk vk h e -> w_in w' ++ input = hb ++ ha ++ body_wire l ++ tr ->
     Nlen (body_text l) <= Nlen (w_out w') + cap ->
     let w2 := fst (exec cr w' (OProcess e cap input)) in is_done (w_s w2) = true /\ w_out w2 = body_text l).
Proof.
  intros cr dk vk h hb ha key l tr m ops w rs w' CS UP VM BM H ST AC F.
  pose proof (history_inv _ _ _ _ CS H) as I.
  assert (E0 : w_in w = [] /\ w_log w = []).
  { unfold winv in I. inversion I; subst; try congruence; auto.
    match goal with H : _ \/ _ |- _ => destruct H as [|[]]; congruence end. }
  assert (F0 : feeding cr dk vk h hb ha l tr w).
  { split; [exact I|]. split; [congruence|]. split; [exact AC|]. destruct E0 as [-> ->].
    split; [intros dm []|apply prefix_nil]. }
  destruct (feed_feeding _ _ _ _ _ _ _ _ _ CS UP VM _ _ _ F BM F0) as [F1 [M1 R1]].
  assert (SH : forall w1, feeding cr dk vk h hb ha l tr w1 -> prefix (w_out w1) (body_text l) /\
    (is_done (w_s w1) = true -> w_in w1 = hb ++ ha ++ body_wire l ++ tr /\ w_out w1 = body_text l)).
  { intros w1 [I1 [NE1 [AC1 [KR1 [z PF1]]]]].
    destruct (vshape _ _ _ _ _ _ _ _ _ VM _ _ _ _ z I1 NE1 (proj1 AC1) KR1 PF1) as [S1 S2]. split; auto.
    intros D. destruct (S2 D) as [-> S3]. rewrite app_nil_r in PF1. auto. }
  split; auto. destruct (SH _ F1) as [S1 S2]. split; auto. split; auto.
  intros e cap input CD E B. cbn zeta. rewrite <- M1 in CD.
  assert (PF : prefix (w_in w' ++ input) (hb ++ ha ++ body_wire l ++ tr)) by (rewrite E; apply prefix_refl).
  destruct (vcall _ _ _ _ _ _ _ _ _ CS UP VM w' e cap input F1 BM CD PF) as [F2 [_ [_ D]]].
  specialize (D E B). split; auto. now apply SH.
Qed.
