(** Whatever an encrypting session writes, a decrypting session reads back. *)
From Verif Require Import Base AlgModel EncCtxModel HdrModel FrameModel CryptoModel SessionModel
  BaseProofs WireSpec SessionSpec StreamSpec EncCtxProofs HdrProofs FrameProofs SessionBase SessionInv SessionStep SessionStepD
  SessionRun SessionTheorems SessionStream SessionForward CodecTheorems.
From Coq Require Import Permutation ZArith ZifyBool ZifyNat ZifyN.
Import List.
Open Scope list_scope.
Open Scope N_scope.

Lemma hdr_write_ctx : forall h n out, hdr_write h n = Ok out -> ctx_fits (h_enc_ctx h).
Proof.
  intros h n out W. unfold hdr_write in W. destruct (alg_lookup (h_alg_id h)); [|discriminate].
  destruct (enc_ctx_serialize _ _ _) eqn:S; [|discriminate]. rewrite serialize_spec in S. unfold ctx_fits.
  destruct (N.ltb_spec 65535 (Nlen (wire_ctx (h_enc_ctx h)))); [discriminate|lia].
Qed.

Lemma sealed_opened : forall cr key mid fs x, dec_inverts cr -> sealed cr key mid fs x -> opened cr key mid fs x.
Proof.
  intros cr key mid fs [f pt] DI [W [_ [_ [L E]]]]. split; auto. split; auto. apply DI in E. now rewrite L.
Qed.

(** The header of a session that has encrypted, as it will be parsed. *)
Lemma enc_header : forall cr s i, crypto_sizes cr -> dec_inverts cr -> enc_ok cr s i -> s_fsize s < 4294967296 ->
  distinct_keys (ei_ctx i) -> Nlen (em_edks (ei_m i)) <= 65535 -> Forall edk_fits (em_edks (ei_m i)) ->
  exists h hb ha iv, authentic_header cr (em_key (ei_m i)) h hb ha iv (ei_key i) /\ hb ++ ha = ei_head i /\
    h_alg_id h = ei_alg i /\ h_edks h = em_edks (ei_m i) /\ Permutation (h_enc_ctx h) (ei_ctx i) /\
    h_message_id h = ei_mid i /\ h_frame_len h = s_fsize s /\
    (is_v2 h -> key_commitment cr (ei_mid i) (em_key (ei_m i)) (h_alg_suite_data h)).
Proof.
  intros cr s i CS DI EO FS DK NE EF. pose proof (eo_write _ _ _ EO) as WR. pose proof (hdr_write_ctx _ _ _ WR) as CF.
  set (h := s_hdr s) in *. pose proof (eo_hdr _ _ _ EO) as EH. fold h in EH.
  destruct (known_suite_lookup (ei_alg i)) as [p LK]; [eapply alg_lookup_cases; apply (eo_lookup _ _ _ EO)|].
  assert (RP : hdr_representable h).
  { rewrite EH. unfold hdr_representable, is_v1, is_v2.
    cbn [h_alg_id h_frame_len h_iv h_auth_tag h_message_id h_alg_suite_data h_enc_ctx h_edks h_auth_len].
    rewrite EH in CF. cbn [h_enc_ctx] in CF. pose proof (eo_tag _ _ _ EO). pose proof (eo_iv _ _ _ EO). pose proof (eo_edks _ _ _ EO).
    split.
    - destruct (enc_mid_len _ _ _ EO) as [[V M]|[V M]].
      + left. destruct (eo_suite _ _ _ EO) as [[_ [S _]]|[V2 _]]; [auto|destruct (v1_not_v2 _ V V2)].
      + right. destruct (eo_suite _ _ _ EO) as [[V1 _]|[_ [_ S]]]; [destruct (v1_not_v2 _ V1 V)|auto].
    - repeat split; auto; lia. }
  rewrite hdr_write_spec in WR by now apply representable_fits.
  destruct (_ <? _); [discriminate|]. assert (WB : wire_bytes h = ei_head i) by congruence. clear WR.
  assert (AL : h_alg_id h = ei_alg i) by (rewrite EH; reflexivity).
  assert (AU : wire_auth h = ei_auth i).
  { unfold wire_auth, ei_auth. rewrite EH. reflexivity. }
  assert (AAD : wire_body (with_ctx h (ctx_sort (h_enc_ctx h))) = ei_aad i).
  { unfold wire_bytes, ei_head in WB. rewrite AU in WB. now apply app_inv_tail in WB. }
  exists (norm_iv h), (wire_body (with_ctx h (ctx_sort (h_enc_ctx h)))), (wire_auth h), (msg_iv 0).
  assert (D' : distinct_keys (ctx_sort (h_enc_ctx h))).
  { eapply distinct_perm; [apply Permutation_sym; apply ctx_sort_perm|]. rewrite EH. exact DK. }
  assert (F' : ctx_fits (ctx_sort (h_enc_ctx h))).
  { unfold ctx_fits in *. now rewrite (Nlen_wire_ctx_perm _ _ (ctx_sort_perm (h_enc_ctx h))). }
  assert (TAG : h_auth_tag h = ei_tag i) by (rewrite EH; reflexivity).
  split.
  { destruct RP as [V [T [FL [D [F [L EF']]]]]]. constructor.
    - unfold hdr_wf, norm_iv, is_v1, is_v2 in *. cbn [h_alg_id h_frame_len h_iv h_auth_tag h_message_id h_alg_suite_data h_enc_ctx h_edks h_auth_len].
      split; [|intuition auto].
      destruct V as [[V M]|[V M]]; [left|right].
      + destruct (in_v1_cases _ V) as [q Q]. assert (alg_is_committing (h_alg_id h) = false) as -> by tauto. tauto.
      + destruct (in_v2_cases _ V) as [q Q]. assert (alg_is_committing (h_alg_id h) = true) as -> by tauto. tauto.
    - rewrite wire_header_fun. unfold is_v1, is_v2 in *. destruct V as [[V M]|[V M]].
      + destruct (in_v1_cases _ V) as [q Q]. assert (CM : alg_is_committing (h_alg_id h) = false) by tauto.
        unfold is_v1, wire_body, wire_auth, norm_iv, with_ctx, wire_body_v1. cbn. rewrite CM. auto.
      + destruct (in_v2_cases _ V) as [q Q]. assert (CM : alg_is_committing (h_alg_id h) = true) by tauto.
        unfold is_v2, wire_body, wire_auth, norm_iv, with_ctx, wire_body_v2. cbn. rewrite CM. auto.
    - pose proof (eo_content _ _ _ EO) as CK. unfold norm_iv. cbn [h_alg_id h_message_id]. rewrite EH. exact CK.
    - intros V1. unfold is_v1, norm_iv in V1. cbn [h_alg_id] in V1.
      unfold norm_iv. cbn [h_iv]. destruct (in_v1_cases _ V1) as [q Q]. assert (alg_is_committing (h_alg_id h) = false) as -> by tauto.
      rewrite AL in V1. destruct (eo_suite _ _ _ EO) as [[_ [_ IV]]|[V2 _]]; [|destruct (v1_not_v2 _ V1 V2)].
      rewrite EH. cbn [h_iv]. rewrite IV. symmetry. exact msg_iv_0.
    - reflexivity.
    - change (h_auth_tag (norm_iv h)) with (h_auth_tag h). rewrite TAG, AAD. apply DI. apply (eo_enc _ _ _ EO). }
  split; [exact WB|]. split; [exact AL|]. split; [unfold norm_iv; cbn [h_edks]; rewrite EH; reflexivity|].
  split; [unfold norm_iv; cbn [h_enc_ctx]; rewrite EH; apply ctx_sort_perm|].
  split; [unfold norm_iv; cbn [h_message_id]; rewrite EH; reflexivity|].
  split; [unfold norm_iv; cbn [h_frame_len]; rewrite EH; reflexivity|].
  intros V2. unfold is_v2, norm_iv in V2. cbn [h_alg_id] in V2. rewrite AL in V2.
  destruct (eo_suite _ _ _ EO) as [[V1 _]|[_ [KC _]]]; [destruct (v1_not_v2 _ V1 V2)|].
  unfold norm_iv. cbn [h_alg_suite_data]. rewrite EH. exact KC.
Qed.

(** ** C13 *)
Lemma C13_lemma : forall cr m ops w rq ctx em vk md opsd wd rs wd', crypto_sizes cr -> dec_inverts cr -> updates_ok cr ->
  history cr m ops w -> s_mode (w_s w) = M_ENCRYPT -> is_done (w_s w) = true ->
  In (EvGen rq ctx em) (w_log w) -> distinct_keys ctx -> Nlen (em_edks em) <= 65535 -> Forall edk_fits (em_edks em) ->
  signatures_verify cr em vk (w_log w) -> bytes_ok (w_out w) ->
  history cr md opsd wd -> is_decrypt_mode (s_mode (w_s wd)) = true -> s_state (w_s wd) = ST_CONFIG ->
  policy_permits_decrypt (s_policy (w_s wd)) (em_alg em) ->
  (s_max (w_s wd) = 0 \/ Nlen (em_edks em) <= s_max (w_s wd)) ->
  feed cr (unwraps (s_mode (w_s wd)) ctx em vk) (w_out w) wd rs wd' ->
  Forall (fun r => o_rc r = POk) rs /\ prefix (w_out wd') (w_in w) /\
  (is_done (w_s wd') = true -> w_in wd' = w_out w /\ w_out wd' = w_in w) /\
  (forall e cap input, unwraps (s_mode (w_s wd)) ctx em vk e -> w_in wd' ++ input = w_out w ->
     Nlen (w_in w) <= Nlen (w_out wd') + cap ->
     let w2 := fst (exec cr wd' (OProcess e cap input)) in is_done (w_s w2) = true /\ w_out w2 = w_in w).
Proof.
  intros cr m ops w rq ctx em vk md opsd wd rs wd' CS DI UP H EM D GEN DK NE EF SV BM HD DM CONF POL MAX FEED.
  pose proof (history_inv _ _ _ _ CS H) as I. unfold winv in I.
  destruct (enc_shape _ _ _ _ _ I (done_live _ D) EM (or_intror D)) as [i [l [tr [trlog [EO [SE [CF [E1 [E2 [E3 [BS [FIN _]]]]]]]]]]]].
  destruct (FIN D) as [WB [ET _]].
  assert (GE : ctx = ei_ctx i /\ em = ei_m i).
  { rewrite E3 in GEN. unfold elog, enc_log in GEN. cbn [app In] in GEN.
    destruct GEN as [G|[G|[G|G]]]; try discriminate; [injection G as _ <- <-; auto|].
    exfalso. apply in_app_or in G. destruct G as [G|G].
    - apply in_map_iff in G. destruct G as [[f p] [G _]]. discriminate.
    - destruct ET; [destruct G|destruct G as [G|[]]; discriminate]. }
  destruct GE as [-> ->].
  destruct (enc_header _ _ _ CS DI EO (proj1 CF) DK NE EF) as [h [hb [ha [iv [AH [HH [HA [HE [HC [HM [HF COM]]]]]]]]]]].
  assert (VM : valid_message cr (em_key (ei_m i)) vk h hb ha (ei_key i) l tr).
  { pose proof (sig_len_spec _ _ (eo_lookup _ _ _ EO)) as SLS.
    constructor.
    - eauto.
    - rewrite HH, (eo_size _ _ _ EO). apply (eo_small _ _ _ EO).
    - rewrite HA, (eo_dk _ _ _ EO). destruct (suite_facts _ _ (eo_lookup _ _ _ EO)) as [_ [_ [DKL _]]]. exact DKL.
    - rewrite HM. exact COM.
    - rewrite HM, HF. eapply Forall_impl; [|exact SE]. intros x. now apply sealed_opened.
    - exact WB.
    - rewrite HA. intros S. apply SLS in S. destruct ET as [Z|sc sg Z SG]; [rewrite Z in S; discriminate|].
      destruct (SV sc sg) as [v [-> [LS [DV VER]]]]; [rewrite E3; apply in_or_app; right; now left|].
      exists v, sg. split; auto. split; [rewrite be2 by auto; reflexivity|]. split; auto.
      destruct (em_sig (ei_m i)) as [sc0|]; cbn [signed_so_far] in SG; [|discriminate]. injection SG as <-.
      cbn [sc_data] in VER. rewrite (DV _ eq_refl). rewrite (app_assoc hb), HH. exact VER.
    - rewrite HA. intros S. destruct ET as [Z|sc sg Z SG]; auto. exfalso. apply S, SLS. now apply N.eqb_neq. }
  assert (EQ : w_out w = hb ++ ha ++ body_wire l ++ tr) by (rewrite E1, <- HH, <- app_assoc; reflexivity).
  assert (UC : forall e, unwraps (s_mode (w_s wd)) (ei_ctx i) (ei_m i) vk e -> can_decrypt (s_mode (w_s wd)) (em_key (ei_m i)) vk h e).
  { intros e U. destruct (U (h_enc_ctx h) HC) as [dm [DEC R]]. exists dm. rewrite HA, HE. auto. }
  rewrite EQ in *. rewrite E2.
  assert (FEED' : feed cr (can_decrypt (s_mode (w_s wd)) (em_key (ei_m i)) vk h) (hb ++ ha ++ body_wire l ++ tr) wd rs wd').
  { clear - FEED UC. remember (s_mode (w_s wd)) as md. clear Heqmd.
    induction FEED as [|w0 e cap input w1 r rs w2 G P X F IH]; [constructor|].
    eapply feed_call; [apply UC; exact G|exact P|exact X|exact IH]. }
  assert (AC : accepts (w_s wd) h).
  { split; auto. rewrite HA. split; auto. unfold edk_limit_ok. rewrite HE. exact MAX. }
  destruct (decrypts _ _ _ _ _ _ _ _ _ _ _ _ _ _ CS UP VM BM HD CONF AC FEED') as [R1 [R2 [R3 R4]]].
  split; auto. split; auto. split; auto. intros e cap input U. apply R4. now apply UC.
Qed.
