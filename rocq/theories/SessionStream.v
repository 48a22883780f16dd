(** Theorems relating two sessions: buffering does not matter, tampering is detected. *)
From Verif Require Import Base AlgModel EncCtxModel HdrModel FrameModel CryptoModel SessionModel
  BaseProofs WireSpec SessionSpec EncCtxProofs HdrProofs FrameProofs SessionBase SessionInv SessionStep SessionStepD SessionRun
  SessionTheorems.
From Coq Require Import Permutation ZArith ZifyBool ZifyNat ZifyN.
Import List.
Open Scope list_scope.
Open Scope N_scope.

(** ** Reading is unambiguous *)

Definition with_al (n : N) (h : hdr) : hdr :=
  mk_hdr (h_alg_id h) (h_frame_len h) (h_iv h) (h_auth_tag h) (h_message_id h) (h_alg_suite_data h) (h_enc_ctx h) (h_edks h) n.

Lemma two_headers : forall h1 b1 a1 r1 h2 b2 a2 r2,
  hdr_wf h1 -> wire_header h1 b1 a1 -> hdr_wf h2 -> wire_header h2 b2 a2 ->
  b1 ++ a1 ++ r1 = b2 ++ a2 ++ r2 -> with_al 0 h1 = with_al 0 h2 /\ b1 = b2 /\ a1 = a2 /\ r1 = r2.
Proof.
  intros h1 b1 a1 r1 h2 b2 a2 r2 WF1 W1 WF2 W2 E.
  assert (P : forall h b a r, hdr_wf h -> wire_header h b a -> hdr_parse 0 (b ++ a ++ r) = Ok (with_al (Nlen b) h, r)).
  { intros h b a r WF W. apply hdr_parse_complete; auto.
    - now left.
    - destruct W as [V|V]; [exact (wire_v1 (with_al _ h) V)|exact (wire_v2 (with_al _ h) V)]. }
  pose proof (P _ _ _ r1 WF1 W1) as P1. pose proof (P _ _ _ r2 WF2 W2) as P2. rewrite E, P2 in P1.
  apply Ok_pair_inj in P1. destruct P1 as [PH PR].
  assert (NB : Nlen b1 = Nlen b2) by (apply (f_equal h_auth_len) in PH; cbn in PH; auto).
  apply app_inj_len in E; [|unfold Nlen in NB; lia]. destruct E as [-> E]. subst r2. apply app_inv_tail in E.
  repeat split; auto. apply (f_equal (with_al 0)) in PH. cbn in PH. symmetry. exact PH.
Qed.

Lemma two_frames : forall fs f1 r1 f2 r2, fs < 4294967296 -> frame_wf fs f1 -> frame_wf fs f2 ->
  wire_frame f1 ++ r1 = wire_frame f2 ++ r2 -> f1 = f2 /\ r1 = r2.
Proof.
  intros fs f1 r1 f2 r2 FS F1 F2 E.
  assert (SL : std_lens (mk_alg_props 0x0178 None 1 32 32 12 16 0 0 0)) by (split; reflexivity).
  pose proof (deserialize_frame_complete _ fs f1 r1 SL FS F1) as D1.
  pose proof (deserialize_frame_complete _ fs f2 r2 SL FS F2) as D2. rewrite E, D2 in D1.
  assert (D : Ok (f2, r2) = Ok (f1, r1)) by congruence. apply Ok_pair_inj in D. destruct D. auto.
Qed.

Lemma prefix_refl : forall A (x : list A), prefix x x.
Proof. intros A x. exists []. now rewrite app_nil_r. Qed.
Lemma prefix_nil : forall A (x : list A), prefix [] x.
Proof. intros A x. exists x. reflexivity. Qed.
Lemma prefix_cons : forall A (a : A) x y, prefix x y -> prefix (a :: x) (a :: y).
Proof. intros A a x y [z ->]. exists z. reflexivity. Qed.
Lemma prefix_app : forall A (a x y : list A), prefix x y -> prefix (a ++ x) (a ++ y).
Proof. intros A a x y [z ->]. exists z. now rewrite app_assoc. Qed.
Lemma prefix_body_text : forall l1 l2, prefix l1 l2 -> prefix (body_text l1) (body_text l2).
Proof. intros l1 l2 [z ->]. exists (body_text z). unfold body_text. now rewrite map_app, concat_app. Qed.
Lemma prefix_body_wire : forall l1 l2, prefix l1 l2 -> prefix (body_wire l1) (body_wire l2).
Proof. intros l1 l2 [z ->]. exists (body_wire z). unfold body_wire. now rewrite map_app, concat_app. Qed.

Lemma two_bodies : forall cr key mid fs l1 r1 l2 r2, fs < 4294967296 ->
  Forall (opened cr key mid fs) l1 -> Forall (opened cr key mid fs) l2 ->
  body_wire l1 ++ r1 = body_wire l2 ++ r2 -> prefix l1 l2 \/ prefix l2 l1.
Proof.
  intros cr key mid fs l1 r1 l2 r2 FS. revert r1 l2 r2. induction l1 as [|[f1 p1] l1 IH]; intros r1 l2 r2 F1 F2 E.
  { left. apply prefix_nil. }
  destruct l2 as [|[f2 p2] l2]; [right; apply prefix_nil|].
  inversion F1 as [|? ? O1 F1']; inversion F2 as [|? ? O2 F2']; subst.
  change (body_wire ((f1, p1) :: l1)) with (wire_frame f1 ++ body_wire l1) in E.
  change (body_wire ((f2, p2) :: l2)) with (wire_frame f2 ++ body_wire l2) in E. rewrite <- !app_assoc in E.
  destruct O1 as [W1 [L1 D1]], O2 as [W2 [L2 D2]].
  destruct (two_frames _ _ _ _ _ FS W1 W2 E) as [-> E']. rewrite D1 in D2. injection D2 as ->.
  destruct (IH _ _ _ F1' F2' E'); [left|right]; now apply prefix_cons.
Qed.

Lemma regular_app : forall l1 l2 n, regular_from n (l1 ++ l2) -> regular_from n l1 /\ regular_from (n + Nlen l1) l2.
Proof.
  induction l1 as [|[f p] l1 IH]; intros l2 n R.
  - split; [exact Logic.I|]. now rewrite Nlen_nil, N.add_0_r.
  - destruct R as [T [S R]]. destruct (IH _ _ R) as [R1 R2]. split; [repeat split; auto|].
    rewrite Nlen_cons. replace (n + (1 + Nlen l1)) with (n + 1 + Nlen l1) by lia. exact R2.
Qed.
Lemma regular_types : forall l n f p, regular_from n l -> In (f, p) l -> fr_type f = FRAME_TYPE_FRAME.
Proof.
  induction l as [|[g q] l IH]; intros n f p R I; [destruct I|]. destruct R as [T [S R]].
  destruct I as [E|I]; [congruence|eauto].
Qed.

(** A whole body cannot be continued. *)
Lemma whole_prefix : forall l1 l2, whole_body l1 -> body_so_far l2 -> prefix l1 l2 -> l1 = l2.
Proof.
  intros l1 l2 [l0 [f [p [-> [R [S T]]]]]] B [z E]. destruct z as [|x z]; [now rewrite app_nil_r in E|]. exfalso. apply T.
  destruct B as [R2|[l0' [f' [p' [E' [R' _]]]]]].
  - apply (regular_types _ _ _ p R2). rewrite E, !in_app_iff. cbn. auto.
  - assert (I : In (f, p) l0').
    { rewrite E in E'. assert (X : exists y u, x :: z = u ++ [y]).
      { exists (last (x :: z) x), (removelast (x :: z)). apply app_removelast_last. discriminate. }
      destruct X as [y [u X]]. rewrite X, app_assoc in E'. apply app_inj_tail in E'. destruct E' as [<- _].
      rewrite !in_app_iff. cbn. auto. }
    exact (regular_types _ _ _ _ R' I).
Qed.

(** ** C15 *)
Lemma content_key_eq : forall cr a1 a2 m1 m2 d1 d2 k1 k2, content_key cr a1 m1 d1 k1 -> content_key cr a2 m2 d2 k2 ->
  a1 = a2 -> m1 = m2 -> d1 = d2 -> k1 = k2.
Proof. intros. subst. eapply content_key_fun; eauto. Qed.

Lemma two_decs : forall cr s1 i1 r1 s2 i2 r2, dec_ok cr s1 i1 -> dec_ok cr s2 i2 ->
  di_head i1 ++ r1 = di_head i2 ++ r2 ->
  (di_rq i1 = di_rq i2 -> dm_key (di_m i1) = dm_key (di_m i2)) ->
  with_al 0 (s_hdr s1) = with_al 0 (s_hdr s2) /\ di_head i1 = di_head i2 /\ r1 = r2 /\ di_key i1 = di_key i2.
Proof.
  intros cr s1 i1 r1 s2 i2 r2 D1 D2 E K. unfold di_head in *. rewrite <- !app_assoc in E.
  destruct (two_headers _ _ _ _ _ _ _ _ (do_wf _ _ _ D1) (do_wire _ _ _ D1) (do_wf _ _ _ D2) (do_wire _ _ _ D2) E)
    as [H [B [A R]]].
  pose proof (f_equal h_alg_id H) as HA. pose proof (f_equal h_message_id H) as HM.
  pose proof (f_equal h_edks H) as HE. pose proof (f_equal h_enc_ctx H) as HC. cbn in HA, HM, HE, HC.
  repeat split; auto; [congruence|].
  eapply content_key_eq; [apply D1|apply D2|exact HA|exact HM|]. apply K.
  rewrite (do_rq _ _ _ D1), (do_rq _ _ _ D2). congruence.
Qed.

Lemma two_trailers : forall cr1 i1 l1 tr1 g1 z1 cr2 i2 l2 tr2 g2 z2, dtrailer cr1 i1 l1 tr1 g1 -> dtrailer cr2 i2 l2 tr2 g2 ->
  ap_sig_len (di_p i1) = ap_sig_len (di_p i2) -> tr1 ++ z1 = tr2 ++ z2 -> tr1 = tr2.
Proof.
  intros cr1 i1 l1 tr1 g1 z1 cr2 i2 l2 tr2 g2 z2 [Z1|sc1 sg1 Z1 S1 V1 B1] [Z2|sc2 sg2 Z2 S2 V2 B2] SL E; try congruence.
  unfold wire_trailer, field16 in *. rewrite <- !app_assoc in E.
  apply app_inj_len in E; [|reflexivity]. destruct E as [E1 E2].
  pose proof (u16_inj _ _ B1 B2 E1) as E3.
  apply app_inj_len in E2; [|unfold Nlen in E3; lia]. destruct E2 as [-> _]. reflexivity.
Qed.

Lemma C15_lemma : forall cr m1 ops1 w1 m2 ops2 w2 stream, crypto_sizes cr ->
  history cr m1 ops1 w1 -> history cr m2 ops2 w2 ->
  is_decrypt_mode (s_mode (w_s w1)) = true -> is_decrypt_mode (s_mode (w_s w2)) = true ->
  prefix (w_in w1) stream -> prefix (w_in w2) stream ->
  (forall rq dm1 dm2, In (EvUnwrap rq dm1) (w_log w1) -> In (EvUnwrap rq dm2) (w_log w2) -> dm_key dm1 = dm_key dm2) ->
  (prefix (w_out w1) (w_out w2) \/ prefix (w_out w2) (w_out w1)) /\
  (is_done (w_s w1) = true -> prefix (w_out w2) (w_out w1)) /\
  (is_done (w_s w1) = true -> is_done (w_s w2) = true -> w_in w1 = w_in w2 /\ w_out w1 = w_out w2).
Proof.
  intros cr m1 ops1 w1 m2 ops2 w2 stream CS H1 H2 DM1 DM2 [z1 P1] [z2 P2] SAME.
  pose proof (history_inv _ _ _ _ CS H1) as I1. pose proof (history_inv _ _ _ _ CS H2) as I2. unfold winv in *.
  destruct (inv_live _ _ _ _ _ I1) as [s1 [log1 [more1 [EL1 [J1 [NE1 [MD1 LIVE1]]]]]]].
  destruct (inv_live _ _ _ _ _ I2) as [s2 [log2 [more2 [EL2 [J2 [NE2 [MD2 LIVE2]]]]]]].
  assert (D1 : is_done (w_s w1) = true -> is_done s1 = true).
  { intros D. destruct (LIVE1 (done_live _ D)) as [-> _]. exact D. }
  assert (D2 : is_done (w_s w2) = true -> is_done s2 = true).
  { intros D. destruct (LIVE2 (done_live _ D)) as [-> _]. exact D. }
  assert (OUT1 : (w_out w1 = [] /\ is_done (w_s w1) = false) \/ (w_out w1 <> [] \/ is_done s1 = true)).
  { destruct (w_out w1); [|right; left; discriminate]. destruct (is_done (w_s w1)); auto. }
  assert (OUT2 : (w_out w2 = [] /\ is_done (w_s w2) = false) \/ (w_out w2 <> [] \/ is_done s2 = true)).
  { destruct (w_out w2); [|right; left; discriminate]. destruct (is_done (w_s w2)); auto. }
  destruct OUT1 as [[-> ->]|OUT1]; [split; [left; apply prefix_nil|]; split; discriminate|].
  destruct OUT2 as [[-> ->]|OUT2]; [split; [right; apply prefix_nil|]; split; [intros _; apply prefix_nil|discriminate]|].
  assert (DD1 : is_decrypt_mode (s_mode s1) = true) by (rewrite MD1; auto using decrypt_mode_valid).
  assert (DD2 : is_decrypt_mode (s_mode s2) = true) by (rewrite MD2; auto using decrypt_mode_valid).
  destruct (dec_shape _ _ _ _ _ J1 NE1 DD1 OUT1) as [i1 [l1 [tr1 [tl1 [DO1 [DB1 [CF1 [EI1 [EO1 [EG1 [BS1 [FIN1 _]]]]]]]]]]]].
  destruct (dec_shape _ _ _ _ _ J2 NE2 DD2 OUT2) as [i2 [l2 [tr2 [tl2 [DO2 [DB2 [CF2 [EI2 [EO2 [EG2 [BS2 [FIN2 _]]]]]]]]]]]].
  assert (E : di_head i1 ++ (body_wire l1 ++ tr1 ++ z1) = di_head i2 ++ (body_wire l2 ++ tr2 ++ z2)).
  { rewrite EI1, EI2 in *. rewrite <- !app_assoc in P1, P2. congruence. }
  destruct (two_decs cr s1 i1 _ s2 i2 _ DO1 DO2 E) as [HH [HE [RR KK]]].
  { intros R. apply (SAME (di_rq i1)).
    - rewrite EL1, EG1. unfold dlog, dec_log. now left.
    - rewrite R, EL2, EG2. unfold dlog, dec_log. now left. }
  pose proof (f_equal h_alg_id HH) as HA. pose proof (f_equal h_message_id HH) as HM.
  pose proof (f_equal h_frame_len HH) as HF. cbn in HA, HM, HF.
  pose proof (db_opened _ _ _ _ DB1) as O1. pose proof (db_opened _ _ _ _ DB2) as O2.
  rewrite (do_fsize _ _ _ DO1), HF, HM, KK in O1. rewrite (do_fsize _ _ _ DO2) in O2.
  assert (FS : h_frame_len (s_hdr s2) < 4294967296) by (rewrite <- (do_fsize _ _ _ DO2); apply CF2).
  pose proof (two_bodies _ _ _ _ _ _ _ _ FS O1 O2 RR) as CMP.
  assert (WP1 : whole_body l1 -> prefix l2 l1).
  { intros W. destruct CMP as [C|C]; auto. rewrite (whole_prefix _ _ W BS2 C). apply prefix_refl. }
  assert (WP2 : whole_body l2 -> prefix l1 l2).
  { intros W. destruct CMP as [C|C]; auto. rewrite (whole_prefix _ _ W BS1 C). apply prefix_refl. }
  rewrite EO1, EO2. split; [destruct CMP as [C|C]; [left|right]; now apply prefix_body_text|].
  split; [intros D; apply prefix_body_text, WP1, FIN1, D1, D|].
  intros DA DB. destruct (FIN1 (D1 DA)) as [W1 T1], (FIN2 (D2 DB)) as [W2 T2].
  pose proof (whole_prefix _ _ W1 BS2 (WP2 W2)) as EL. subst l2. apply app_inv_head in RR.
  split; [|reflexivity]. rewrite EI1, EI2, HE. repeat f_equal.
  eapply two_trailers; eauto.
  pose proof (do_lookup _ _ _ DO1) as K1. pose proof (do_lookup _ _ _ DO2) as K2. congruence.
Qed.

(** ** C16 *)

(** No serialised header equals the associated data of a frame of a message of the same version. *)
Lemma label_head : forall ty, exists r, text (body_label ty) = [0x41; 0x57; 0x53; 0x4B; 0x4D; 0x53] ++ r.
Proof. intros []; eexists; reflexivity. Qed.

Lemma header_not_aad : forall h b a mid ty n len, hdr_wf h -> wire_header h b a ->
  Nlen mid = Nlen (h_message_id h) -> b <> body_aad mid ty n len.
Proof.
  intros h b a mid ty n len WF W ML E.
  assert (BL : Nlen b <= 32 + 35 + 4 + 8).
  { rewrite E. unfold body_aad. rewrite !Nlen_app, label_len, Nlen_u32, Nlen_u64.
    destruct WF as [[[_ [M _]]|[_ [M _]]] _]; destruct ty; lia. }
  assert (CL : Nlen (wire_ctx (h_enc_ctx h)) <= 65535) by (destruct WF as [_ [_ [_ [_ [C _]]]]]; exact C).
  destruct W as [V|V].
  - assert (M : Nlen (h_message_id h) = 16).
    { destruct WF as [[[_ [M _]]|[V2 _]] _]; auto. destruct (v1_not_v2 _ V V2). }
    unfold wire_body_v1, field16 in *. set (c := wire_ctx _) in *. set (tl := u16 (Nlen (h_edks h)) ++ _) in *. clearbody tl.
    apply (f_equal (skipn 20)) in E.
    change (u8 1 ++ u8 128 ++ u16 (h_alg_id h) ++ h_message_id h ++ (u16 (Nlen c) ++ c) ++ tl)
      with ((u8 1 ++ u8 128 ++ u16 (h_alg_id h)) ++ h_message_id h ++ (u16 (Nlen c) ++ c) ++ tl) in E.
    rewrite (app_assoc _ (h_message_id h)) in E.
    assert (PL : length ((u8 1 ++ u8 128 ++ u16 (h_alg_id h)) ++ h_message_id h) = 20%nat).
    { rewrite app_length. replace (length (h_message_id h)) with 16%nat by (unfold Nlen in M; lia). reflexivity. }
    rewrite skipn_app, PL in E. rewrite skipn_all2 in E by lia. rewrite Nat.sub_diag, skipn_O in E.
    unfold body_aad in E. rewrite skipn_app in E. rewrite (skipn_all2 mid) in E by (unfold Nlen in *; lia).
    replace (20 - length mid)%nat with 4%nat in E by (unfold Nlen in *; lia).
    rewrite !Nlen_app, !Nlen_u16 in BL. clear -E BL CL.
    assert (X : Nlen c / 256 = 0x4D /\ Nlen c mod 256 = 0x53).
    { destruct (label_head ty) as [lr LR]. rewrite LR in E. cbn [app skipn u16] in E. injection E; auto. }
    lia.
  - assert (M : Nlen (h_message_id h) = 32).
    { destruct WF as [[[V1 _]|[_ [M _]]] _]; auto. destruct (v1_not_v2 _ V1 V). }
    unfold wire_body_v2, field16 in *. set (c := wire_ctx _) in *. set (tl := u16 (Nlen (h_edks h)) ++ _) in *. clearbody tl.
    apply (f_equal (skipn 35)) in E.
    change (u8 2 ++ u16 (h_alg_id h) ++ h_message_id h ++ (u16 (Nlen c) ++ c) ++ tl)
      with ((u8 2 ++ u16 (h_alg_id h)) ++ h_message_id h ++ (u16 (Nlen c) ++ c) ++ tl) in E.
    rewrite (app_assoc _ (h_message_id h)) in E.
    assert (PL : length ((u8 2 ++ u16 (h_alg_id h)) ++ h_message_id h) = 35%nat).
    { rewrite app_length. replace (length (h_message_id h)) with 32%nat by (unfold Nlen in M; lia). reflexivity. }
    rewrite skipn_app, PL in E. rewrite skipn_all2 in E by lia. rewrite Nat.sub_diag, skipn_O in E.
    unfold body_aad in E. rewrite skipn_app in E. rewrite (skipn_all2 mid) in E by (unfold Nlen in *; lia).
    replace (35 - length mid)%nat with 3%nat in E by (unfold Nlen in *; lia).
    rewrite !Nlen_app, !Nlen_u16 in BL. clear -E BL CL.
    assert (X : Nlen c / 256 = 0x4B /\ Nlen c mod 256 = 0x4D).
    { destruct (label_head ty) as [lr LR]. rewrite LR in E. cbn [app skipn u16] in E. injection E; auto. }
    lia.
Qed.

Lemma wire_head_start : forall h b a, wire_header h b a -> exists r, b = head_start (h_alg_id h) (h_message_id h) ++ r.
Proof.
  intros h b a [V|V]; unfold head_start.
  - assert (E : existsb (N.eqb (h_alg_id h)) v2_suites = false).
    { apply not_true_is_false. intros E. apply existsb_v2 in E. destruct (v1_not_v2 _ V E). }
    rewrite E. unfold wire_body_v1.
    match goal with |- exists r, _ ++ _ ++ _ ++ _ ++ ?x = _ => exists x end. now rewrite <- !app_assoc.
  - rewrite (proj2 (existsb_v2 _) V). unfold wire_body_v2.
    match goal with |- exists r, _ ++ _ ++ _ ++ ?x = _ => exists x end. now rewrite <- !app_assoc.
Qed.

Lemma enc_aad_start : forall cr s i, enc_ok cr s i -> exists r, ei_aad i = head_start (ei_alg i) (ei_mid i) ++ r.
Proof.
  intros cr s i EO.
  assert (LH : alg_lookup (h_alg_id (s_hdr s)) = Some (ei_p i)) by (rewrite (eo_hdr _ _ _ EO); exact (eo_lookup _ _ _ EO)).
  destruct (hdr_write_ends _ _ _ _ LH (eo_write _ _ _ EO)) as [mp E]. rewrite (eo_hdr _ _ _ EO) in E.
  cbn [h_alg_id h_message_id h_enc_ctx h_edks h_alg_suite_data h_auth_tag h_iv] in E.
  assert (A : ei_auth i = (if existsb (N.eqb (ei_alg i)) v2_suites then ei_tag i else ei_iv i ++ ei_tag i)).
  { unfold ei_auth. destruct (alg_lookup_cases _ _ (eo_lookup _ _ _ EO)) as [V|V].
    - destruct (in_v1_cases _ V) as [p P]. assert (CM : alg_is_committing (ei_alg i) = false) by tauto.
      assert (X : existsb (N.eqb (ei_alg i)) v2_suites = false).
      { apply not_true_is_false. intros X. apply existsb_v2 in X. destruct (v1_not_v2 _ V X). }
      now rewrite CM, X.
    - destruct (in_v2_cases _ V) as [p P]. assert (CM : alg_is_committing (ei_alg i) = true) by tauto.
      now rewrite CM, (proj2 (existsb_v2 _) V). }
  rewrite <- A in E. unfold ei_head in E. rewrite !app_assoc in E. apply app_inv_tail in E. rewrite E.
  rewrite <- !app_assoc. eexists. reflexivity.
Qed.

Lemma enc_mid_len : forall cr s i, enc_ok cr s i ->
  (In (ei_alg i) v1_suites /\ Nlen (ei_mid i) = 16) \/ (In (ei_alg i) v2_suites /\ Nlen (ei_mid i) = 32).
Proof.
  intros cr s i EO. pose proof (eo_mid _ _ _ EO) as M. unfold message_id_len in M.
  destruct (alg_lookup_cases _ _ (eo_lookup _ _ _ EO)) as [V|V].
  - rewrite (proj2 (v1_version _ _ (eo_lookup _ _ _ EO)) V) in M. left. auto.
  - rewrite (proj2 (v2_version _ _ (eo_lookup _ _ _ EO)) V) in M. right. auto.
Qed.
Lemma wf_mid_len : forall h, hdr_wf h ->
  (In (h_alg_id h) v1_suites /\ Nlen (h_message_id h) = 16) \/ (In (h_alg_id h) v2_suites /\ Nlen (h_message_id h) = 32).
Proof. intros h [[[V [M _]]|[V [M _]]] _]; auto. Qed.

(** Position in a body is frame number. *)
Fixpoint numbered (n : N) (l : list (frame * list N)) : Prop :=
  match l with [] => True | (f, _) :: l' => fr_seqno f = n /\ numbered (n + 1) l' end.
Lemma numbered_app : forall l n x, numbered n l -> fr_seqno (fst x) = n + Nlen l -> numbered n (l ++ [x]).
Proof.
  induction l as [|[f p] l IH]; intros n [g q] H E; cbn [app numbered fst] in *.
  - split; auto. rewrite Nlen_nil in E. lia.
  - destruct H as [H1 H2]. split; auto. apply IH; auto. cbn [fst]. rewrite E, Nlen_cons. lia.
Qed.
Lemma regular_numbered : forall l n, regular_from n l -> numbered n l.
Proof. induction l as [|[f p] l IH]; intros n R; [exact Logic.I|]. destruct R as [_ [S R]]. split; auto. Qed.
Lemma so_far_numbered : forall l, body_so_far l -> numbered 1 l.
Proof.
  intros l [R|[l0 [f [p [-> [R [S _]]]]]]]; [now apply regular_numbered|].
  apply numbered_app; [now apply regular_numbered|exact S].
Qed.
Lemma numbered_in : forall l n f p, numbered n l -> In (f, p) l -> n <= fr_seqno f.
Proof.
  induction l as [|[g q] l IH]; intros n f p H I; [destruct I|]. destruct H as [H1 H2]. destruct I as [E|I].
  - injection E as -> ->. lia.
  - specialize (IH _ _ _ H2 I). lia.
Qed.
Lemma numbered_prefix : forall l1 l2 n, numbered n l1 -> numbered n l2 -> (forall x, In x l1 -> In x l2) -> prefix l1 l2.
Proof.
  induction l1 as [|[f p] l1 IH]; intros l2 n H1 H2 I; [apply prefix_nil|].
  destruct l2 as [|[g q] l2]; [destruct (I (f, p) (or_introl eq_refl))|].
  destruct H1 as [S1 H1], H2 as [S2 H2].
  assert (E : (g, q) = (f, p)).
  { destruct (I (f, p) (or_introl eq_refl)) as [E|J]; auto. apply (numbered_in _ _ _ _ H2) in J. lia. }
  rewrite E. apply prefix_cons. apply (IH _ (n + 1)); auto. intros [h r] J.
  destruct (I (h, r) (or_intror J)) as [X|X]; auto. rewrite E in X. injection X as -> ->.
  apply (numbered_in _ _ _ _ H1) in J. lia.
Qed.

(** What a live encryption has sealed. *)
Lemma enc_seals : forall cr s win wout log, inv cr s win wout log -> s_state s <> ST_ERROR -> s_mode s = M_ENCRYPT ->
  log = [] \/ exists i l trlog, enc_ok cr s i /\ Forall (sealed cr (ei_key i) (ei_mid i) (s_fsize s)) l /\ conf_ok s /\
    win = body_text l /\ log = elog i l ++ trlog /\ body_so_far l /\ (forall a b c d e f, ~ In (EvSeal a b c d e f) trlog).
Proof.
  intros cr s win wout log I NE DM.
  destruct I as [s CONF PR MODE ST|s CONF PR MODE ST|s CONF PR MODE ST|s i CONF EO ST EB|s i l CONF EO ST R L EB
    |s i l CONF EO ST W EB K PE|s i l tr trlog CONF EO ST W F K PE ET|s i l CONF DO ST R L DB SG|s i l CONF DO ST W DB SG
    |s i l tr trlog CONF DO ST W DB DT|s s0 win wout log more ST FS NE' MD I NON]; try congruence; auto;
  try (destruct DO as [MO]; rewrite DM in MO; discriminate); right.
  - exists i, [], []. rewrite app_nil_r. split; [exact EO|]. split; [constructor|]. split; [exact CONF|].
    split; [reflexivity|]. split; [reflexivity|]. split; [now left|]. intros a b c d e f [].
  - exists i, l, []. rewrite app_nil_r. split; [exact EO|]. split; [apply EB|]. split; [exact CONF|].
    split; [reflexivity|]. split; [reflexivity|]. split; [now left|]. intros a b c d e f [].
  - exists i, l, []. rewrite app_nil_r. split; [exact EO|]. split; [apply EB|]. split; [exact CONF|].
    split; [reflexivity|]. split; [reflexivity|]. split; [now right|]. intros a b c d e f [].
  - exists i, l, trlog. split; [exact EO|]. split; [exact F|]. split; [exact CONF|].
    split; [reflexivity|]. split; [reflexivity|]. split; [now right|].
    intros a b c d e f J. destruct ET; cbn in J; [destruct J|]. destruct J as [J|[]]. discriminate.
Qed.

Lemma C16_lemma : forall cr m ops w md opsd wd, crypto_sizes cr ->
  history cr m ops w -> s_mode (w_s w) = M_ENCRYPT -> s_state (w_s w) <> ST_ERROR ->
  history cr md opsd wd -> is_decrypt_mode (s_mode (w_s wd)) = true ->
  (forall key iv aad ct tag pt, In (EvOpen key iv aad ct tag pt) (w_log wd) -> In (EvSeal key iv aad pt ct tag) (w_log w)) ->
  (forall rq ctx em rqd dm, In (EvGen rq ctx em) (w_log w) -> In (EvUnwrap rqd dm) (w_log wd) ->
     (In (em_alg em) v2_suites <-> In (dq_alg rqd) v2_suites)) ->
  prefix (w_out wd) (w_in w) /\ (is_done (w_s wd) = true -> w_out wd = w_in w) /\
  (w_out wd = w_in w \/ N.divide (s_fsize (w_s w)) (Nlen (w_out wd))).
Proof.
  intros cr m ops w md opsd wd CS H EM NE HD DM IDEAL FMT.
  pose proof (history_inv _ _ _ _ CS H) as I1. pose proof (history_inv _ _ _ _ CS HD) as I2. unfold winv in *.
  destruct (inv_live _ _ _ _ _ I2) as [s2 [log2 [more2 [EL2 [J2 [NE2 [MD2 LIVE2]]]]]]].
  assert (D2 : is_done (w_s wd) = true -> is_done s2 = true).
  { intros D. destruct (LIVE2 (done_live _ D)) as [-> _]. exact D. }
  assert (OUT2 : (w_out wd = [] /\ is_done (w_s wd) = false) \/ (w_out wd <> [] \/ is_done s2 = true)).
  { destruct (w_out wd); [|right; left; discriminate]. destruct (is_done (w_s wd)); auto. }
  destruct OUT2 as [[-> ->]|OUT2]; [split; [apply prefix_nil|split; [discriminate|right; apply N.divide_0_r]]|].
  assert (DD2 : is_decrypt_mode (s_mode s2) = true) by (rewrite MD2; auto using decrypt_mode_valid).
  destruct (dec_shape _ _ _ _ _ J2 NE2 DD2 OUT2) as [j [lj [tr2 [tl2 [DO [DB [CF2 [EI2 [EO2 [EG2 [BS2 [FIN2 _]]]]]]]]]]]].
  assert (HOPEN : In (EvOpen (di_key j) (di_iv j) (di_body j) [] (h_auth_tag (s_hdr s2)) []) (w_log wd)).
  { rewrite EL2, EG2. unfold dlog, dec_log. right. now left. }
  assert (UNWR : In (EvUnwrap (di_rq j) (di_m j)) (w_log wd)).
  { rewrite EL2, EG2. unfold dlog, dec_log. now left. }
  pose proof (IDEAL _ _ _ _ _ _ HOPEN) as HSEAL.
  destruct (enc_seals _ _ _ _ _ I1 NE EM) as [E0|[i [l [trlog [EO [SE [CF1 [EI1 [EG1 [BS1 NOSEAL]]]]]]]]]].
  { rewrite E0 in HSEAL. destruct HSEAL. }
  assert (GEN : In (EvGen (ei_rq i) (ei_ctx i) (ei_m i)) (w_log w)) by (rewrite EG1; unfold elog, enc_log; now left).
  assert (FM := FMT _ _ _ _ _ GEN UNWR). rewrite (do_rq _ _ _ DO) in FM. cbn [dq_alg] in FM. fold (ei_alg i) in FM.
  assert (ML : Nlen (ei_mid i) = Nlen (h_message_id (s_hdr s2))).
  { destruct (enc_mid_len _ _ _ EO) as [[V L]|[V L]], (wf_mid_len _ (do_wf _ _ _ DO)) as [[V' L']|[V' L']]; try congruence; exfalso.
    - apply (v1_not_v2 _ V). tauto.
    - apply (v1_not_v2 _ V'). tauto. }
  assert (SEALS : forall key iv aad pt ct tag, In (EvSeal key iv aad pt ct tag) (w_log w) ->
    EvSeal key iv aad pt ct tag = EvSeal (ei_key i) (msg_iv 0) (ei_aad i) [] [] (ei_tag i) \/
    exists f p, In (f, p) l /\ EvSeal key iv aad pt ct tag = seal_event (ei_key i) (ei_mid i) (f, p)).
  { intros key iv aad pt ct tag J. rewrite EG1 in J. unfold elog, enc_log in J. rewrite !in_app_iff in J.
    destruct J as [[J|J]|J].
    - cbn in J. destruct J as [J|[J|[J|[]]]]; try discriminate. left. now symmetry.
    - apply in_map_iff in J. destruct J as [[f p] [J1 J3]]. right. exists f, p. split; auto.
    - destruct (NOSEAL _ _ _ _ _ _ J). }
  destruct (SEALS _ _ _ _ _ _ HSEAL) as [E|[f [p [J E]]]].
  2:{ exfalso. unfold seal_event in E. injection E as E1 E2 E3 E4 E5 E6.
      apply (header_not_aad _ _ _ _ (fr_type f) (fr_seqno f) (Nlen p) (do_wf _ _ _ DO) (do_wire _ _ _ DO) ML). exact E3. }
  injection E as E1 E2 E3 E4.
  assert (MM : h_message_id (s_hdr s2) = ei_mid i).
  { destruct (wire_head_start _ _ _ (do_wire _ _ _ DO)) as [r1 R1]. destruct (enc_aad_start _ _ _ EO) as [r2 R2].
    rewrite E3, R2 in R1. unfold head_start in R1.
    destruct (wf_mid_len _ (do_wf _ _ _ DO)) as [[V L]|[V L]].
    - assert (X : existsb (N.eqb (h_alg_id (s_hdr s2))) v2_suites = false).
      { apply not_true_is_false. intros X. apply existsb_v2 in X. destruct (v1_not_v2 _ V X). }
      assert (Y : existsb (N.eqb (ei_alg i)) v2_suites = false).
      { apply not_true_is_false. intros Y. apply existsb_v2 in Y. apply (v1_not_v2 _ V). tauto. }
      rewrite X, Y in R1. cbn [app u8 u16] in R1. injection R1 as _ _ R1.
      apply app_inj_len in R1; [|unfold Nlen in ML; lia]. destruct R1 as [R1 _]. now symmetry.
    - assert (X : existsb (N.eqb (h_alg_id (s_hdr s2))) v2_suites = true) by now apply existsb_v2.
      assert (Y : existsb (N.eqb (ei_alg i)) v2_suites = true) by (apply existsb_v2; tauto).
      rewrite X, Y in R1. cbn [app u8 u16] in R1. injection R1 as _ _ R1.
      apply app_inj_len in R1; [|unfold Nlen in ML; lia]. destruct R1 as [R1 _]. now symmetry. }
  assert (INCL : forall x, In x lj -> In x l).
  { intros [f p] J.
    assert (OP : In (open_event (di_key j) (h_message_id (s_hdr s2)) (f, p)) (w_log wd)).
    { rewrite EL2, EG2. unfold dlog. rewrite !in_app_iff. left. left. right. now apply in_map. }
    unfold open_event in OP. apply IDEAL in OP. apply SEALS in OP.
    destruct OP as [E|[g [q [G E]]]].
    - exfalso. injection E as X1 X2 X3 X4 X5 X6.
      apply (header_not_aad _ _ _ _ (fr_type f) (fr_seqno f) (Nlen (fr_ciphertext f)) (do_wf _ _ _ DO) (do_wire _ _ _ DO) eq_refl).
      rewrite E3. now rewrite X3.
    - unfold seal_event in E. injection E as X1 X2 X3 X4 X5 X6.
      pose proof (db_opened _ _ _ _ DB) as FO. rewrite Forall_forall in FO, SE.
      destruct (FO _ J) as [W1 [L1 _]]. destruct (SE _ G) as [W2 [_ [_ [L2 _]]]].
      assert (F1 : s_fsize s2 < 4294967296) by apply CF2. assert (F2 : s_fsize (w_s w) < 4294967296) by apply CF1.
      assert (B : forall fs g, fs < 4294967296 -> frame_wf fs g -> fr_seqno g < 4294967296 /\ Nlen (fr_ciphertext g) < 18446744073709551616).
      { intros fs g0 F [_ [_ W]]. destruct (fr_type g0); lia. }
      destruct (B _ _ F1 W1) as [B1 B2], (B _ _ F2 W2) as [B3 B4].
      apply body_aad_inj in X3; try lia.
      + destruct X3 as [_ [X3 [X7 _]]]. subst q. replace f with g; auto. destruct f, g. cbn in *. congruence.
      + destruct (wf_mid_len _ (do_wf _ _ _ DO)); tauto.
      + destruct (enc_mid_len _ _ _ EO); tauto. }
  assert (PX : prefix lj l) by (apply (numbered_prefix _ _ 1); auto using so_far_numbered).
  rewrite EO2, EI1. split; [now apply prefix_body_text|].
  split; [intros D; destruct (FIN2 (D2 D)) as [WB _]; f_equal; now apply whole_prefix|].
  destruct BS2 as [R|WB]; [right|left; f_equal; now apply whole_prefix].
  rewrite (regular_text_len cr (ei_key i) (ei_mid i) (s_fsize (w_s w)) lj 1 R); [apply N.divide_factor_r|].
  rewrite Forall_forall in SE |- *. auto.
Qed.

(** ** C14 *)
Lemma hdr_write_size : forall h n n' o o', hdr_write h n = Ok o -> hdr_write h n' = Ok o' -> o = o'.
Proof.
  intros h n n' o o' W W'. unfold hdr_write in *. destruct (alg_lookup (h_alg_id h)) as [p|]; [|discriminate].
  rewrite serialize_spec in W, W'. destruct (65535 <? Nlen (wire_ctx (h_enc_ctx h))); [discriminate|].
  match type of W with context [if ?c then Ok _ else _] => destruct c; [|discriminate] end.
  match type of W' with context [if ?c then Ok _ else _] => destruct c; [|discriminate] end.
  match type of W with (if ?c then _ else _) = _ => destruct c; [discriminate|] end.
  match type of W' with (if ?c then _ else _) = _ => destruct c; [discriminate|] end.
  congruence.
Qed.

Lemma version_committing : forall alg p, alg_lookup alg = Some p -> (ap_version p =? 1) = negb (alg_is_committing alg).
Proof.
  intros alg p L. destruct (alg_lookup_cases _ _ L) as [V|V].
  - rewrite (proj2 (v1_version _ _ L) V). destruct (in_v1_cases _ V) as [q Q].
    assert (CM : alg_is_committing alg = false) by tauto. now rewrite CM.
  - rewrite (proj2 (v2_version _ _ L) V). destruct (in_v2_cases _ V) as [q Q].
    assert (CM : alg_is_committing alg = true) by tauto. now rewrite CM.
Qed.

Lemma two_encs : forall cr s1 i1 s2 i2, enc_ok cr s1 i1 -> enc_ok cr s2 i2 ->
  s_fsize s1 = s_fsize s2 -> ei_ctx i1 = ei_ctx i2 -> ei_mid i1 = ei_mid i2 -> ei_alg i1 = ei_alg i2 ->
  em_key (ei_m i1) = em_key (ei_m i2) -> em_edks (ei_m i1) = em_edks (ei_m i2) ->
  ei_head i1 = ei_head i2 /\ ei_key i1 = ei_key i2.
Proof.
  intros cr s1 i1 s2 i2 E1 E2 FS CTX MID ALG KEY EDK.
  assert (K : ei_key i1 = ei_key i2).
  { eapply content_key_eq; [apply E1|apply E2| | |]; auto. }
  assert (SU : ei_suite i1 = ei_suite i2 /\ (In (ei_alg i2) v1_suites -> ei_iv i1 = ei_iv i2)).
  { destruct (eo_suite _ _ _ E1) as [[V1 [S1 I1]]|[V1 [S1 L1]]], (eo_suite _ _ _ E2) as [[V2 [S2 I2]]|[V2 [S2 L2]]].
    - split; congruence.
    - exfalso. rewrite ALG in V1. exact (v1_not_v2 _ V1 V2).
    - exfalso. rewrite ALG in V1. exact (v1_not_v2 _ V2 V1).
    - split; [|intros V; destruct (v1_not_v2 _ V V2)]. unfold key_commitment in *. congruence. }
  destruct SU as [SU IV].
  pose proof (eo_write _ _ _ E1) as W1. pose proof (eo_write _ _ _ E2) as W2.
  set (h := mk_hdr (ei_alg i2) (s_fsize s2) [] [] (ei_mid i2) (ei_suite i2) (ei_ctx i2) (em_edks (ei_m i2)) 0).
  assert (H1 : s_hdr s1 = set_hdr_auth (ei_iv i1) (ei_tag i1) h).
  { rewrite (eo_hdr _ _ _ E1). unfold set_hdr_auth, h. sproj. congruence. }
  assert (H2 : s_hdr s2 = set_hdr_auth (ei_iv i2) (ei_tag i2) h) by (rewrite (eo_hdr _ _ _ E2); reflexivity).
  rewrite H1 in W1. rewrite H2 in W2.
  assert (LK : alg_lookup (h_alg_id h) = Some (ei_p i2)) by apply E2.
  assert (LI : Nlen (ei_iv i2) = Nlen (ei_iv i1)) by now rewrite (eo_iv _ _ _ E1), (eo_iv _ _ _ E2).
  assert (LT : Nlen (ei_tag i2) = Nlen (ei_tag i1)) by now rewrite (eo_tag _ _ _ E1), (eo_tag _ _ _ E2).
  destruct (hdr_write_auth h _ _ _ _ _ _ _ LK LI LT W1) as [pre [P1 P2]].
  pose proof (hdr_write_size _ _ _ _ _ P2 W2) as P3.
  assert (A1 : (if ap_version (ei_p i2) =? 1 then ei_iv i1 ++ ei_tag i1 else ei_tag i1) = ei_auth i1).
  { unfold ei_auth. rewrite ALG, (version_committing _ _ (eo_lookup _ _ _ E2)). now destruct (alg_is_committing (ei_alg i2)). }
  assert (A2 : (if ap_version (ei_p i2) =? 1 then ei_iv i2 ++ ei_tag i2 else ei_tag i2) = ei_auth i2).
  { unfold ei_auth. rewrite (version_committing _ _ (eo_lookup _ _ _ E2)). now destruct (alg_is_committing (ei_alg i2)). }
  rewrite A1 in P1. rewrite A2 in P3. unfold ei_head in *. apply app_inv_tail in P1. apply app_inv_tail in P3.
  assert (AAD : ei_aad i1 = ei_aad i2) by congruence.
  pose proof (eo_enc _ _ _ E1) as C1. pose proof (eo_enc _ _ _ E2) as C2. rewrite K, AAD, C2 in C1.
  assert (T : ei_tag i1 = ei_tag i2) by congruence.
  split; [|exact K]. rewrite AAD. f_equal. unfold ei_auth. rewrite ALG, T.
  destruct (alg_is_committing (ei_alg i2)) eqn:CM; auto. f_equal. apply IV.
  destruct (alg_lookup_cases _ _ (eo_lookup _ _ _ E2)) as [V|V]; auto.
  destruct (in_v2_cases _ V) as [q Q]. assert (X : alg_is_committing (ei_alg i2) = true) by tauto. congruence.
Qed.

Lemma sealed_fun : forall cr key mid fs f1 f2 p, sealed cr key mid fs (f1, p) -> sealed cr key mid fs (f2, p) ->
  fr_type f1 = fr_type f2 -> fr_seqno f1 = fr_seqno f2 -> f1 = f2.
Proof.
  intros cr key mid fs f1 f2 p [_ [_ [I1 [_ E1]]]] [_ [_ [I2 [_ E2]]]] T S.
  assert (I : fr_iv f1 = fr_iv f2) by congruence. rewrite I, T, S, E2 in E1. destruct f1, f2. cbn in *. congruence.
Qed.

Lemma body_text_cons : forall f p l, body_text ((f, p) :: l) = p ++ body_text l.
Proof. reflexivity. Qed.

Lemma seal_bodies : forall cr key mid fs l1 n l0 g q, regular_from n l1 -> regular_from n l0 ->
  Forall (sealed cr key mid fs) l1 -> Forall (sealed cr key mid fs) l0 -> sealed cr key mid fs (g, q) ->
  fr_type g <> FRAME_TYPE_FRAME -> prefix (body_text l1) (body_text (l0 ++ [(g, q)])) -> prefix l1 l0.
Proof.
  intros cr key mid fs l1. induction l1 as [|[f p] l1 IH]; intros n l0 g q R1 R0 F1 F0 G T [z P]; [apply prefix_nil|].
  inversion F1 as [|? ? S1 F1']; subst. destruct R1 as [T1 [N1 R1]].
  pose proof S1 as S1'. destruct S1' as [[_ [_ W1]] [C1 _]]. rewrite T1 in W1, C1. cbn in C1. destruct W1 as [NZ _].
  destruct l0 as [|[f2 p2] l0].
  - exfalso. rewrite body_text_cons in P. cbn [app] in P. rewrite body_text_cons in P. change (body_text []) with (@nil N) in P.
    rewrite app_nil_r, <- app_assoc in P.
    destruct G as [[_ [_ W2]] [C2 _]]. apply (f_equal (@Nlen _)) in P. rewrite Nlen_app in P.
    destruct (fr_type g); cbn in C2; [lia|congruence|lia].
  - inversion F0 as [|? ? S2 F0']; subst. destruct R0 as [T2 [N2 R0]].
    assert (C2 : Nlen p2 = Nlen p) by (destruct S2 as [_ [C2 _]]; rewrite T2 in C2; exact C2).
    cbn [app] in P. rewrite !body_text_cons, <- app_assoc in P.
    apply app_inj_len in P; [|unfold Nlen in *; lia]. destruct P as [P1 P2]. subst p2.
    assert (f2 = f) by (apply (sealed_fun _ _ _ _ _ _ _ S2 S1); congruence). subst f2.
    apply prefix_cons. apply (IH (fr_seqno f + 1) l0 g q); auto. exists z. exact P2.
Qed.

Lemma prefix_antisym : forall A (x y : list A), prefix x y -> prefix y x -> x = y.
Proof.
  intros A x y [u ->] [v E]. rewrite <- app_assoc in E. rewrite <- (app_nil_r x) in E at 1. apply app_inv_head in E.
  symmetry in E. apply app_eq_nil in E. destruct E as [-> _]. now rewrite app_nil_r.
Qed.
Lemma body_text_app : forall l1 l2, body_text (l1 ++ l2) = body_text l1 ++ body_text l2.
Proof. intros. unfold body_text. now rewrite map_app, concat_app. Qed.

Lemma seal_whole : forall cr key mid fs l1 l2, whole_body l1 -> whole_body l2 ->
  Forall (sealed cr key mid fs) l1 -> Forall (sealed cr key mid fs) l2 -> body_text l1 = body_text l2 -> l1 = l2.
Proof.
  intros cr key mid fs l1 l2 [l0 [f [p [-> [R0 [N0 T0]]]]]] [l0' [f' [p' [-> [R0' [N0' T0']]]]]] F1 F2 E.
  apply Forall_app in F1. destruct F1 as [F1 G1]. apply Forall_app in F2. destruct F2 as [F2 G2].
  inversion G1 as [|? ? G1' _]; subst. inversion G2 as [|? ? G2' _]; subst.
  assert (P : l0 = l0').
  { apply prefix_antisym.
    - apply (seal_bodies cr key mid fs l0 1 l0' f' p'); auto. rewrite <- E, body_text_app. eexists. reflexivity.
    - apply (seal_bodies cr key mid fs l0' 1 l0 f p); auto. rewrite E, body_text_app. eexists. reflexivity. }
  subst l0'. rewrite !body_text_app in E. apply app_inv_head in E. rewrite !body_text_cons in E.
  change (body_text []) with (@nil N) in E. rewrite !app_nil_r in E. subst p'.
  do 3 f_equal. apply (sealed_fun _ _ _ _ _ _ _ G1' G2'); [|congruence].
  destruct G1' as [[_ [_ W1]] _], G2' as [[_ [_ W2]] _]. destruct (fr_type f), (fr_type f'); congruence || lia.
Qed.

Lemma C14_lemma : forall cr m1 ops1 w1 m2 ops2 w2, crypto_sizes cr ->
  history cr m1 ops1 w1 -> history cr m2 ops2 w2 ->
  s_mode (w_s w1) = M_ENCRYPT -> s_mode (w_s w2) = M_ENCRYPT -> s_state (w_s w1) <> ST_ERROR -> is_done (w_s w2) = true ->
  s_fsize (w_s w1) = s_fsize (w_s w2) ->
  (forall rq1 c1 em1 rq2 c2 em2, In (EvGen rq1 c1 em1) (w_log w1) -> In (EvGen rq2 c2 em2) (w_log w2) ->
     c1 = c2 /\ em_alg em1 = em_alg em2 /\ em_key em1 = em_key em2 /\ em_edks em1 = em_edks em2 /\ em_sig em1 = em_sig em2) ->
  (forall a b, In (EvRand a) (w_log w1) -> In (EvRand b) (w_log w2) -> a = b) ->
  (forall sc a b, In (EvSign sc a) (w_log w1) -> In (EvSign sc b) (w_log w2) -> a = b) ->
  prefix (w_in w1) (w_in w2) ->
  (s_known (w_s w1) = true -> s_precise (w_s w1) = Nlen (w_in w2)) ->
  prefix (w_out w1) (w_out w2) /\ (is_done (w_s w1) = true -> w_in w1 = w_in w2 /\ w_out w1 = w_out w2).
Proof.
  intros cr m1 ops1 w1 m2 ops2 w2 CS H1 H2 EM1 EM2 NE1 D2 FS GEN RAND SIGN PRE KN.
  pose proof (history_inv _ _ _ _ CS H1) as I1. pose proof (history_inv _ _ _ _ CS H2) as I2. unfold winv in *.
  destruct (enc_shape _ _ _ _ _ I2 (done_live _ D2) EM2 (or_intror D2))
    as [i2 [l2 [tr2 [tg2 [EO2 [SE2 [CF2 [OUT2 [IN2 [LG2 [BS2 [FIN2 [_ _]]]]]]]]]]]]].
  destruct (FIN2 D2) as [WB2 [ET2 [K2 P2]]].
  assert (X : (w_out w1 = [] /\ is_done (w_s w1) = false) \/ (w_out w1 <> [] \/ is_done (w_s w1) = true)).
  { destruct (w_out w1); [|right; left; discriminate]. destruct (is_done (w_s w1)); auto. }
  destruct X as [[-> ->]|X]; [split; [apply prefix_nil|discriminate]|].
  destruct (enc_shape _ _ _ _ _ I1 NE1 EM1 X)
    as [i1 [l1 [tr1 [tg1 [EO1 [SE1 [CF1 [OUT1 [IN1 [LG1 [BS1 [FIN1 [ND1 REG]]]]]]]]]]]]].
  destruct (GEN (ei_rq i1) (ei_ctx i1) (ei_m i1) (ei_rq i2) (ei_ctx i2) (ei_m i2)) as [GC [GA [GK [GE GS]]]].
  { rewrite LG1. now left. } { rewrite LG2. now left. }
  assert (MID : ei_mid i1 = ei_mid i2).
  { apply RAND; [rewrite LG1|rewrite LG2]; right; now left. }
  destruct (two_encs _ _ _ _ _ EO1 EO2 FS GC MID GA GK GE) as [HD KEY].
  rewrite FS, KEY, MID in SE1.
  assert (PL : prefix l1 l2 /\ (whole_body l1 -> l1 = l2)).
  { assert (WP : whole_body l1 -> (s_known (w_s w1) = true /\ s_precise (w_s w1) = Nlen (w_in w1)) -> l1 = l2).
    { intros WB [K P]. apply (seal_whole cr (ei_key i2) (ei_mid i2) (s_fsize (w_s w2))); auto.
      rewrite <- IN1, <- IN2. destruct PRE as [z Z]. rewrite (KN K), Z, Nlen_app in P.
      assert (Nlen z = 0) as Z0 by lia. destruct z; [|rewrite Nlen_cons in Z0; lia]. now rewrite Z, app_nil_r. }
    destruct REG as [R|K].
    - assert (NW : ~ whole_body l1).
      { intros [l0 [f [p [-> [_ [_ T]]]]]]. apply T. apply (regular_types _ _ _ p R). rewrite in_app_iff. right. now left. }
      split; [|tauto]. destruct WB2 as [l0 [g [q [-> [R0 [N0 T0]]]]]].
      apply Forall_app in SE2. destruct SE2 as [SE2 SG]. inversion SG as [|? ? SG' _]; subst.
      assert (P0 : prefix l1 l0).
      { apply (seal_bodies cr (ei_key i2) (ei_mid i2) (s_fsize (w_s w2)) l1 1 l0 g q); auto. now rewrite <- IN1, <- IN2. }
      destruct P0 as [z ->]. exists (z ++ [(g, q)]). now rewrite app_assoc.
    - destruct BS1 as [R|WB]; [|rewrite (WP WB K); split; [apply prefix_refl|auto]].
      assert (NW : ~ whole_body l1).
      { intros [l0 [f [p [-> [_ [_ T]]]]]]. apply T. apply (regular_types _ _ _ p R). rewrite in_app_iff. right. now left. }
      split; [|tauto]. destruct WB2 as [l0 [g [q [-> [R0 [N0 T0]]]]]].
      apply Forall_app in SE2. destruct SE2 as [SE2 SG]. inversion SG as [|? ? SG' _]; subst.
      assert (P0 : prefix l1 l0).
      { apply (seal_bodies cr (ei_key i2) (ei_mid i2) (s_fsize (w_s w2)) l1 1 l0 g q); auto. now rewrite <- IN1, <- IN2. }
      destruct P0 as [z ->]. exists (z ++ [(g, q)]). now rewrite app_assoc. }
  destruct PL as [PL WEQ].
  destruct (is_done (w_s w1)) eqn:D1.
  - destruct (FIN1 eq_refl) as [WB1 [ET1 _]]. pose proof (WEQ WB1) as L. subst l2.
    assert (TR : tr1 = tr2).
    { assert (SLE : ap_sig_len (ei_p i1) = ap_sig_len (ei_p i2)).
      { pose proof (eo_lookup _ _ _ EO1) as K1'. pose proof (eo_lookup _ _ _ EO2) as K2'. unfold ei_alg in *. congruence. }
      destruct ET1 as [Z1|sc1 sg1 Z1 S1], ET2 as [Z2|sc2 sg2 Z2 S2]; try congruence.
      assert (sc1 = sc2) by (rewrite GS, HD, S2 in S1; congruence). subst sc2.
      assert (sg1 = sg2). { apply (SIGN sc1); [rewrite LG1|rewrite LG2]; rewrite in_app_iff; right; now left. }
      congruence. }
    assert (O : w_out w1 = w_out w2) by now rewrite OUT1, OUT2, HD, TR.
    rewrite O. split; [apply prefix_refl|]. intros _. split; auto. now rewrite IN1, IN2.
  - split; [|discriminate]. destruct (ND1 eq_refl) as [-> ->]. rewrite OUT1, OUT2, HD, app_nil_r. apply prefix_app.
    destruct (prefix_body_wire _ _ PL) as [z ->]. exists (z ++ tr2). now rewrite app_assoc.
Qed.
