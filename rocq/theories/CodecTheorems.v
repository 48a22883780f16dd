(** Final lemmas for the codec properties C01-C12; the property files quote them. *)
From Verif Require Import Base AlgModel EncCtxModel HdrModel FrameModel BaseProofs WireSpec EncCtxProofs HdrProofs FrameProofs.
From Coq Require Import String Permutation ZArith ZifyBool ZifyNat ZifyN.
Import List. Open Scope list_scope. Open Scope N_scope.

(** ** Headers *)

Definition norm_iv (h : hdr) : hdr :=
  mk_hdr (h_alg_id h) (h_frame_len h) (if alg_is_committing (h_alg_id h) then [] else h_iv h) (h_auth_tag h)
         (h_message_id h) (h_alg_suite_data h) (ctx_sort (h_enc_ctx h)) (h_edks h)
         (Nlen (wire_body (with_ctx h (ctx_sort (h_enc_ctx h))))).

Lemma representable_fits : forall h, hdr_representable h -> hdr_fits h.
Proof. intros h [V [T [FL [D [F [L EF]]]]]]. unfold hdr_fits. intuition auto; lia. Qed.

Lemma write_parse : forall h max outlen out r, hdr_representable h -> edk_limit_ok max h ->
  hdr_write h outlen = Ok out -> hdr_parse max (out ++ r) = Ok (norm_iv h, r).
Proof.
  intros h max outlen out r R LIM W.
  rewrite hdr_write_spec in W by now apply representable_fits.
  destruct (outlen <? _); [discriminate|]. inv W. unfold wire_bytes. rewrite <- app_assoc.
  destruct R as [V [T [FL [D [F [L EF]]]]]].
  assert (PS := ctx_sort_perm (h_enc_ctx h)).
  assert (D' : distinct_keys (ctx_sort (h_enc_ctx h))) by (eapply distinct_perm; [apply Permutation_sym; apply ctx_sort_perm|auto]).
  assert (F' : ctx_fits (ctx_sort (h_enc_ctx h))) by (unfold ctx_fits in *; now rewrite (Nlen_wire_ctx_perm _ _ PS)).
  destruct V as [[V1 [MI [SD IV]]]|[V2 [MI SD]]].
  - destruct (in_v1_cases _ V1) as [p [LK [VER [ID [IVL [TL [SL [CL [KN CM]]]]]]]]].
    apply hdr_parse_complete.
    + unfold hdr_wf, norm_iv, is_v1, is_v2. cbn. rewrite CM. intuition auto; lia.
    + exact LIM.
    + rewrite wire_header_fun. unfold is_v1, wire_body, wire_auth, norm_iv, with_ctx, wire_body_v1. cbn. rewrite CM. auto.
    + reflexivity.
  - destruct (in_v2_cases _ V2) as [p [LK [VER [ID [IVL [TL [SL [CL [KN CM]]]]]]]]].
    apply hdr_parse_complete.
    + unfold hdr_wf, norm_iv, is_v1, is_v2. cbn. rewrite CM. intuition auto; lia.
    + exact LIM.
    + rewrite wire_header_fun. unfold is_v2, wire_body, wire_auth, norm_iv, with_ctx, wire_body_v2. cbn. rewrite CM. auto.
    + reflexivity.
Qed.

Lemma same_map_sort : forall c, distinct_keys c -> same_map (ctx_sort c) c.
Proof.
  intros c D. apply same_map_perm; [|auto|apply ctx_sort_perm].
  eapply distinct_perm; [apply Permutation_sym; apply ctx_sort_perm|auto].
Qed.

Lemma v2_iff_committing : forall h, (is_v1 h -> alg_is_committing (h_alg_id h) = false) /\
  (is_v2 h -> alg_is_committing (h_alg_id h) = true).
Proof.
  intros h. split; intros V.
  - destruct (in_v1_cases _ V) as [p H]. tauto.
  - destruct (in_v2_cases _ V) as [p H]. tauto.
Qed.

Lemma C01_lemma : forall h max, hdr_representable h -> edk_limit_ok max h ->
  exists out, (forall outlen, hdr_write h outlen = if outlen <? Nlen out then Err E_SHORT_BUFFER else Ok out) /\
  forall r, exists h', hdr_parse max (out ++ r) = Ok (h', r) /\
    h_alg_id h' = h_alg_id h /\ h_message_id h' = h_message_id h /\
    same_map (h_enc_ctx h') (h_enc_ctx h) /\ distinct_keys (h_enc_ctx h') /\
    h_edks h' = h_edks h /\ h_frame_len h' = h_frame_len h /\ h_alg_suite_data h' = h_alg_suite_data h /\
    (is_v1 h -> h_iv h' = h_iv h) /\ h_auth_tag h' = h_auth_tag h /\
    h_auth_len h' = Nlen out - Nlen (h_auth_tag h) - (Nlen (h_iv h')).
Proof.
  intros h max R LIM. exists (wire_bytes h). split.
  - intros. apply hdr_write_spec. now apply representable_fits.
  - intros r. exists (norm_iv h). split.
    + eapply write_parse with (outlen := Nlen (wire_bytes h)); eauto.
      rewrite hdr_write_spec by now apply representable_fits. now rewrite N.ltb_irrefl.
    + destruct R as [V [T [FL [D [F [L EF]]]]]]. cbn [norm_iv h_alg_id h_message_id h_enc_ctx h_edks h_frame_len h_alg_suite_data h_iv h_auth_tag h_auth_len].
      split; [auto|]. split; [auto|]. split; [now apply same_map_sort|].
      split; [eapply distinct_perm; [apply Permutation_sym; apply ctx_sort_perm|auto]|].
      split; [auto|]. split; [auto|]. split; [auto|].
      split. { intros V1. apply v2_iff_committing in V1. now rewrite V1. }
      split; [auto|].
      unfold wire_bytes, wire_auth. rewrite Nlen_app.
      destruct (alg_is_committing (h_alg_id h)); rewrite ?Nlen_app, ?Nlen_nil; lia.
Qed.

Lemma C02_write_lemma : forall h outlen out, hdr_representable h ->
  hdr_write h outlen = Ok out -> Nlen out < 2147483648 -> hdr_size h = Nlen out.
Proof.
  intros h outlen out R W B. assert (R' := R). destruct R as [V [T [FL [D [F [L EF]]]]]].
  assert (exists p, alg_lookup (h_alg_id h) = Some p /\ (ap_version p = 1 -> Nlen (h_iv h) = 12)) as [p [LK IV]].
  { destruct V as [[V1 [MI [SD IV]]]|[V2 [MI SD]]].
    - destruct (in_v1_cases _ V1) as [p [LK [VER _]]]. eauto.
    - destruct (in_v2_cases _ V2) as [p [LK [VER _]]]. exists p. split; auto. intros. lia. }
  destruct (hdr_write_len h p outlen out LK IV T W) as [E _].
  rewrite (hdr_size_spec h p LK F) by (unfold UINT64_MAX; lia). rewrite <- E. now apply through_int_small.
Qed.

Lemma C02_parse_lemma : forall max s h r, bytes_ok s -> hdr_parse max s = Ok (h, r) ->
  Nlen s - Nlen r < 2147483648 ->
  hdr_size h = Nlen s - Nlen r /\ h_auth_len h + Nlen (h_iv h) + Nlen (h_auth_tag h) = hdr_size h.
Proof.
  intros max s h r B P S. destruct (hdr_parse_sound _ _ _ _ B P) as [WF [_ [b [a [W [AL ->]]]]]].
  assert (exists p, alg_lookup (h_alg_id h) = Some p) as [p LK].
  { inv W; [destruct (in_v1_cases _ H) as [p [LK _]]|destruct (in_v2_cases _ H) as [p [LK _]]]; eauto. }
  assert (E := wire_header_len h p b a WF LK W). rewrite !Nlen_app in S |- *.
  rewrite (hdr_size_spec h p LK) by (try (unfold hdr_wf in WF; tauto); unfold UINT64_MAX; lia).
  rewrite <- E. rewrite through_int_small by lia. split; [lia|]. rewrite AL.
  destruct WF as [V _]. inv W; [rewrite Nlen_app; lia|].
  destruct V as [[V1 _]|[_ [_ [_ ->]]]]; [exfalso; eapply v1_not_v2; eauto|]. rewrite Nlen_nil. lia.
Qed.

(** A header of more than 4 GiB whose computed size is wrong: 65535 keys of 65535 bytes. *)
Definition big_edk : edk := mk_edk [] [] (zeros 65535).
Definition big_hdr : hdr :=
  mk_hdr 0x0178 4096 (zeros 12) (zeros 16) (zeros 16) [] [] (repeat big_edk (N.to_nat 65535)) 0.

Lemma Nlen_repeat : forall A (x : A) n, Nlen (repeat x (N.to_nat n)) = n.
Proof. intros. unfold Nlen. rewrite repeat_length. lia. Qed.
Lemma edks_len_repeat : forall e n, edks_len (repeat e n) =
  N.of_nat n * (6 + Nlen (edk_provider_id e) + Nlen (edk_provider_info e) + Nlen (edk_ciphertext e)).
Proof.
  intros e. induction n as [|n IH]; [reflexivity|]. cbn [repeat edks_len]. rewrite IH, Nat2N.inj_succ, N.mul_succ_l. apply N.add_comm.
Qed.
Lemma big_hdr_ok : hdr_representable big_hdr.
Proof.
  unfold hdr_representable, big_hdr, is_v1, is_v2. cbn [h_alg_id h_frame_len h_iv h_auth_tag h_message_id h_alg_suite_data h_enc_ctx h_edks].
  rewrite !Nlen_zeros, Nlen_repeat.
  split; [left; split; [unfold v1_suites; simpl; tauto|auto]|].
  split; [reflexivity|]. split; [reflexivity|]. split; [constructor|]. split; [vm_compute; discriminate|].
  split; [lia|]. apply Forall_forall. intros e I. apply repeat_spec in I. subst. unfold edk_fits, fits16, big_edk.
  cbn [edk_provider_id edk_provider_info edk_ciphertext]. rewrite Nlen_zeros, Nlen_nil. lia.
Qed.
Lemma big_edks_len : edks_len (h_edks big_hdr) = 4295229435.
Proof.
  unfold big_hdr. cbn [h_edks]. rewrite edks_len_repeat. unfold big_edk. cbn [edk_provider_id edk_provider_info edk_ciphertext].
  rewrite Nlen_zeros, Nlen_nil. rewrite N2Nat.id. reflexivity.
Qed.
Lemma C02_refuted_lemma : exists h outlen out, hdr_representable h /\
  hdr_write h outlen = Ok out /\ hdr_size h <> Nlen out.
Proof.
  exists big_hdr, (Nlen (wire_bytes big_hdr)), (wire_bytes big_hdr).
  assert (W : hdr_write big_hdr (Nlen (wire_bytes big_hdr)) = Ok (wire_bytes big_hdr)).
  { rewrite hdr_write_spec by (apply representable_fits, big_hdr_ok). now rewrite N.ltb_irrefl. }
  split; [apply big_hdr_ok|]. split; auto.
  assert (LK : exists p, alg_lookup (h_alg_id big_hdr) = Some p /\ ap_version p = 1) by (eexists; split; reflexivity).
  destruct LK as [p [LK VER]].
  assert (I1 : ap_version p = 1 -> Nlen (h_iv big_hdr) = 12) by (intros _; unfold big_hdr; cbn [h_iv]; apply Nlen_zeros).
  assert (I2 : Nlen (h_auth_tag big_hdr) = 16) by (unfold big_hdr; cbn [h_auth_tag]; apply Nlen_zeros).
  destruct (hdr_write_len big_hdr p _ _ LK I1 I2 W) as [E [F _]].
  assert (TS : hdr_true_size p big_hdr = 4295229497).
  { unfold hdr_true_size. rewrite VER, big_edks_len. unfold big_hdr. cbn [h_message_id h_alg_suite_data h_enc_ctx].
    rewrite Nlen_zeros. reflexivity. }
  rewrite (hdr_size_spec _ _ LK F) by (rewrite TS; reflexivity). rewrite E, TS. vm_compute. discriminate.
Qed.

Lemma C03_lemma : forall max s,
  (forall h r, hdr_parse max s = Ok (h, r) ->
     (exists consumed, s = consumed ++ r /\
        (forall p q, consumed = p ++ q -> q <> [] -> hdr_parse max p = Err E_SHORT_BUFFER)) /\
     forall t, hdr_parse max (s ++ t) = Ok (h, r ++ t)) /\
  (forall e, hdr_parse max s = Err e -> e <> E_SHORT_BUFFER -> forall t, hdr_parse max (s ++ t) = Err e).
Proof.
  intros max s. destruct (good_hdr_parse max) as [G1 [G2 G3]]. split.
  - intros h r H. split; [|intros; now apply G2].
    destruct (G1 _ _ _ H) as [pre ->]. exists pre. split; auto. intros p q -> NE.
    destruct (hdr_parse max p) as [[h' r']|e] eqn:E.
    + exfalso. pose proof (G2 _ _ _ (q ++ r) E) as E2. rewrite <- app_assoc in H. rewrite H in E2.
      apply Ok_pair_inj in E2. destruct E2 as [_ E2]. destruct q; [now apply NE|].
      apply (f_equal (@length N)) in E2. rewrite !app_length in E2. simpl in E2. lia.
    + destruct (err_eq_dec e E_SHORT_BUFFER) as [->|N]; auto.
      exfalso. pose proof (G3 _ _ (q ++ r) E N) as E2. rewrite <- app_assoc in H. rewrite H in E2. discriminate.
  - intros e H N t. now apply G3.
Qed.

Lemma C04_accept_lemma : forall max s h r, hdr_parse max s = Ok (h, r) -> bytes_ok s -> max <> 0 -> Nlen (h_edks h) <= max.
Proof.
  intros max s h r H B M. destruct (hdr_parse_sound _ _ _ _ B H) as [_ [[?|?] _]]; [contradiction|auto].
Qed.

Lemma C04_reject_lemma : forall max pre n r, wire_upto_edks pre n -> max <> 0 -> max < n ->
  hdr_parse max (pre ++ r) = Err E_LIMIT_EXCEEDED.
Proof.
  intros max pre n r W M L. rewrite hdr_parse_eq.
  assert (PP : parse_prefix max (pre ++ r) = Err E_LIMIT_EXCEEDED); [|now rewrite PP].
  inv W.
  - destruct (in_v1_cases _ H) as [p [LK [VER [ID [IVL [TL [SL [CL [KN CM]]]]]]]]].
    unfold parse_prefix. rewrite <- !app_assoc.
    unfold parse_header_version. rewrite read_u8 by lia. cbn [bind].
    change ((1 =? HEADER_VERSION_1_0) || (1 =? HEADER_VERSION_2_0)) with true. cbn [bind].
    change (1 =? HEADER_VERSION_1_0) with true. cbn [bind].
    unfold parse_message_type. rewrite read_u8 by lia. cbn [bind].
    change (128 =? HEADER_TYPE_CUSTOMER_AED) with true. cbn [bind].
    rewrite (parse_alg_complete _ p) by auto. cbn [bind].
    unfold parse_message_id, message_id_len. rewrite VER. change (1 =? HEADER_VERSION_1_0) with true. cbv iota.
    rewrite read_bytes_app_eq by auto. cbn [bind].
    rewrite parse_aad_complete by auto. cbn [bind].
    unfold parse_edks. rewrite read_u16 by lia. cbn [bind].
    destruct (N.eqb_spec n 0); [lia|]. destruct (N.eqb_spec max 0); [lia|]. destruct (N.ltb_spec max n); [|lia]. reflexivity.
  - destruct (in_v2_cases _ H) as [p [LK [VER [ID [IVL [TL [SL [CL [KN CM]]]]]]]]].
    unfold parse_prefix. rewrite <- !app_assoc.
    unfold parse_header_version. rewrite read_u8 by lia. cbn [bind].
    change ((2 =? HEADER_VERSION_1_0) || (2 =? HEADER_VERSION_2_0)) with true. cbn [bind].
    change (2 =? HEADER_VERSION_1_0) with false. cbn [bind].
    rewrite (parse_alg_complete _ p) by auto. cbn [bind].
    unfold parse_message_id, message_id_len. rewrite VER. change (2 =? HEADER_VERSION_1_0) with false. change (2 =? HEADER_VERSION_2_0) with true. cbv iota.
    rewrite read_bytes_app_eq by auto. cbn [bind].
    rewrite parse_aad_complete by auto. cbn [bind].
    unfold parse_edks. rewrite read_u16 by lia. cbn [bind].
    destruct (N.eqb_spec n 0); [lia|]. destruct (N.eqb_spec max 0); [lia|]. destruct (N.ltb_spec max n); [|lia]. reflexivity.
Qed.

(** Which errors a parser can report. *)
Definition errs {A} (P : err -> Prop) (p : parser A) : Prop := forall s e, p s = Err e -> P e.
Lemma errs_do : forall A B P (p : parser A) (f : A -> parser B),
  errs P p -> (forall a, errs P (f a)) -> errs P (fun s => do (a, r) <- p s; f a r).
Proof.
  unfold errs. intros A B P p f Hp Hf s e H. destruct (p s) as [[a r]|e'] eqn:E; cbn [bind] in H; eauto. inv H. eauto.
Qed.
Lemma errs_ret : forall A P (a : A), errs P (fun s => Ok (a, s)).
Proof. unfold errs. intros. discriminate. Qed.
Lemma errs_err : forall A (P : err -> Prop) e, P e -> errs P (fun s => @Err (A * list N) e).
Proof. unfold errs. intros A P e H s e' E. inv E. auto. Qed.
Lemma errs_if : forall A P (c : bool) (p q : parser A), errs P p -> errs P q -> errs P (fun s => if c then p s else q s).
Proof. intros. destruct c; auto. Qed.
Lemma errs_read_bytes : forall (P : err -> Prop) n, P E_SHORT_BUFFER -> errs P (read_bytes n).
Proof. unfold errs. intros P n H s e E. apply read_bytes_err in E. destruct E as [-> _]. auto. Qed.
Lemma errs_read_be : forall (P : err -> Prop) n, P E_SHORT_BUFFER -> errs P (read_be n).
Proof. unfold errs. intros P n H s e E. apply read_be_err in E. subst. auto. Qed.

Definition hdr_err (max : N) (e : err) : Prop :=
  e = E_SHORT_BUFFER \/ e = E_BAD_CIPHERTEXT \/ (e = E_LIMIT_EXCEEDED /\ max <> 0).
Lemma he1 : forall m, hdr_err m E_SHORT_BUFFER. Proof. unfold hdr_err; auto. Qed.
Lemma he2 : forall m, hdr_err m E_BAD_CIPHERTEXT. Proof. unfold hdr_err; auto. Qed.
#[local] Hint Resolve he1 he2 errs_ret errs_err errs_read_bytes errs_read_be : errs.

Lemma errs_aad : forall m, errs (hdr_err m) parse_aad.
Proof.
  intros m s e H. unfold parse_aad in H.
  destruct (read_be 2 s) as [[l s1]|] eqn:E; cbn [bind] in H; [|inv H; apply read_be_err in E; subst; auto with errs].
  destruct (l =? 0); [discriminate|].
  destruct (read_bytes l s1) as [[l' s2]|] eqn:E2; cbn [bind] in H; [|inv H; apply read_bytes_err in E2; destruct E2; subst; auto with errs].
  destruct (enc_ctx_deserialize [] l') as [c [[|? ?]|]]; inv H; auto with errs.
Qed.
Lemma errs_field16 : forall m, errs (hdr_err m) parse_field16.
Proof. intros. unfold parse_field16. apply errs_do; auto with errs. Qed.
Lemma errs_edk : forall m, errs (hdr_err m) parse_edk.
Proof.
  intros. unfold parse_edk. apply errs_do; [apply errs_field16|intros]. apply errs_do; [apply errs_field16|intros].
  apply errs_do; [apply errs_field16|intros]. apply errs_ret.
Qed.
Lemma errs_edk_loop : forall m n, errs (hdr_err m) (parse_edk_loop n).
Proof.
  intros m. induction n as [|n IH]; [apply errs_ret|]. cbn [parse_edk_loop].
  apply errs_do; [apply errs_edk|intros]. apply errs_do; [auto|intros]. apply errs_ret.
Qed.
Lemma errs_edks : forall m, errs (hdr_err m) (parse_edks m).
Proof.
  intros m s e H. unfold parse_edks in H.
  destruct (read_be 2 s) as [[l s1]|] eqn:E; cbn [bind] in H; [|inv H; apply read_be_err in E; subst; auto with errs].
  destruct (l =? 0); [inv H; auto with errs|]. destruct (N.eqb_spec m 0); cbn [negb andb] in H.
  - eapply errs_edk_loop; eauto.
  - destruct (m <? l); [inv H; right; right; auto|eapply errs_edk_loop; eauto].
Qed.
Lemma errs_prefix : forall m, errs (hdr_err m) (parse_prefix m).
Proof.
  intros m. unfold parse_prefix.
  refine (errs_do _ _ _ parse_header_version (fun v s => _) _ (fun v => _)).
  { unfold parse_header_version. apply errs_do; auto with errs. intros. apply errs_if; auto with errs. }
  refine (errs_do _ _ _ (fun s => if v =? HEADER_VERSION_1_0 then parse_message_type s else Ok (tt, s)) (fun v s => _) _ (fun _ => _)).
  { apply errs_if; auto with errs. unfold parse_message_type. apply errs_do; auto with errs. intros. apply errs_if; auto with errs. }
  intros s e H.
  destruct (parse_alg_id v s) as [[[id p] s1]|e1] eqn:E1; cbn [bind] in H.
  2:{ inv H. unfold parse_alg_id in E1. destruct (read_be 2 s) as [[id s1]|] eqn:E; cbn [bind] in E1; [|inv E1; apply read_be_err in E; subst; auto with errs].
      destruct (alg_is_known id) eqn:KN; cbn [negb] in E1; [|inv E1; auto with errs].
      apply alg_known_lookup in KN. destruct KN as [p KN]. rewrite KN in E1. destruct (ap_version p =? v); inv E1. auto with errs. }
  clear E1. revert s1 e H. change (errs (hdr_err m) (fun s1 =>
    do (mid, s) <- parse_message_id p s1;
  do (ctx, s) <- parse_aad s;
  do (edks, s) <- parse_edks m s;
  do (ctype, s) <- parse_content_type s;
  do (_, s) <- (if v =? HEADER_VERSION_1_0 then parse_reserved s else Ok (tt, s));
  do (iv_len, s) <- (if v =? HEADER_VERSION_1_0 then parse_iv_len id s else Ok (0, s));
  do (frame_len, s) <- parse_frame_len ctype s;
  do (suite, s) <- (if v =? HEADER_VERSION_2_0 then parse_alg_suite_data p s else Ok ([], s));
  Ok ((v, id, p, mid, ctx, edks, iv_len, frame_len, suite), s))).
  apply errs_do; [unfold parse_message_id; auto with errs|intros mid].
  apply errs_do; [apply errs_aad|intros ctx]. apply errs_do; [apply errs_edks|intros edks].
  apply errs_do; [|intros ct].
  { unfold parse_content_type. apply errs_do; auto with errs. intros. apply errs_if; auto with errs. }
  refine (errs_do _ _ _ (fun s => if v =? HEADER_VERSION_1_0 then parse_reserved s else Ok (tt, s)) (fun v s => _) _ (fun _ => _)).
  { apply errs_if; auto with errs. unfold parse_reserved. apply errs_do; auto with errs. intros. apply errs_if; auto with errs. }
  refine (errs_do _ _ _ (fun s => if v =? HEADER_VERSION_1_0 then parse_iv_len id s else Ok (0, s)) (fun il s => _) _ (fun il => _)).
  { apply errs_if; auto with errs. unfold parse_iv_len. apply errs_do; auto with errs. intros. destruct (algorithm_ivlen id); auto with errs. apply errs_if; auto with errs. }
  apply errs_do; [|intros fl].
  { unfold parse_frame_len. apply errs_do; auto with errs. intros. apply errs_if; auto with errs. }
  refine (errs_do _ _ _ (fun s => if v =? HEADER_VERSION_2_0 then parse_alg_suite_data p s else Ok ([], s)) (fun il s => _) _ (fun sd => _)).
  { apply errs_if; auto with errs. unfold parse_alg_suite_data. apply errs_if; auto with errs. }
  apply errs_ret.
Qed.
Lemma parse_prefix_alg : forall m s v id p mid ctx edks il fl sd r,
  parse_prefix m s = Ok ((v, id, p, mid, ctx, edks, il, fl, sd), r) -> alg_is_known id = true.
Proof.
  intros m s v id p mid ctx edks il fl sd r H. unfold parse_prefix in H.
  repeat match goal with
  | H : bind ?x _ = Ok _ |- _ => let E := fresh "E" in destruct x as [[? ?]|] eqn:E; cbn [bind] in H; [|discriminate]
  | H : (let (_, _) := ?x in _) = Ok _ |- _ => destruct x
  end.
  inv H. unfold parse_alg_id in E1. destruct (read_be 2 _) as [[id2 ?]|]; cbn [bind] in E1; [|discriminate].
  destruct (alg_is_known id2) eqn:KN; cbn [negb] in E1; [|discriminate].
  destruct (alg_lookup id2); [|discriminate]. destruct (negb _); inv E1. auto.
Qed.
Lemma hdr_parse_errs : forall m s e, hdr_parse m s = Err e -> hdr_err m e.
Proof.
  intros m s e H. rewrite hdr_parse_eq in H.
  destruct (parse_prefix m s) as [[x s1]|] eqn:E; cbn [bind] in H; [|inv H; eapply errs_prefix; eauto].
  destruct x as [[[[[[[[v id] p] mid] ctx] edks] il] fl] sd]. apply parse_prefix_alg in E.
  unfold parse_tail in H.
  destruct (if v =? HEADER_VERSION_1_0 then read_bytes il s1 else Ok ([], s1)) as [[iv s2]|] eqn:E2; cbn [bind] in H.
  - unfold parse_auth_tag, algorithm_taglen in H. rewrite E in H.
    destruct (read_bytes 16 s2) as [[tag s3]|] eqn:E3; cbn [bind] in H; [discriminate|].
    inv H. apply read_bytes_err in E3. destruct E3 as [-> _]. auto with errs.
  - inv H. destruct (v =? HEADER_VERSION_1_0); [|discriminate]. apply read_bytes_err in E2. destruct E2 as [-> _]. auto with errs.
Qed.

Lemma C05_lemma : forall max s, bytes_ok s ->
  (forall h r, hdr_parse max s = Ok (h, r) <->
     hdr_wf h /\ edk_limit_ok max h /\
     exists body auth, wire_header h body auth /\ s = body ++ auth ++ r /\ h_auth_len h = Nlen body) /\
  (forall e, hdr_parse max s = Err e ->
     e = E_SHORT_BUFFER \/ e = E_BAD_CIPHERTEXT \/ (e = E_LIMIT_EXCEEDED /\ max <> 0)).
Proof.
  intros max s B. split.
  - intros h r. split.
    + intros H. destruct (hdr_parse_sound _ _ _ _ B H) as [WF [L [b [a [W [AL E]]]]]]. eauto 10.
    + intros [WF [L [b [a [W [-> AL]]]]]]. now apply hdr_parse_complete.
  - intros e H. now apply hdr_parse_errs in H.
Qed.

(** ** Encryption contexts *)

Lemma C06_lemma : forall c, distinct_keys c ->
  (ctx_fits c ->
     exists out, enc_ctx_size c = Ok (Nlen out) /\
       (forall cap len, len + Nlen out <= cap -> enc_ctx_serialize cap len c = Ok out) /\
       (forall cap len, cap < len + Nlen out -> out <> [] -> enc_ctx_serialize cap len c = Err E_SHORT_BUFFER) /\
       (forall old, exists c', enc_ctx_deserialize old out = (c', Ok []) /\ same_map c' c /\ distinct_keys c') /\
       (c <> [] -> forall old r, exists c', enc_ctx_deserialize old (out ++ r) = (c', Ok r) /\ same_map c' c /\ distinct_keys c')) /\
  (~ ctx_fits c -> enc_ctx_size c = Err E_LIMIT_EXCEEDED /\
     forall cap len, enc_ctx_serialize cap len c = Err E_LIMIT_EXCEEDED).
Proof.
  intros c D. split.
  - intros F. exists (wire_ctx (ctx_sort c)).
    assert (PS := ctx_sort_perm c). assert (LE := Nlen_wire_ctx_perm _ _ PS).
    assert (D' : distinct_keys (ctx_sort c)) by (eapply distinct_perm; [apply Permutation_sym; apply ctx_sort_perm|auto]).
    assert (F' : ctx_fits (ctx_sort c)) by (unfold ctx_fits in *; now rewrite LE).
    assert (X : c <> [] -> forall old r, enc_ctx_deserialize old (wire_ctx (ctx_sort c) ++ r) = (ctx_sort c, Ok r)).
    { intros NE old r. apply ctx_fits_pairs in F'. destruct F' as [FP CL]. apply deserialize_complete; auto.
      split; auto. destruct (ctx_sort c) eqn:E; [apply ctx_sort_nil in E; contradiction|]. rewrite Nlen_cons. lia. }
    split; [|split; [|split; [|split]]].
    + rewrite LE. apply enc_ctx_size_ok. auto.
    + intros cap len L. rewrite serialize_spec. rewrite LE in L. unfold ctx_fits in F.
      destruct (N.ltb_spec 65535 (Nlen (wire_ctx c))); [lia|]. destruct (N.leb_spec (len + Nlen (wire_ctx c)) cap); [|lia].
      now rewrite orb_true_r.
    + intros cap len L NE. rewrite serialize_spec. rewrite LE in L. unfold ctx_fits in F.
      destruct (N.ltb_spec 65535 (Nlen (wire_ctx c))); [lia|]. destruct (N.leb_spec (len + Nlen (wire_ctx c)) cap); [lia|].
      destruct (N.eqb_spec (Nlen (wire_ctx c)) 0) as [Z|]; [|reflexivity]. rewrite <- LE in Z. apply Nlen_0 in Z. contradiction.
    + intros old. exists (ctx_sort c). split; [|split; [now apply same_map_sort|auto]].
      destruct c as [|e c]; [reflexivity|]. rewrite <- (app_nil_r (wire_ctx _)). apply X. discriminate.
    + intros NE old r. exists (ctx_sort c). split; [auto|split; [now apply same_map_sort|auto]].
  - unfold ctx_fits. intros F. split.
    + rewrite enc_ctx_size_spec. destruct (N.leb_spec (Nlen (wire_ctx c)) 65535); [contradiction|reflexivity].
    + intros. rewrite serialize_spec. destruct (N.ltb_spec 65535 (Nlen (wire_ctx c))); [reflexivity|lia].
Qed.

Lemma C07_lemma : forall c d cap len cap' len' out out',
  distinct_keys c -> distinct_keys d ->
  enc_ctx_serialize cap len c = Ok out -> enc_ctx_serialize cap' len' d = Ok out' ->
  (same_map c d <-> out = out') /\
  exists sorted, same_map sorted c /\ keys_ascending sorted /\ out = wire_ctx sorted.
Proof.
  intros c d cap len cap' len' out out' Dc Dd Sc Sd. rewrite serialize_spec in Sc, Sd.
  destruct (N.ltb_spec 65535 (Nlen (wire_ctx c))) as [?|Fc]; [discriminate|].
  destruct (N.ltb_spec 65535 (Nlen (wire_ctx d))) as [?|Fd]; [discriminate|].
  destruct (_ || _) in Sc; inv Sc. destruct (_ || _) in Sd; inv Sd.
  assert (Dc' : distinct_keys (ctx_sort c)) by (eapply distinct_perm; [apply Permutation_sym; apply ctx_sort_perm|auto]).
  assert (Dd' : distinct_keys (ctx_sort d)) by (eapply distinct_perm; [apply Permutation_sym; apply ctx_sort_perm|auto]).
  split; [split|].
  - intros M. apply same_map_perm in M; auto. now rewrite (ctx_sort_unique c d).
  - intros E. assert (S : ctx_sort c = ctx_sort d).
    { assert (Fc' : ctx_fits (ctx_sort c)) by (unfold ctx_fits; now rewrite (Nlen_wire_ctx_perm _ _ (ctx_sort_perm c))).
      assert (Fd' : ctx_fits (ctx_sort d)) by (unfold ctx_fits; now rewrite (Nlen_wire_ctx_perm _ _ (ctx_sort_perm d))).
      apply ctx_fits_pairs in Fc', Fd'. destruct Fc' as [PC CC], Fd' as [PD CD].
      destruct (ctx_sort c) as [|e c'] eqn:SC; destruct (ctx_sort d) as [|f d'] eqn:SD; auto.
      - cbn in E. discriminate.
      - cbn in E. discriminate.
      - apply (wire_ctx_inj_ok _ _ [] []); auto; [split; [rewrite Nlen_cons; lia|auto] ..|]. now rewrite E. }
    apply same_map_perm; auto. eapply Permutation_trans; [apply Permutation_sym, ctx_sort_perm|]. rewrite S. apply ctx_sort_perm.
  - exists (ctx_sort c). split; [now apply same_map_sort|]. split; [now apply ctx_sort_sorted|reflexivity].
Qed.

Lemma C08_lemma : forall old s, bytes_ok s ->
  (forall c r, enc_ctx_deserialize old s = (c, Ok r) <->
     (s = [] /\ c = [] /\ r = []) \/
     (1 <= Nlen c <= 65535 /\ distinct_keys c /\
      Forall (fun e => fits16 (fst e) /\ fits16 (snd e)) c /\ s = wire_ctx c ++ r)) /\
  (forall c e, enc_ctx_deserialize old s = (c, Err e) -> c = [] /\ (e = E_SHORT_BUFFER \/ e = E_BAD_CIPHERTEXT)) /\
  (forall p q c, s = p ++ q -> p <> [] -> q <> [] -> enc_ctx_deserialize old s = (c, Ok []) ->
     enc_ctx_deserialize old p = ([], Err E_SHORT_BUFFER)) /\
  (forall c e t, s <> [] -> enc_ctx_deserialize old s = (c, Err e) -> e <> E_SHORT_BUFFER ->
     enc_ctx_deserialize old (s ++ t) = ([], Err e)).
Proof.
  intros old s B. split; [|split; [|split]].
  - intros c r. apply deserialize_ok; auto.
  - intros c e. apply deserialize_err.
  - intros p q c -> NP NQ H. destruct p as [|b p]; [contradiction|]. eapply deserialize_truncated; eauto.
  - intros c e t NE H NS. destruct s as [|b s]; [contradiction|]. pose proof (deserialize_good old old b s t) as G.
    rewrite H in G. cbn [app]. rewrite (G NS). destruct (deserialize_err _ _ _ _ H) as [-> _]. reflexivity.
Qed.

(** ** Frames *)

Lemma C10_lemma : forall alg p fs f, alg_lookup alg = Some p -> fs < 4294967296 -> frame_wf fs f ->
  exists l, (forall room, serialize_frame p (fr_type f) (fr_seqno f) (Nlen (fr_ciphertext f)) room =
     mk_ser (if room <? Nlen (wire_frame f) then Err E_SHORT_BUFFER else Ok l) (Some (Nlen (wire_frame f)))) /\
  layout_bytes l (fr_iv f) (fr_ciphertext f) (fr_authtag f) = wire_frame f /\
  lo_ct_len l = Nlen (fr_ciphertext f) /\
  forall r, deserialize_frame p fs (wire_frame f ++ r) =
            mk_des (Ok (f, r)) (Nlen (wire_frame f)) (Nlen (fr_ciphertext f)).
Proof.
  intros alg p fs f LK FS WF. assert (SL := lookup_std_lens _ _ LK).
  exists (the_layout (fr_type f) (fr_seqno f) (Nlen (fr_ciphertext f))).
  assert (WF' := WF). destruct WF' as [IV [TG T]].
  split; [|split; [|split]].
  - intros room. rewrite serialize_frame_spec; auto.
    + rewrite (Nlen_wire_frame fs f WF). reflexivity.
    + destruct (fr_type f); destruct T as [? [? ?]]; lia.
    + unfold frame_writable. destruct (fr_type f); destruct T as [? [? ?]]; lia.
  - destruct f as [ty sq iv ct tag]. cbn in *. apply the_layout_bytes. intros ->. tauto.
  - destruct (fr_type f); reflexivity.
  - intros r. now apply deserialize_frame_complete.
Qed.

Lemma C10_refuse_lemma : forall p ty seqno psize room,
  match ty with
  | FRAME_TYPE_SINGLE => 0xFFFFFFFE0 <= psize
  | FRAME_TYPE_FRAME => 0xFFFFFFFF < psize \/ seqno = 0xFFFFFFFF
  | FRAME_TYPE_FINAL => 0xFFFFFFFF < psize
  end ->
  exists e, sr_res (serialize_frame p ty seqno psize room) = Err e /\ e <> E_SHORT_BUFFER.
Proof.
  intros p ty seqno psize room H. apply serialize_frame_refused. destruct ty; cbn [frame_writable]; lia.
Qed.

Lemma C11_lemma : forall alg p fs s, alg_lookup alg = Some p -> fs < 4294967296 ->
  (forall f r, ds_res (deserialize_frame p fs s) = Ok (f, r) ->
     (bytes_ok s -> frame_wf fs f /\ s = wire_frame f ++ r) /\
     forall t, ds_res (deserialize_frame p fs (s ++ t)) = Ok (f, r ++ t)) /\
  (forall e, ds_res (deserialize_frame p fs s) = Err e ->
     e = E_BAD_CIPHERTEXT /\ (forall t, ds_res (deserialize_frame p fs (s ++ t)) = Err E_BAD_CIPHERTEXT) \/
     e = E_SHORT_BUFFER /\ (forall f r, frame_wf fs f -> s <> wire_frame f ++ r)) /\
  (forall f q, frame_wf fs f -> wire_frame f = s ++ q -> q <> [] ->
     ds_res (deserialize_frame p fs s) = Err E_SHORT_BUFFER).
Proof.
  intros alg p fs s LK FS. assert (SL := lookup_std_lens _ _ LK).
  destruct (good_frame_parser p fs) as [G1 [G2 G3]].
  split; [|split].
  - intros f r H. split.
    + intros B. now apply (deserialize_frame_sound p fs s f r SL FS B).
    + intros t. rewrite deserialize_frame_parser in *. now apply G2.
  - intros e H. destruct (deserialize_frame_err _ _ _ _ H) as [->| ->].
    + right. split; auto. intros f r WF ->. rewrite deserialize_frame_complete in H by auto. discriminate.
    + left. split; auto. intros t. rewrite deserialize_frame_parser in *. apply G3; auto. discriminate.
  - intros f q WF E NQ. pose proof (deserialize_frame_complete p fs f [] SL FS WF) as C. rewrite app_nil_r, E in C.
    apply (f_equal ds_res) in C. cbn [ds_res] in C. rewrite deserialize_frame_parser in *.
    eapply good_prefix_short; eauto. apply good_frame_parser.
Qed.

Lemma C12_partial_lemma : forall alg p fs s f t, alg_lookup alg = Some p -> fs < 4294967296 -> frame_wf fs f ->
  wire_frame f = s ++ t -> t <> [] -> (fs = 0 \/ 4 <= Nlen s \/ fr_type f = FRAME_TYPE_FRAME) ->
  Nlen s < ds_csize (deserialize_frame p fs s) <= Nlen (wire_frame f).
Proof.
  intros alg p fs s f t LK FS WF E NE C. assert (SL := lookup_std_lens _ _ LK). split.
  - apply des_short_more; auto. destruct (C11_lemma alg p fs s LK FS) as [_ [_ X]]. eapply X; eauto.
  - destruct C as [C|[C|C]].
    + eapply des_csize_lower with (t := t) (r := []); eauto. now rewrite app_nil_r.
    + eapply des_csize_lower with (t := t) (r := []); eauto. now rewrite app_nil_r.
    + destruct (N.lt_ge_cases (Nlen s) 4).
      * rewrite (Nlen_wire_frame fs f WF), C. assert (WF' := WF). destruct WF' as [_ [_ T]]. rewrite C in T. destruct T as [? [-> ?]].
        destruct (des_sizes_framed p fs s SL) as [[_ [_ ->]]|[[mk [s1 [R1 _]]]|[[s1 [sq' [s2 [iv' [s3 [ps [s4 [R1 _]]]]]]]]|[s1 [R1 _]]]]]; try lia;
        apply read_be_ok_len in R1; lia.
      * eapply des_csize_lower with (t := t) (r := []); eauto. now rewrite app_nil_r.
Qed.

Lemma C12_refuted_lemma : exists alg p fs f s t, alg_lookup alg = Some p /\ fs < 4294967296 /\ frame_wf fs f /\
  wire_frame f = s ++ t /\ t <> [] /\
  ds_res (deserialize_frame p fs s) = Err E_SHORT_BUFFER /\
  Nlen (wire_frame f) < ds_csize (deserialize_frame p fs s).
Proof.
  exists 0x0178, (static_alg_props 0x0178 1 "sha256"%string 256 12 16 0 0 0), 100.
  exists (mk_frame FRAME_TYPE_FINAL 1 (zeros 12) [] (zeros 16)), [255; 255; 255].
  exists (skipn 3 (wire_frame (mk_frame FRAME_TYPE_FINAL 1 (zeros 12) [] (zeros 16)))).
  split; [reflexivity|]. split; [lia|]. split; [unfold frame_wf; repeat split; vm_compute; (reflexivity || discriminate)|].
  split; [reflexivity|]. split; [discriminate|]. split; [reflexivity|]. vm_compute. reflexivity.
Qed.
