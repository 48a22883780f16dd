(** Proofs about the message header codec. *)
From Verif Require Import Base BaseProofs AlgModel EncCtxModel HdrModel FrameModel WireSpec EncCtxProofs.
From Coq Require Import ZArith ZifyBool ZifyNat ZifyN Permutation Sorted.
Open Scope N_scope.

(** ** Algorithm table *)

Ltac split_ids :=
  repeat match goal with
  | H : context [?x =? ?c] |- _ => destruct (N.eqb_spec x c); [subst; clear H|]; cbn [orb] in *
  end.

Lemma in_v1_cases : forall id, In id v1_suites -> exists p, alg_lookup id = Some p /\
  ap_version p = 1 /\ ap_id p = id /\ ap_iv_len p = 12 /\ ap_tag_len p = 16 /\ ap_suite_data_len p = 0 /\
  ap_commitment_len p = 0 /\ alg_is_known id = true /\ alg_is_committing id = false.
Proof.
  intros id H. cbn [v1_suites In] in H.
  repeat (destruct H as [<-|H]; [eexists; repeat split|]). contradiction.
Qed.

Lemma in_v2_cases : forall id, In id v2_suites -> exists p, alg_lookup id = Some p /\
  ap_version p = 2 /\ ap_id p = id /\ ap_iv_len p = 12 /\ ap_tag_len p = 16 /\ ap_suite_data_len p = 32 /\
  ap_commitment_len p = 32 /\ alg_is_known id = true /\ alg_is_committing id = true.
Proof.
  intros id H. cbn [v2_suites In] in H.
  repeat (destruct H as [<-|H]; [eexists; repeat split|]). contradiction.
Qed.

Lemma alg_lookup_cases : forall id p, alg_lookup id = Some p -> In id v1_suites \/ In id v2_suites.
Proof.
  intros id p H. unfold alg_lookup in H.
  repeat match goal with
  | H : context [id =? ?c] |- _ => destruct (N.eqb_spec id c); [subst; cbn; auto 20|]
  end. discriminate.
Qed.

Lemma v1_not_v2 : forall id, In id v1_suites -> In id v2_suites -> False.
Proof.
  intros id H1 H2. apply in_v1_cases in H1. apply in_v2_cases in H2.
  destruct H1 as [p [L [V _]]]. destruct H2 as [q [L' [V' _]]]. rewrite L in L'. inv L'. lia.
Qed.

Lemma alg_known_lookup : forall id, alg_is_known id = true <-> exists p, alg_lookup id = Some p.
Proof.
  intros id. split.
  - unfold alg_is_known. intros H. apply existsb_exists in H. destruct H as [x [I E]].
    apply N.eqb_eq in E. subst x. cbn [In] in I.
    repeat (destruct I as [<-|I]; [eexists; reflexivity|]). contradiction.
  - intros [p H]. destruct (alg_lookup_cases _ _ H) as [H1|H1].
    + destruct (in_v1_cases _ H1) as [q Q]. tauto.
    + destruct (in_v2_cases _ H1) as [q Q]. tauto.
Qed.

Lemma suite_id_small : forall id, In id v1_suites \/ In id v2_suites -> id < 65536.
Proof.
  intros id [H|H]; cbn in H; repeat (destruct H as [<-|H]; [reflexivity|]); contradiction.
Qed.

(** ** Parsing: streaming *)

Ltac good_step :=
  first
  [ apply good_ret | apply good_err | apply good_read_be | apply good_read_bytes
  | apply good_if
  | match goal with
    | |- good (fun s => bind _ _) => refine (good_do _ _ _ (fun _ _ => _) _ (fun _ => _))
    end ].
Ltac good_auto := repeat good_step.

Lemma good_parse_aad : good parse_aad.
Proof.
  unfold parse_aad. refine (good_do _ _ _ (fun l s => _) (good_read_be 2) (fun l => _)).
  apply good_if; [apply good_ret|].
  refine (good_do _ _ _ (fun aad s => _) (good_read_bytes l) (fun aad => _)).
  destruct (enc_ctx_deserialize [] aad) as [c [[|? ?]|]]; good_auto.
Qed.

Lemma good_field16 : good parse_field16.
Proof. unfold parse_field16. good_auto. Qed.

Lemma good_parse_edk : good parse_edk.
Proof.
  unfold parse_edk.
  refine (good_do _ _ _ (fun a s => _) good_field16 (fun a => _)).
  refine (good_do _ _ _ (fun b s => _) good_field16 (fun b => _)).
  refine (good_do _ _ _ (fun c s => _) good_field16 (fun c => _)). good_auto.
Qed.

Lemma good_edk_loop : forall n, good (parse_edk_loop n).
Proof.
  induction n; cbn [parse_edk_loop]; [good_auto|].
  refine (good_do _ _ _ (fun e s => _) good_parse_edk (fun e => _)).
  refine (good_do _ _ _ (fun l s => _) IHn (fun l => _)). good_auto.
Qed.

Lemma good_parse_edks : forall m, good (parse_edks m).
Proof. intros. unfold parse_edks. good_auto. apply good_edk_loop. Qed.

Lemma good_ctype : good parse_content_type. Proof. unfold parse_content_type. good_auto. Qed.
Lemma good_version : good parse_header_version. Proof. unfold parse_header_version. good_auto. Qed.
Lemma good_mtype : good parse_message_type. Proof. unfold parse_message_type. good_auto. Qed.
Lemma good_reserved : good parse_reserved. Proof. unfold parse_reserved. good_auto. Qed.
Lemma good_frame_len : forall c, good (parse_frame_len c). Proof. intros. unfold parse_frame_len. good_auto. Qed.
Lemma good_iv_len : forall a, good (parse_iv_len a).
Proof. intros. unfold parse_iv_len. destruct (algorithm_ivlen a); good_auto. Qed.
Lemma good_alg_id : forall v, good (parse_alg_id v).
Proof.
  intros. unfold parse_alg_id. good_auto. destruct (alg_lookup _); good_auto.
Qed.
Lemma good_suite : forall p, good (parse_alg_suite_data p).
Proof. intros. unfold parse_alg_suite_data. good_auto. Qed.
Lemma good_auth_tag : forall a, good (parse_auth_tag a).
Proof. intros. unfold parse_auth_tag. destruct (algorithm_taglen a); good_auto. Qed.

(** The fields before the tag, as one parser. *)
Definition parse_prefix (max_edks : N) : parser (N * N * alg_props * list N * enc_ctx * list edk * N * N * list N) :=
  fun s =>
  do (version, s) <- parse_header_version s;
  do (_, s) <- (if version =? HEADER_VERSION_1_0 then parse_message_type s else Ok (tt, s));
  do ((alg_id, p), s) <- parse_alg_id version s;
  do (mid, s) <- parse_message_id p s;
  do (ctx, s) <- parse_aad s;
  do (edks, s) <- parse_edks max_edks s;
  do (ctype, s) <- parse_content_type s;
  do (_, s) <- (if version =? HEADER_VERSION_1_0 then parse_reserved s else Ok (tt, s));
  do (iv_len, s) <- (if version =? HEADER_VERSION_1_0 then parse_iv_len alg_id s else Ok (0, s));
  do (frame_len, s) <- parse_frame_len ctype s;
  do (suite, s) <- (if version =? HEADER_VERSION_2_0 then parse_alg_suite_data p s else Ok ([], s));
  Ok ((version, alg_id, p, mid, ctx, edks, iv_len, frame_len, suite), s).

Definition parse_tail (version iv_len alg_id : N) : parser (list N * list N) := fun s =>
  do (iv, s) <- (if version =? HEADER_VERSION_1_0 then read_bytes iv_len s else Ok ([], s));
  do (tag, s) <- parse_auth_tag alg_id s;
  Ok ((iv, tag), s).

Lemma hdr_parse_eq : forall m s0, hdr_parse m s0 =
  do (x, s) <- parse_prefix m s0;
  let '(version, alg_id, p, mid, ctx, edks, iv_len, frame_len, suite) := x in
  do (y, s') <- parse_tail version iv_len alg_id s;
  Ok (mk_hdr alg_id frame_len (fst y) (snd y) mid suite ctx edks (Nlen s0 - Nlen s), s').
Proof.
  intros. unfold hdr_parse, parse_prefix, parse_tail.
  repeat match goal with
  | |- context [bind (if ?c then ?p else ?q) _] =>
      destruct (if c then p else q) as [[? ?]|]; cbn [bind]; auto
  | |- context [bind (parse_alg_id ?v ?s) _] =>
      destruct (parse_alg_id v s) as [[[? ?] ?]|]; cbn [bind]; auto
  | |- context [bind (?p ?s) _] => destruct (p s) as [[? ?]|]; cbn [bind]; auto
  end.
Qed.

Lemma good_prefix : forall m, good (parse_prefix m).
Proof.
  intros m. unfold parse_prefix.
  refine (good_do _ _ _ (fun version s => _) good_version (fun version => _)).
  refine (good_do _ _ (fun s => if version =? HEADER_VERSION_1_0 then parse_message_type s else Ok (tt, s))
            (fun _ s => _) _ (fun _ => _)).
  { apply good_if; [apply good_mtype|apply good_ret]. }
  apply good_ext with (p := fun s0 => do (x, s) <- parse_alg_id version s0;
    (fun alg_id p s =>
     do (mid, s) <- parse_message_id p s;
     do (ctx, s) <- parse_aad s;
     do (edks, s) <- parse_edks m s;
     do (ctype, s) <- parse_content_type s;
     do (_, s) <- (if version =? HEADER_VERSION_1_0 then parse_reserved s else Ok (tt, s));
     do (iv_len, s) <- (if version =? HEADER_VERSION_1_0 then parse_iv_len alg_id s else Ok (0, s));
     do (frame_len, s) <- parse_frame_len ctype s;
     do (suite, s) <- (if version =? HEADER_VERSION_2_0 then parse_alg_suite_data p s else Ok ([], s));
     Ok ((version, alg_id, p, mid, ctx, edks, iv_len, frame_len, suite), s)) (fst x) (snd x) s).
  { intros s. destruct (parse_alg_id version s) as [[[? ?] ?]|]; reflexivity. }
  refine (good_do _ _ _ (fun x s => _) (good_alg_id version) (fun x => _)). destruct x as [alg_id p].
  cbn [fst snd].
  refine (good_do _ _ _ (fun mid s => _) (good_read_bytes _) (fun mid => _)).
  refine (good_do _ _ _ (fun ctx s => _) good_parse_aad (fun ctx => _)).
  refine (good_do _ _ _ (fun edks s => _) (good_parse_edks m) (fun edks => _)).
  refine (good_do _ _ _ (fun ctype s => _) good_ctype (fun ctype => _)).
  refine (good_do _ _ (fun s => if version =? HEADER_VERSION_1_0 then parse_reserved s else Ok (tt, s))
            (fun _ s => _) _ (fun _ => _)).
  { apply good_if; [apply good_reserved|apply good_ret]. }
  refine (good_do _ _ (fun s => if version =? HEADER_VERSION_1_0 then parse_iv_len alg_id s else Ok (0, s))
            (fun iv_len s => _) _ (fun iv_len => _)).
  { apply good_if; [apply good_iv_len|apply good_ret]. }
  refine (good_do _ _ _ (fun frame_len s => _) (good_frame_len ctype) (fun frame_len => _)).
  refine (good_do _ _ (fun s => if version =? HEADER_VERSION_2_0 then parse_alg_suite_data p s else Ok ([], s))
            (fun suite s => _) _ (fun suite => _)).
  { apply good_if; [apply good_suite|apply good_ret]. }
  apply good_ret.
Qed.

Lemma good_tail : forall v i a, good (parse_tail v i a).
Proof.
  intros. unfold parse_tail.
  refine (good_do _ _ (fun s => if v =? HEADER_VERSION_1_0 then read_bytes i s else Ok ([], s))
            (fun iv s => _) _ (fun iv => _)).
  { apply good_if; [apply good_read_bytes|apply good_ret]. }
  refine (good_do _ _ _ (fun tag s => _) (good_auth_tag a) (fun tag => _)). apply good_ret.
Qed.

Lemma good_hdr_parse : forall m, good (hdr_parse m).
Proof.
  intros m. destruct (good_prefix m) as [P1 [P2 P3]]. split; [|split].
  - intros s h r H. rewrite hdr_parse_eq in H.
    destruct (parse_prefix m s) as [[x s1]|] eqn:E; cbn [bind] in H; [|discriminate].
    destruct x as [[[[[[[[version alg_id] p] mid] ctx] edks] iv_len] frame_len] suite].
    destruct (parse_tail version iv_len alg_id s1) as [[y s2]|] eqn:T; cbn [bind] in H; inv H.
    destruct (P1 _ _ _ E) as [p1 ->]. destruct (proj1 (good_tail _ _ _) _ _ _ T) as [p2 ->].
    exists (p1 ++ p2). now rewrite app_assoc.
  - intros s h r t H. rewrite hdr_parse_eq in H. rewrite hdr_parse_eq.
    destruct (parse_prefix m s) as [[x s1]|] eqn:E; cbn [bind] in H; [|discriminate].
    rewrite (P2 _ _ _ t E). cbn [bind].
    destruct x as [[[[[[[[version alg_id] p] mid] ctx] edks] iv_len] frame_len] suite].
    destruct (parse_tail version iv_len alg_id s1) as [[y s2]|] eqn:T; cbn [bind] in H; inv H.
    rewrite (proj1 (proj2 (good_tail version iv_len alg_id)) _ _ _ t T). cbn [bind].
    destruct (P1 _ _ _ E) as [p1 ->]. do 3 f_equal. rewrite !Nlen_app. lia.
  - intros s e t H NE. rewrite hdr_parse_eq in H. rewrite hdr_parse_eq.
    destruct (parse_prefix m s) as [[x s1]|] eqn:E; cbn [bind] in H.
    + rewrite (P2 _ _ _ t E). cbn [bind].
      destruct x as [[[[[[[[version alg_id] p] mid] ctx] edks] iv_len] frame_len] suite].
      destruct (parse_tail version iv_len alg_id s1) as [[y s2]|] eqn:T; cbn [bind] in H; inv H.
      rewrite (proj2 (proj2 (good_tail version iv_len alg_id)) _ _ t T NE). reflexivity.
    + inv H. rewrite (P3 _ _ t E NE). reflexivity.
Qed.

(** ** Field parsers: completeness and soundness *)

Lemma parse_field16_complete : forall b s, fits16 b -> parse_field16 (field16 b ++ s) = Ok (b, s).
Proof.
  unfold fits16, parse_field16, field16. intros. rewrite <- app_assoc, read_u16 by lia. cbn [bind].
  apply read_bytes_app.
Qed.

Lemma parse_field16_sound : forall s b r, bytes_ok s -> parse_field16 s = Ok (b, r) ->
  s = field16 b ++ r /\ fits16 b /\ bytes_ok r.
Proof.
  unfold parse_field16. intros s b r O H.
  destruct (read_be 2 s) as [[l s1]|] eqn:E; cbn [bind] in H; [|discriminate].
  apply read_u16_inv in E; auto. destruct E as [-> [B O1]].
  apply read_bytes_inv_ok in H; auto. destruct H as [-> [L O2]]. subst l.
  unfold field16, fits16. rewrite <- app_assoc. repeat split; auto. lia.
Qed.

Lemma parse_edk_complete : forall e s, edk_fits e -> parse_edk (wire_edk e ++ s) = Ok (e, s).
Proof.
  intros e s [F1 [F2 F3]]. unfold parse_edk, wire_edk. rewrite <- !app_assoc.
  rewrite parse_field16_complete by auto. cbn [bind].
  rewrite parse_field16_complete by auto. cbn [bind].
  rewrite parse_field16_complete by auto. cbn [bind]. now destruct e.
Qed.

Lemma parse_edk_sound : forall s e r, bytes_ok s -> parse_edk s = Ok (e, r) ->
  s = wire_edk e ++ r /\ edk_fits e /\ bytes_ok r.
Proof.
  unfold parse_edk. intros s e r O H.
  destruct (parse_field16 s) as [[a s1]|] eqn:E1; cbn [bind] in H; [|discriminate].
  apply parse_field16_sound in E1; auto. destruct E1 as [-> [F1 O1]].
  destruct (parse_field16 s1) as [[b s2]|] eqn:E2; cbn [bind] in H; [|discriminate].
  apply parse_field16_sound in E2; auto. destruct E2 as [-> [F2 O2]].
  destruct (parse_field16 s2) as [[c s3]|] eqn:E3; cbn [bind] in H; [|discriminate].
  apply parse_field16_sound in E3; auto. destruct E3 as [-> [F3 O3]].
  inv H. unfold wire_edk, edk_fits. cbn [edk_provider_id edk_provider_info edk_ciphertext]. rewrite <- !app_assoc. auto.
Qed.

Lemma edk_loop_complete : forall l s, Forall edk_fits l ->
  parse_edk_loop (length l) (concat (map wire_edk l) ++ s) = Ok (l, s).
Proof.
  induction l as [|e l IH]; intros s F; cbn [length parse_edk_loop map concat]; auto.
  inv F. rewrite <- app_assoc, parse_edk_complete by auto. cbn [bind]. rewrite IH by auto. reflexivity.
Qed.

Lemma edk_loop_sound : forall n s l r, bytes_ok s -> parse_edk_loop n s = Ok (l, r) ->
  s = concat (map wire_edk l) ++ r /\ length l = n /\ Forall edk_fits l /\ bytes_ok r.
Proof.
  induction n; intros s l r O H; cbn [parse_edk_loop] in H.
  - inv H. auto.
  - destruct (parse_edk s) as [[e s1]|] eqn:E; cbn [bind] in H; [|discriminate].
    apply parse_edk_sound in E; auto. destruct E as [-> [F1 O1]].
    destruct (parse_edk_loop n s1) as [[l' s2]|] eqn:E2; cbn [bind] in H; inv H.
    apply IHn in E2; auto. destruct E2 as [-> [L [F O2]]].
    cbn [map concat length]. rewrite <- app_assoc. auto.
Qed.

Lemma parse_edks_complete : forall m l s, 1 <= Nlen l <= 65535 -> Forall edk_fits l ->
  (m = 0 \/ Nlen l <= m) ->
  parse_edks m (u16 (Nlen l) ++ concat (map wire_edk l) ++ s) = Ok (l, s).
Proof.
  intros m l s L F M. unfold parse_edks. rewrite read_u16 by lia. cbn [bind].
  destruct (N.eqb_spec (Nlen l) 0); [lia|].
  destruct (negb (m =? 0) && (m <? Nlen l)) eqn:C; [lia|].
  rewrite <- length_Nlen. now apply edk_loop_complete.
Qed.

Lemma parse_edks_sound : forall m s l r, bytes_ok s -> parse_edks m s = Ok (l, r) ->
  s = u16 (Nlen l) ++ concat (map wire_edk l) ++ r /\ 1 <= Nlen l <= 65535 /\
  (m = 0 \/ Nlen l <= m) /\ Forall edk_fits l /\ bytes_ok r.
Proof.
  unfold parse_edks. intros m s l r O H.
  destruct (read_be 2 s) as [[n s1]|] eqn:E; cbn [bind] in H; [|discriminate].
  apply read_u16_inv in E; auto. destruct E as [-> [B O1]].
  destruct (N.eqb_spec n 0); [discriminate|].
  destruct (negb (m =? 0) && (m <? n)) eqn:C; [discriminate|].
  apply edk_loop_sound in H; auto. destruct H as [-> [L [F O2]]].
  assert (n = Nlen l) by (unfold Nlen; lia). subst n. repeat split; auto; lia.
Qed.

Lemma parse_aad_complete : forall c s, distinct_keys c -> ctx_fits c ->
  parse_aad (field16 (wire_ctx c) ++ s) = Ok (c, s).
Proof.
  unfold ctx_fits. intros c s D F. pose proof F as F'. unfold parse_aad, field16. rewrite <- app_assoc, read_u16 by lia. cbn [bind].
  pose proof (Nlen_wire_ctx c) as L.
  destruct c as [|e c].
  - reflexivity.
  - destruct (N.eqb_spec (Nlen (wire_ctx (e :: c))) 0); [lia|].
    rewrite read_bytes_app. cbn [bind].
    destruct (ctx_fits_pairs _ F') as [PF C].
    pose proof (deserialize_complete [] (e :: c) []) as X. rewrite app_nil_r in X.
    rewrite X; auto. unfold count_fits. rewrite Nlen_cons in *. lia.
Qed.

Lemma parse_aad_sound : forall s c r, bytes_ok s -> parse_aad s = Ok (c, r) ->
  s = field16 (wire_ctx c) ++ r /\ distinct_keys c /\ ctx_fits c /\ bytes_ok r.
Proof.
  unfold parse_aad. intros s c r O H.
  destruct (read_be 2 s) as [[n s1]|] eqn:E; cbn [bind] in H; [|discriminate].
  apply read_u16_inv in E; auto. destruct E as [-> [B O1]].
  destruct (N.eqb_spec n 0).
  - inv H. repeat split; auto; [constructor|]. unfold ctx_fits. rewrite Nlen_wire_ctx. lia.
  - destruct (read_bytes n s1) as [[aad s2]|] eqn:E2; cbn [bind] in H; [|discriminate].
    apply bytes_ok_app in O. destruct O as [_ O].
    pose proof (read_bytes_inv _ _ _ _ E2) as [E3 _].
    apply read_bytes_inv_ok in E2; auto. destruct E2 as [-> [L O2]]. subst n.
    assert (OA : bytes_ok aad) by (apply bytes_ok_app in O1; tauto).
    destruct (enc_ctx_deserialize [] aad) as [c' [[|? ?]|]] eqn:D; inv H.
    apply deserialize_ok in D; auto. destruct D as [[-> [-> _]]|[C [DK [PF A]]]].
    + repeat split; auto; [constructor|]. unfold ctx_fits. rewrite Nlen_wire_ctx. lia.
    + rewrite app_nil_r in A. subst aad. unfold field16. rewrite <- app_assoc.
      repeat split; auto. unfold ctx_fits. lia.
Qed.

(** ** Whole header *)

Definition wire_body (h : hdr) : list N := if alg_is_committing (h_alg_id h) then wire_body_v2 h else wire_body_v1 h.
Definition wire_auth (h : hdr) : list N := if alg_is_committing (h_alg_id h) then h_auth_tag h else h_iv h ++ h_auth_tag h.

Lemma wire_header_fun : forall h b a, wire_header h b a <-> (is_v1 h \/ is_v2 h) /\ b = wire_body h /\ a = wire_auth h.
Proof.
  intros h b a. unfold wire_body, wire_auth. split.
  - intros H. inv H.
    + destruct (in_v1_cases _ H0) as [p P]. assert (alg_is_committing (h_alg_id h) = false) as -> by tauto. auto.
    + destruct (in_v2_cases _ H0) as [p P]. assert (alg_is_committing (h_alg_id h) = true) as -> by tauto. auto.
  - intros [[V|V] [-> ->]].
    + destruct (in_v1_cases _ V) as [p P]. assert (alg_is_committing (h_alg_id h) = false) as -> by tauto. now constructor.
    + destruct (in_v2_cases _ V) as [p P]. assert (alg_is_committing (h_alg_id h) = true) as -> by tauto. now constructor.
Qed.

Lemma parse_alg_complete : forall id p v s, alg_lookup id = Some p -> ap_version p = v ->
  parse_alg_id v (u16 id ++ s) = Ok ((id, p), s).
Proof.
  intros id p v s L V. unfold parse_alg_id.
  rewrite read_u16 by (apply suite_id_small; eauto using alg_lookup_cases). cbn [bind].
  rewrite (proj2 (alg_known_lookup id)) by eauto. cbn [negb]. rewrite L, V, N.eqb_refl. reflexivity.
Qed.

Lemma parse_alg_sound : forall v s id p r, bytes_ok s -> parse_alg_id v s = Ok ((id, p), r) ->
  s = u16 id ++ r /\ alg_lookup id = Some p /\ ap_version p = v /\ bytes_ok r.
Proof.
  unfold parse_alg_id. intros v s id p r O H.
  destruct (read_be 2 s) as [[x s1]|] eqn:E; cbn [bind] in H; [|discriminate].
  apply read_u16_inv in E; auto. destruct E as [-> [B O1]].
  destruct (negb (alg_is_known x)); [discriminate|].
  destruct (alg_lookup x) as [q|] eqn:L; [|discriminate].
  destruct (N.eqb_spec (ap_version q) v); cbn [negb] in H; [|discriminate]. inv H. auto.
Qed.

Lemma hdr_parse_complete : forall m h b a r,
  hdr_wf h -> edk_limit_ok m h -> wire_header h b a -> h_auth_len h = Nlen b ->
  hdr_parse m (b ++ a ++ r) = Ok (h, r).
Proof.
  intros m h b a r [V [T [FL [D [F [L EF]]]]]] LIM W AL.
  rewrite hdr_parse_eq. destruct V as [[V1 [MI [SD IV]]]|[V2 [MI [SD IV]]]].
  - destruct (in_v1_cases _ V1) as [p [LK [VER [ID [IVL [TL [SL [CL [KN CM]]]]]]]]].
    inv W; [|exfalso; eapply v1_not_v2; eauto].
    assert (PP : parse_prefix m (wire_body_v1 h ++ (h_iv h ++ h_auth_tag h) ++ r) =
      Ok ((1, h_alg_id h, p, h_message_id h, h_enc_ctx h, h_edks h, 12, h_frame_len h, []),
          (h_iv h ++ h_auth_tag h) ++ r)).
    { unfold parse_prefix, wire_body_v1. rewrite <- !app_assoc.
      unfold parse_header_version. rewrite read_u8 by lia. cbn [bind].
      change ((1 =? HEADER_VERSION_1_0) || (1 =? HEADER_VERSION_2_0)) with true. cbn [bind].
      change (1 =? HEADER_VERSION_1_0) with true. change (1 =? HEADER_VERSION_2_0) with false. cbn [bind orb].
      unfold parse_message_type. rewrite read_u8 by lia. cbn [bind].
      change (128 =? HEADER_TYPE_CUSTOMER_AED) with true. cbn [bind].
      rewrite (parse_alg_complete _ p) by auto. cbn [bind].
      unfold parse_message_id, message_id_len. rewrite VER. change (1 =? HEADER_VERSION_1_0) with true. cbv iota.
      rewrite read_bytes_app_eq by auto. cbn [bind].
      rewrite parse_aad_complete by auto. cbn [bind].
      rewrite parse_edks_complete by auto. cbn [bind].
      unfold parse_content_type. rewrite read_u8 by (destruct (_ =? _); lia). cbn [bind].
      assert (((if h_frame_len h =? 0 then 1 else 2) =? CTYPE_FRAMED) || ((if h_frame_len h =? 0 then 1 else 2) =? CTYPE_NONFRAMED) = true) as ->
        by (destruct (h_frame_len h =? 0); reflexivity). cbn [bind].
      unfold parse_reserved. rewrite read_u32 by lia. cbn [bind]. change (0 =? 0) with true. cbn [bind].
      unfold parse_iv_len. rewrite read_u8 by lia. cbn [bind]. unfold algorithm_ivlen. rewrite KN.
      change (12 =? 12) with true. cbn [bind].
      unfold parse_frame_len. rewrite read_u32 by auto. cbn [bind].
      assert ((((if h_frame_len h =? 0 then 1 else 2) =? CTYPE_NONFRAMED) && negb (h_frame_len h =? 0)
        || ((if h_frame_len h =? 0 then 1 else 2) =? CTYPE_FRAMED) && (h_frame_len h =? 0)) = false) as ->
        by (destruct (h_frame_len h =? 0); reflexivity). cbn [bind]. reflexivity. }
    rewrite PP. cbn [bind]. unfold parse_tail. change (1 =? HEADER_VERSION_1_0) with true. cbv iota.
    rewrite <- !app_assoc. rewrite read_bytes_app_eq by auto. cbn [bind].
    unfold parse_auth_tag, algorithm_taglen. rewrite KN. rewrite read_bytes_app_eq by auto. cbn [bind fst snd].
    do 2 f_equal.
    replace (Nlen (wire_body_v1 h ++ h_iv h ++ h_auth_tag h ++ r) - Nlen (h_iv h ++ h_auth_tag h ++ r))
      with (h_auth_len h) by (rewrite AL, (Nlen_app _ (wire_body_v1 h)); lia).
    rewrite <- SD. now destruct h.
  - destruct (in_v2_cases _ V2) as [p [LK [VER [ID [IVL [TL [SL [CL [KN CM]]]]]]]]].
    inv W; [exfalso; eapply v1_not_v2; eauto|].
    assert (PP : parse_prefix m (wire_body_v2 h ++ h_auth_tag h ++ r) =
      Ok ((2, h_alg_id h, p, h_message_id h, h_enc_ctx h, h_edks h, 0, h_frame_len h, h_alg_suite_data h),
          h_auth_tag h ++ r)).
    { unfold parse_prefix, wire_body_v2. rewrite <- !app_assoc.
      unfold parse_header_version. rewrite read_u8 by lia. cbn [bind].
      change ((2 =? HEADER_VERSION_1_0) || (2 =? HEADER_VERSION_2_0)) with true. cbn [bind].
      change (2 =? HEADER_VERSION_1_0) with false. change (2 =? HEADER_VERSION_2_0) with true. cbn [bind].
      rewrite (parse_alg_complete _ p) by auto. cbn [bind].
      unfold parse_message_id, message_id_len. rewrite VER. change (2 =? HEADER_VERSION_1_0) with false.
      change (2 =? HEADER_VERSION_2_0) with true. cbv iota.
      rewrite read_bytes_app_eq by auto. cbn [bind].
      rewrite parse_aad_complete by auto. cbn [bind].
      rewrite parse_edks_complete by auto. cbn [bind].
      unfold parse_content_type. rewrite read_u8 by (destruct (_ =? _); lia). cbn [bind].
      assert (((if h_frame_len h =? 0 then 1 else 2) =? CTYPE_FRAMED) || ((if h_frame_len h =? 0 then 1 else 2) =? CTYPE_NONFRAMED) = true) as ->
        by (destruct (h_frame_len h =? 0); reflexivity). cbn [bind].
      unfold parse_frame_len. rewrite read_u32 by auto. cbn [bind].
      assert ((((if h_frame_len h =? 0 then 1 else 2) =? CTYPE_NONFRAMED) && negb (h_frame_len h =? 0)
        || ((if h_frame_len h =? 0 then 1 else 2) =? CTYPE_FRAMED) && (h_frame_len h =? 0)) = false) as ->
        by (destruct (h_frame_len h =? 0); reflexivity). cbn [bind].
      unfold parse_alg_suite_data. rewrite SL. change (32 =? 0) with false. cbv iota.
      rewrite read_bytes_app_eq by auto. reflexivity. }
    rewrite PP. cbn [bind]. unfold parse_tail. change (2 =? HEADER_VERSION_1_0) with false. cbn [bind].
    unfold parse_auth_tag, algorithm_taglen. rewrite KN. rewrite read_bytes_app_eq by auto. cbn [bind fst snd].
    do 2 f_equal.
    replace (Nlen (wire_body_v2 h ++ h_auth_tag h ++ r) - Nlen (h_auth_tag h ++ r))
      with (h_auth_len h) by (rewrite AL, (Nlen_app _ (wire_body_v2 h)); lia).
    rewrite <- IV. now destruct h.
Qed.

Lemma Ok_pair_inj : forall A B (a a' : A) (b b' : B), Ok (a, b) = Ok (a', b') -> a = a' /\ b = b'.
Proof. intros. split; congruence. Qed.

Lemma hdr_parse_sound : forall m s h r, bytes_ok s -> hdr_parse m s = Ok (h, r) ->
  hdr_wf h /\ edk_limit_ok m h /\
  exists b a, wire_header h b a /\ h_auth_len h = Nlen b /\ s = b ++ a ++ r.
Proof.
  intros m s h r O H. unfold hdr_parse in H.
  destruct (parse_header_version s) as [[v s1]|] eqn:E; cbn [bind] in H; [|discriminate].
  unfold parse_header_version in E.
  destruct (read_be 1 s) as [[v' s1']|] eqn:E0; cbn [bind] in E; [|discriminate].
  destruct ((v' =? HEADER_VERSION_1_0) || (v' =? HEADER_VERSION_2_0)) eqn:VV; inv E.
  apply read_u8_inv in E0; auto. destruct E0 as [-> [_ O1]].
  assert (V12 : v = 1 \/ v = 2) by (unfold HEADER_VERSION_1_0, HEADER_VERSION_2_0 in VV; lia).
  clear VV. destruct V12 as [-> | ->].
  - change (1 =? HEADER_VERSION_1_0) with true in H. change (1 =? HEADER_VERSION_2_0) with false in H. cbv iota in H.
    destruct (parse_message_type s1) as [[u s2]|] eqn:E; cbn [bind] in H; [|discriminate].
    unfold parse_message_type in E. destruct (read_be 1 s1) as [[t s2']|] eqn:E0; cbn [bind] in E; [|discriminate].
    destruct (N.eqb_spec t HEADER_TYPE_CUSTOMER_AED); inv E.
    apply read_u8_inv in E0; auto. destruct E0 as [-> [_ O2]].
    destruct (parse_alg_id 1 s2) as [[[id p] s3]|] eqn:E; cbn [bind] in H; [|discriminate].
    apply parse_alg_sound in E; auto. destruct E as [-> [LK [VER O3]]].
    assert (V1 : In id v1_suites).
    { destruct (alg_lookup_cases _ _ LK) as [?|V2]; auto.
      destruct (in_v2_cases _ V2) as [q Q]. rewrite LK in Q. destruct Q as [Q1 [Q2 _]]. inv Q1. lia. }
    destruct (in_v1_cases _ V1) as [p' [LK' [_ [ID [IVL [TL [SL [CL [KN CM]]]]]]]]].
    rewrite LK in LK'. inv LK'.
    unfold parse_message_id, message_id_len in H. rewrite VER in H. change (1 =? HEADER_VERSION_1_0) with true in H. cbv iota in H.
    destruct (read_bytes 16 s3) as [[mid s4]|] eqn:E; cbn [bind] in H; [|discriminate].
    apply read_bytes_inv_ok in E; auto. destruct E as [-> [MI O4]].
    destruct (parse_aad s4) as [[ctx s5]|] eqn:E; cbn [bind] in H; [|discriminate].
    apply parse_aad_sound in E; auto. destruct E as [-> [DK [CF O5]]].
    destruct (parse_edks m s5) as [[edks s6]|] eqn:E; cbn [bind] in H; [|discriminate].
    apply parse_edks_sound in E; auto. destruct E as [-> [EL [LIM [EF O6]]]].
    destruct (parse_content_type s6) as [[ct s7]|] eqn:E; cbn [bind] in H; [|discriminate].
    unfold parse_content_type in E. destruct (read_be 1 s6) as [[ct' s7']|] eqn:E0; cbn [bind] in E; [|discriminate].
    destruct ((ct' =? CTYPE_FRAMED) || (ct' =? CTYPE_NONFRAMED)) eqn:CT; inv E.
    apply read_u8_inv in E0; auto. destruct E0 as [-> [_ O7]].
    destruct (parse_reserved s7) as [[u' s8]|] eqn:E; cbn [bind] in H; [|discriminate].
    unfold parse_reserved in E. destruct (read_be 4 s7) as [[z s8']|] eqn:E0; cbn [bind] in E; [|discriminate].
    destruct (N.eqb_spec z 0); inv E.
    apply read_u32_inv in E0; auto. destruct E0 as [-> [_ O8]].
    destruct (parse_iv_len (ap_id p') s8) as [[ivl s9]|] eqn:E; cbn [bind] in H; [|discriminate].
    unfold parse_iv_len in E. destruct (read_be 1 s8) as [[l s9']|] eqn:E0; cbn [bind] in E; [|discriminate].
    unfold algorithm_ivlen in E. rewrite KN in E. destruct (N.eqb_spec l 12); inv E.
    apply read_u8_inv in E0; auto. destruct E0 as [-> [_ O9]].
    destruct (parse_frame_len ct s9) as [[fl s10]|] eqn:E; cbn [bind] in H; [|discriminate].
    unfold parse_frame_len in E. destruct (read_be 4 s9) as [[fl' s10']|] eqn:E0; cbn [bind] in E; [|discriminate].
    destruct ((ct =? CTYPE_NONFRAMED) && negb (fl' =? 0) || (ct =? CTYPE_FRAMED) && (fl' =? 0)) eqn:CF2; inv E.
    apply read_u32_inv in E0; auto. destruct E0 as [-> [FLB O10]].
    destruct (read_bytes 12 s10) as [[iv s11]|] eqn:E; cbn [bind] in H; [|discriminate].
    apply read_bytes_inv_ok in E; auto. destruct E as [-> [IVB O11]].
    destruct (parse_auth_tag (ap_id p') s11) as [[tag s12]|] eqn:E; cbn [bind] in H; [|discriminate].
    unfold parse_auth_tag, algorithm_taglen in E. rewrite KN in E.
    apply read_bytes_inv_ok in E; auto. destruct E as [-> [TB O12]].
    apply Ok_pair_inj in H. destruct H as [<- <-].
    assert (CTE : ct = if fl =? 0 then 1 else 2).
    { unfold CTYPE_NONFRAMED, CTYPE_FRAMED in *. destruct (N.eqb_spec fl 0); lia. }
    match goal with |- context [mk_hdr _ _ _ _ _ _ _ _ ?x] => set (al := x) end.
    set (h := mk_hdr _ _ _ _ _ _ _ _ _).
    split; [|split].
    + unfold hdr_wf, is_v1, h; cbn [h_alg_id h_message_id h_alg_suite_data h_iv h_auth_tag h_frame_len h_enc_ctx h_edks].
      split; [left; auto|]. repeat split; auto; lia.
    + exact LIM.
    + exists (wire_body_v1 h), (h_iv h ++ h_auth_tag h). split; [now constructor|].
      assert (EQ : forall tl, u8 1 ++ u8 HEADER_TYPE_CUSTOMER_AED ++ u16 (ap_id p') ++ mid ++ field16 (wire_ctx ctx) ++
        u16 (Nlen edks) ++ concat (map wire_edk edks) ++ u8 ct ++ u32 0 ++ u8 12 ++ u32 fl ++ tl =
        wire_body_v1 h ++ tl).
      { intros tl. unfold wire_body_v1, h. cbn [h_alg_id h_message_id h_enc_ctx h_edks h_frame_len].
        rewrite <- !app_assoc. rewrite CTE. reflexivity. }
      split.
      * change (h_auth_len h) with al. unfold al. rewrite EQ, (Nlen_app _ _ (_ ++ _)). lia.
      * rewrite EQ. change (h_iv h) with iv. change (h_auth_tag h) with tag. now rewrite <- app_assoc.
  - change (2 =? HEADER_VERSION_1_0) with false in H. change (2 =? HEADER_VERSION_2_0) with true in H. cbn [bind] in H.
    destruct (parse_alg_id 2 s1) as [[[id p] s3]|] eqn:E; cbn [bind] in H; [|discriminate].
    apply parse_alg_sound in E; auto. destruct E as [-> [LK [VER O3]]].
    assert (V2 : In id v2_suites).
    { destruct (alg_lookup_cases _ _ LK) as [V1|?]; auto.
      destruct (in_v1_cases _ V1) as [q Q]. rewrite LK in Q. destruct Q as [Q1 [Q2 _]]. inv Q1. lia. }
    destruct (in_v2_cases _ V2) as [p' [LK' [_ [ID [IVL [TL [SL [CL [KN CM]]]]]]]]].
    rewrite LK in LK'. inv LK'.
    unfold parse_message_id, message_id_len in H. rewrite VER in H. change (2 =? HEADER_VERSION_1_0) with false in H.
    change (2 =? HEADER_VERSION_2_0) with true in H. cbv iota in H.
    destruct (read_bytes 32 s3) as [[mid s4]|] eqn:E; cbn [bind] in H; [|discriminate].
    apply read_bytes_inv_ok in E; auto. destruct E as [-> [MI O4]].
    destruct (parse_aad s4) as [[ctx s5]|] eqn:E; cbn [bind] in H; [|discriminate].
    apply parse_aad_sound in E; auto. destruct E as [-> [DK [CF O5]]].
    destruct (parse_edks m s5) as [[edks s6]|] eqn:E; cbn [bind] in H; [|discriminate].
    apply parse_edks_sound in E; auto. destruct E as [-> [EL [LIM [EF O6]]]].
    destruct (parse_content_type s6) as [[ct s7]|] eqn:E; cbn [bind] in H; [|discriminate].
    unfold parse_content_type in E. destruct (read_be 1 s6) as [[ct' s7']|] eqn:E0; cbn [bind] in E; [|discriminate].
    destruct ((ct' =? CTYPE_FRAMED) || (ct' =? CTYPE_NONFRAMED)) eqn:CT; inv E.
    apply read_u8_inv in E0; auto. destruct E0 as [-> [_ O7]].
    destruct (parse_frame_len ct s7) as [[fl s10]|] eqn:E; cbn [bind] in H; [|discriminate].
    unfold parse_frame_len in E. destruct (read_be 4 s7) as [[fl' s10']|] eqn:E0; cbn [bind] in E; [|discriminate].
    destruct ((ct =? CTYPE_NONFRAMED) && negb (fl' =? 0) || (ct =? CTYPE_FRAMED) && (fl' =? 0)) eqn:CF2; inv E.
    apply read_u32_inv in E0; auto. destruct E0 as [-> [FLB O10]].
    unfold parse_alg_suite_data in H. rewrite SL in H. change (32 =? 0) with false in H. cbv iota in H.
    destruct (read_bytes 32 s10) as [[suite s11]|] eqn:E; cbn [bind] in H; [|discriminate].
    apply read_bytes_inv_ok in E; auto. destruct E as [-> [SB O11]].
    destruct (parse_auth_tag (ap_id p') s11) as [[tag s12]|] eqn:E; cbn [bind] in H; [|discriminate].
    unfold parse_auth_tag, algorithm_taglen in E. rewrite KN in E.
    apply read_bytes_inv_ok in E; auto. destruct E as [-> [TB O12]].
    apply Ok_pair_inj in H. destruct H as [<- <-].
    assert (CTE : ct = if fl =? 0 then 1 else 2).
    { unfold CTYPE_NONFRAMED, CTYPE_FRAMED in *. destruct (N.eqb_spec fl 0); lia. }
    match goal with |- context [mk_hdr _ _ _ _ _ _ _ _ ?x] => set (al := x) end.
    set (h := mk_hdr _ _ _ _ _ _ _ _ _).
    split; [|split].
    + unfold hdr_wf, is_v2, h; cbn [h_alg_id h_message_id h_alg_suite_data h_iv h_auth_tag h_frame_len h_enc_ctx h_edks].
      split; [right; auto|]. repeat split; auto; lia.
    + exact LIM.
    + exists (wire_body_v2 h), (h_auth_tag h). split; [now constructor|].
      assert (EQ : forall tl, u8 2 ++ u16 (ap_id p') ++ mid ++ field16 (wire_ctx ctx) ++
        u16 (Nlen edks) ++ concat (map wire_edk edks) ++ u8 ct ++ u32 fl ++ suite ++ tl =
        wire_body_v2 h ++ tl).
      { intros tl. unfold wire_body_v2, h. cbn [h_alg_id h_message_id h_enc_ctx h_edks h_frame_len h_alg_suite_data].
        rewrite <- !app_assoc. rewrite CTE. reflexivity. }
      split.
      * change (h_auth_len h) with al. unfold al. rewrite EQ, (Nlen_app _ _ (_ ++ _)). lia.
      * rewrite EQ. reflexivity.
Qed.

(** ** Writing *)

Definition with_ctx (h : hdr) (c : enc_ctx) : hdr :=
  mk_hdr (h_alg_id h) (h_frame_len h) (h_iv h) (h_auth_tag h) (h_message_id h) (h_alg_suite_data h) c
         (h_edks h) (h_auth_len h).

Lemma ser_edks_wire : forall l, Forall edk_fits l -> concat (map ser_edk l) = concat (map wire_edk l).
Proof.
  induction l as [|e l IH]; intros F; cbn [map concat]; auto. inv F. rewrite IH by auto. f_equal.
  destruct H1 as [F1 [F2 F3]]. unfold ser_edk, wire_edk, field16, fits16 in *.
  rewrite !be2 by lia. now rewrite <- !app_assoc.
Qed.

(** Headers whose variable fields fit; message id, suite data, IV (version 2) and tag may have any length. *)
Definition hdr_fits (h : hdr) : Prop :=
  (is_v1 h /\ h_alg_suite_data h = [] /\ Nlen (h_iv h) = 12 \/ is_v2 h) /\
  h_frame_len h < 4294967296 /\ ctx_fits (h_enc_ctx h) /\
  Nlen (h_edks h) <= 65535 /\ Forall edk_fits (h_edks h).

Lemma hdr_wf_fits : forall h, hdr_wf h -> hdr_fits h.
Proof. unfold hdr_wf, hdr_fits. intros h H. intuition lia. Qed.

Definition wire_bytes (h : hdr) : list N := wire_body (with_ctx h (ctx_sort (h_enc_ctx h))) ++ wire_auth h.

Lemma hdr_write_spec : forall h outlen, hdr_fits h ->
  hdr_write h outlen =
  if outlen <? Nlen (wire_bytes h) then Err E_SHORT_BUFFER else Ok (wire_bytes h).
Proof.
  intros h outlen [V [FL [CF [EL EF]]]]. unfold hdr_write, wire_bytes, wire_body, wire_auth, with_ctx.
  cbn [h_alg_id h_iv h_auth_tag].
  assert (ID : h_alg_id h < 65536) by (apply suite_id_small; unfold is_v1, is_v2 in V; tauto).
  pose proof (Nlen_wire_ctx_perm _ _ (ctx_sort_perm (h_enc_ctx h))) as LS.
  destruct V as [[V1 [SD IV]]|V2].
  - destruct (in_v1_cases _ V1) as [p [LK [VER [_ [_ [_ [SL [CL [KN CM]]]]]]]]].
    rewrite LK, VER, CM. change (1 =? HEADER_VERSION_1_0) with true. cbv iota.
    set (pre := be_bytes 1 1 ++ _).
    rewrite serialize_spec. destruct (N.ltb_spec 65535 (Nlen (wire_ctx (h_enc_ctx h)))); [unfold ctx_fits in CF; lia|].
    assert (EQ : forall x, pre ++ be_bytes 2 (Nlen (wire_ctx (ctx_sort (h_enc_ctx h)))) ++ wire_ctx (ctx_sort (h_enc_ctx h)) ++
        be_bytes 2 (Nlen (h_edks h)) ++ concat (map ser_edk (h_edks h)) ++
        be_bytes 1 (if h_frame_len h =? 0 then CTYPE_NONFRAMED else CTYPE_FRAMED) ++
        (zeros 4 ++ be_bytes 1 (Nlen (h_iv h))) ++ be_bytes 4 (h_frame_len h) ++ h_alg_suite_data h ++ x =
        wire_body_v1 (mk_hdr (h_alg_id h) (h_frame_len h) (h_iv h) (h_auth_tag h) (h_message_id h) (h_alg_suite_data h)
           (ctx_sort (h_enc_ctx h)) (h_edks h) (h_auth_len h)) ++ x).
    { intros x. unfold pre, wire_body_v1, field16. cbn [h_alg_id h_message_id h_enc_ctx h_edks h_frame_len].
      rewrite LS. unfold ctx_fits in CF. rewrite SD, IV.
      change CTYPE_NONFRAMED with 1. change CTYPE_FRAMED with 2. change HEADER_TYPE_CUSTOMER_AED with 128.
      rewrite (be1 1), (be1 128), (be1 12), (be1 (if h_frame_len h =? 0 then 1 else 2)) by (try destruct (_ =? _); lia).
      rewrite !be2 by lia. rewrite be4 by auto. rewrite ser_edks_wire by auto. change (zeros 4) with (u32 0).
      rewrite <- !app_assoc. reflexivity. }
    set (W := wire_body_v1 _) in *.
    destruct ((Nlen (wire_ctx (h_enc_ctx h)) =? 0) || (Nlen pre + 2 + Nlen (wire_ctx (h_enc_ctx h)) <=? outlen)) eqn:C.
    + rewrite EQ. reflexivity.
    + destruct (N.ltb_spec outlen (Nlen (W ++ h_iv h ++ h_auth_tag h))); auto.
      exfalso. rewrite <- EQ in H0. rewrite !Nlen_app, LS, Nlen_be_bytes in H0. lia.
  - destruct (in_v2_cases _ V2) as [p [LK [VER [_ [_ [_ [SL [CL [KN CM]]]]]]]]].
    rewrite LK, VER, CM. change (2 =? HEADER_VERSION_1_0) with false. cbv iota.
    set (pre := be_bytes 1 2 ++ _).
    rewrite serialize_spec. destruct (N.ltb_spec 65535 (Nlen (wire_ctx (h_enc_ctx h)))); [unfold ctx_fits in CF; lia|].
    assert (EQ : forall x, pre ++ be_bytes 2 (Nlen (wire_ctx (ctx_sort (h_enc_ctx h)))) ++ wire_ctx (ctx_sort (h_enc_ctx h)) ++
        be_bytes 2 (Nlen (h_edks h)) ++ concat (map ser_edk (h_edks h)) ++
        be_bytes 1 (if h_frame_len h =? 0 then CTYPE_NONFRAMED else CTYPE_FRAMED) ++
        [] ++ be_bytes 4 (h_frame_len h) ++ h_alg_suite_data h ++ x =
        wire_body_v2 (mk_hdr (h_alg_id h) (h_frame_len h) (h_iv h) (h_auth_tag h) (h_message_id h) (h_alg_suite_data h)
           (ctx_sort (h_enc_ctx h)) (h_edks h) (h_auth_len h)) ++ x).
    { intros x. unfold pre, wire_body_v2, field16. cbn [h_alg_id h_message_id h_enc_ctx h_edks h_frame_len h_alg_suite_data].
      rewrite LS. unfold ctx_fits in CF.       change CTYPE_NONFRAMED with 1. change CTYPE_FRAMED with 2.
      rewrite (be1 2), (be1 (if h_frame_len h =? 0 then 1 else 2)) by (try destruct (_ =? _); lia).
      rewrite !be2 by lia. rewrite be4 by auto. rewrite ser_edks_wire by auto.
      rewrite <- !app_assoc. reflexivity. }
    set (W := wire_body_v2 _) in *.
    destruct ((Nlen (wire_ctx (h_enc_ctx h)) =? 0) || (Nlen pre + 2 + Nlen (wire_ctx (h_enc_ctx h)) <=? outlen)) eqn:C.
    + rewrite EQ. reflexivity.
    + destruct (N.ltb_spec outlen (Nlen (W ++ h_auth_tag h))); auto.
      exfalso. rewrite <- EQ in H0. rewrite !Nlen_app, LS, Nlen_be_bytes in H0. lia.
Qed.

(** ** Size *)

Fixpoint edks_len (l : list edk) : N :=
  match l with
  | [] => 0
  | e :: l' => 6 + Nlen (edk_provider_id e) + Nlen (edk_provider_info e) + Nlen (edk_ciphertext e) + edks_len l'
  end.

Lemma Nlen_ser_edks : forall l, Nlen (concat (map ser_edk l)) = edks_len l.
Proof.
  induction l as [|e l IH]; cbn [map concat edks_len]; auto. rewrite Nlen_app, IH. f_equal.
  unfold ser_edk. rewrite !Nlen_app, !Nlen_be_bytes. lia.
Qed.

Lemma saturating_add_small : forall a b, a + b < two64 -> saturating_add a b = a + b.
Proof.
  intros a b H. unfold saturating_add, add64. rewrite N.mod_small by auto.
  destruct (N.ltb_spec (a + b) a); [lia|reflexivity].
Qed.

Lemma hdr_size_edks_small : forall l sz, sz + edks_len l < two64 -> hdr_size_edks l sz = sz + edks_len l.
Proof.
  induction l as [|e l IH]; intros sz H; cbn [hdr_size_edks edks_len] in *; [lia|].
  rewrite !saturating_add_small by (rewrite ?saturating_add_small by (rewrite ?saturating_add_small by (rewrite ?saturating_add_small by lia; lia); lia); lia).
  rewrite IH by lia. lia.
Qed.

(** The size before it is squeezed through the int return type. *)
Definition hdr_true_size (p : alg_props) (h : hdr) : N :=
  (if ap_version p =? 1 then 18 + 28 else 12 + 16) + Nlen (h_message_id h) + Nlen (h_alg_suite_data h) +
  Nlen (wire_ctx (h_enc_ctx h)) + edks_len (h_edks h).

Lemma alg_lookup_lens : forall id p, alg_lookup id = Some p ->
  (ap_version p = 1 \/ ap_version p = 2) /\ ap_iv_len p = 12 /\ ap_tag_len p = 16 /\ ap_id p = id.
Proof.
  intros id p H. destruct (alg_lookup_cases _ _ H) as [V|V].
  - destruct (in_v1_cases _ V) as [q [L Q]]. rewrite H in L. inv L. tauto.
  - destruct (in_v2_cases _ V) as [q [L Q]]. rewrite H in L. inv L. tauto.
Qed.

Lemma hdr_size_spec : forall h p, alg_lookup (h_alg_id h) = Some p -> ctx_fits (h_enc_ctx h) ->
  hdr_true_size p h < UINT64_MAX ->
  hdr_size h = through_int (hdr_true_size p h).
Proof.
  intros h p L CF B. unfold hdr_size. rewrite L.
  rewrite (proj2 (enc_ctx_size_ok (h_enc_ctx h) _) (conj eq_refl CF)).
  destruct (alg_lookup_lens _ _ L) as [V [IV [TL _]]].
  unfold hdr_true_size in *. unfold static_fields_len, authtag_len. rewrite IV, TL.
  change UINT64_MAX with 18446744073709551615 in *.
  set (A := Nlen (h_message_id h)) in *. set (D := Nlen (h_alg_suite_data h)) in *.
  set (C := Nlen (wire_ctx (h_enc_ctx h))) in *. set (E := edks_len (h_edks h)) in *.
  assert (M : forall x y, x + y < two64 -> add64 x y = x + y) by (intros; unfold add64; now apply N.mod_small).
  change two64 with 18446744073709551616 in M.
  destruct V as [V|V]; rewrite V in *.
  - change (1 =? HEADER_VERSION_1_0) with true. change (1 =? 1) with true in *. cbv iota in *.
    change (1 + 1 + 2 + 2 + 2 + 1 + 4 + 1 + 4) with 18. change (12 + 16) with 28.
    rewrite (M A D) by lia. rewrite (M 18) by lia. rewrite (M (18 + (A + D))) by lia.
    rewrite (M (18 + (A + D) + 28)) by lia.
    rewrite hdr_size_edks_small by (change two64 with 18446744073709551616; fold E; lia). fold E.
    replace (18 + (A + D) + 28 + C + E) with (18 + 28 + A + D + C + E) by lia.
    destruct (N.eqb_spec (18 + 28 + A + D + C + E) 18446744073709551615); [lia|reflexivity].
  - change (2 =? HEADER_VERSION_1_0) with false. change (2 =? HEADER_VERSION_2_0) with true.
    change (2 =? 1) with false in *. cbv iota in *.
    change (1 + 2 + 2 + 2 + 1 + 4) with 12.
    rewrite (M A D) by lia. rewrite (M 12) by lia. rewrite (M (12 + (A + D))) by lia.
    rewrite (M (12 + (A + D) + 16)) by lia.
    rewrite hdr_size_edks_small by (change two64 with 18446744073709551616; fold E; lia). fold E.
    replace (12 + (A + D) + 16 + C + E) with (12 + 16 + A + D + C + E) by lia.
    destruct (N.eqb_spec (12 + 16 + A + D + C + E) 18446744073709551615); [lia|reflexivity].
Qed.

Lemma through_int_small : forall n, n < 2147483648 -> through_int n = n.
Proof.
  intros n H. unfold through_int. change two32 with 4294967296. change (2 ^ 31) with 2147483648.
  rewrite N.mod_small by lia. destruct (N.ltb_spec n 2147483648); [reflexivity|lia].
Qed.

(** What is written has the true size, whenever IV (version 1) and tag have their fixed lengths. *)
Lemma hdr_write_len : forall h p outlen out, alg_lookup (h_alg_id h) = Some p ->
  (ap_version p = 1 -> Nlen (h_iv h) = 12) -> Nlen (h_auth_tag h) = 16 ->
  hdr_write h outlen = Ok out ->
  Nlen out = hdr_true_size p h /\ ctx_fits (h_enc_ctx h) /\ Nlen out <= outlen.
Proof.
  intros h p outlen out L IV TG H. unfold hdr_write in H. rewrite L in H.
  destruct (alg_lookup_lens _ _ L) as [V _].
  rewrite serialize_spec in H.
  pose proof (Nlen_wire_ctx_perm _ _ (ctx_sort_perm (h_enc_ctx h))) as LS.
  destruct (N.ltb_spec 65535 (Nlen (wire_ctx (h_enc_ctx h)))); [discriminate|].
  destruct (_ || _); [|discriminate].
  match type of H with (if _ <? Nlen ?x then _ else _) = _ => set (o := x) in H end.
  destruct (N.ltb_spec outlen (Nlen o)); inv H. split; [|split; [assumption|lia]].
  unfold hdr_true_size, o. destruct V as [V|V]; rewrite V in *.
  - change (1 =? HEADER_VERSION_1_0) with true. change (1 =? 1) with true. cbv iota.
    rewrite !Nlen_app, !Nlen_be_bytes, Nlen_ser_edks, Nlen_zeros, LS, TG, IV by auto. lia.
  - change (2 =? HEADER_VERSION_1_0) with false. change (2 =? 1) with false. cbv iota.
    rewrite !Nlen_app, !Nlen_be_bytes, Nlen_ser_edks, LS, TG, !Nlen_nil. lia.
Qed.

Lemma Nlen_wire_edks : forall l, Nlen (concat (map wire_edk l)) = edks_len l.
Proof.
  induction l as [|e l IH]; cbn [map concat edks_len]; auto. rewrite Nlen_app, IH. f_equal.
  unfold wire_edk. rewrite !Nlen_app, !Nlen_field16. lia.
Qed.

Lemma wire_header_len : forall h p b a, hdr_wf h -> alg_lookup (h_alg_id h) = Some p -> wire_header h b a ->
  Nlen b + Nlen a = hdr_true_size p h.
Proof.
  intros h p b a [V [T _]] L W. unfold hdr_true_size.
  inv W.
  - destruct (in_v1_cases _ H) as [q [Lq [VER _]]]. rewrite L in Lq. inv Lq. rewrite VER.
    change (1 =? 1) with true. cbv iota.
    destruct V as [[_ [_ [SD IV]]]|[V2 _]]; [|exfalso; eapply v1_not_v2; eauto].
    unfold wire_body_v1. rewrite !Nlen_app, Nlen_field16, Nlen_wire_edks, IV, T, SD, !Nlen_u16, !Nlen_u32, !Nlen_u8, Nlen_nil. lia.
  - destruct (in_v2_cases _ H) as [q [Lq [VER _]]]. rewrite L in Lq. inv Lq. rewrite VER.
    change (2 =? 1) with false. cbv iota.
    unfold wire_body_v2. rewrite !Nlen_app, Nlen_field16, Nlen_wire_edks, T, !Nlen_u16, !Nlen_u32, !Nlen_u8. lia.
Qed.
