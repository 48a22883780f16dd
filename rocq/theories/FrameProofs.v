(** Proofs about the frame codec. *)
From Verif Require Import Base BaseProofs AlgModel EncCtxModel HdrModel FrameModel WireSpec EncCtxProofs HdrProofs.
From Coq Require Import ZArith ZifyBool ZifyNat ZifyN.
Open Scope N_scope.

Definition std_lens (p : alg_props) : Prop := ap_iv_len p = 12 /\ ap_tag_len p = 16.

Lemma lookup_std_lens : forall id p, alg_lookup id = Some p -> std_lens p.
Proof. intros id p H. apply alg_lookup_lens in H. unfold std_lens. tauto. Qed.

Lemma add64_small : forall a b, a + b < 18446744073709551616 -> add64 a b = a + b.
Proof. intros. unfold add64. apply N.mod_small. exact H. Qed.

Lemma rd_int_app : forall k v s c ps, v < 2 ^ (8 * N.of_nat k) ->
  rd_int k (mk_rstate (be_bytes k v ++ s) c ps false) = (v, mk_rstate s (add64 c (N.of_nat k)) ps false).
Proof. intros. unfold rd_int. cbn [rs_small rs_csize rs_psize rs_cur]. rewrite read_be_app by auto. reflexivity. Qed.

Lemma rd_sized_app : forall n b s c ps, n = Nlen b ->
  rd_sized n (mk_rstate (b ++ s) c ps false) = (b, mk_rstate s (add64 c n) ps false).
Proof. intros. unfold rd_sized. cbn [rs_small rs_csize rs_psize rs_cur]. subst. rewrite read_bytes_app. reflexivity. Qed.

Lemma deserialize_frame_complete : forall p fs f r, std_lens p -> fs < 4294967296 -> frame_wf fs f ->
  deserialize_frame p fs (wire_frame f ++ r) =
  mk_des (Ok (f, r)) (Nlen (wire_frame f)) (Nlen (fr_ciphertext f)).
Proof.
  intros p fs f r [IVL TL] FS [IV [TG T]]. destruct f as [ty sq iv ct tag]. cbn [fr_type fr_seqno fr_iv fr_ciphertext fr_authtag] in *.
  unfold deserialize_frame. destruct ty; cbn [wire_frame fr_type fr_seqno fr_iv fr_ciphertext fr_authtag].
  - destruct T as [-> [L ->]]. change (0 =? 0) with true. cbv iota.
    unfold rd_nonframed. rewrite IVL, TL. rewrite <- !app_assoc.
    rewrite rd_sized_app by auto. cbv beta iota.
    rewrite <- be8 by lia. rewrite rd_int_app by (change (2 ^ (8 * N.of_nat 8)) with 18446744073709551616; lia). cbv beta iota.
    unfold rs_set_psize. cbn [rs_cur rs_csize rs_psize rs_small].
    destruct (N.leb_spec MAX_UNFRAMED_PLAINTEXT_SIZE (Nlen ct)); [unfold MAX_UNFRAMED_PLAINTEXT_SIZE in *; lia|].
    rewrite rd_sized_app by auto. cbv beta iota. rewrite rd_sized_app by auto. cbv beta iota.
    cbn [rs_cur rs_csize rs_psize rs_small]. f_equal.
    rewrite !Nlen_app, Nlen_be_bytes, IV, TG. unfold add64.
    change (two64) with 18446744073709551616. rewrite !N.mod_small by lia. lia.
  - destruct T as [NZ [L SQ]]. destruct (N.eqb_spec fs 0); [lia|].
    unfold rd_framed. rewrite IVL, TL. rewrite <- !app_assoc.
    rewrite <- be4 by lia. rewrite rd_int_app by (change (2 ^ (8 * N.of_nat 4)) with 4294967296; lia). cbv beta iota.
    destruct (N.eqb_spec sq LAST_FRAME_MARK); [unfold LAST_FRAME_MARK in *; lia|].
    unfold rs_set_psize. cbn [rs_cur rs_csize rs_psize rs_small].
    rewrite rd_sized_app by auto. cbv beta iota. rewrite rd_sized_app by auto. cbv beta iota.
    rewrite rd_sized_app by auto. cbv beta iota.
    cbn [rs_cur rs_csize rs_psize rs_small].
    rewrite !Nlen_app, Nlen_be_bytes, IV, TG, L. unfold add64.
    change (two64) with 18446744073709551616. rewrite !N.mod_small by lia. f_equal. lia.
  - destruct T as [NZ [L SQ]]. destruct (N.eqb_spec fs 0); [lia|].
    unfold rd_framed. rewrite IVL, TL. rewrite <- !app_assoc.
    rewrite <- !be4 by lia. rewrite rd_int_app by (change (2 ^ (8 * N.of_nat 4)) with 4294967296; lia). cbv beta iota.
    change (4294967295 =? LAST_FRAME_MARK) with true. cbv iota. unfold rd_last_frame. rewrite IVL, TL.
    rewrite rd_int_app by (change (2 ^ (8 * N.of_nat 4)) with 4294967296; lia). cbv beta iota.
    rewrite rd_sized_app by auto. cbv beta iota.
    rewrite rd_int_app by (change (2 ^ (8 * N.of_nat 4)) with 4294967296; lia). cbv beta iota.
    unfold rs_set_psize. cbn [rs_cur rs_csize rs_psize rs_small].
    destruct (N.ltb_spec fs (Nlen ct)); [lia|].
    rewrite rd_sized_app by auto. cbv beta iota. rewrite rd_sized_app by auto. cbv beta iota.
    cbn [rs_cur rs_csize rs_psize rs_small].
    rewrite !Nlen_app, !Nlen_be_bytes, IV, TG. unfold add64.
    change (two64) with 18446744073709551616. rewrite !N.mod_small by lia. f_equal. lia.
Qed.

(** The reading primitives seen as parsers: [small] records whether a read failed. *)
Lemma rd_int_inv : forall k st v st', rd_int k st = (v, st') ->
  rs_psize st' = rs_psize st /\ rs_csize st' = add64 (rs_csize st) (N.of_nat k) /\
  ((rs_small st' = true /\ v = 0 /\ rs_cur st' = rs_cur st /\ (rs_small st = true \/ read_be k (rs_cur st) = Err E_SHORT_BUFFER)) \/
   (rs_small st = false /\ rs_small st' = false /\ read_be k (rs_cur st) = Ok (v, rs_cur st'))).
Proof.
  unfold rd_int. intros k st v st' H. destruct (rs_small st) eqn:S.
  - inv H. cbn. intuition.
  - destruct (read_be k (rs_cur st)) as [[x r]|e] eqn:E; inv H; cbn; [intuition|].
    apply read_be_err in E as E'. subst. intuition.
Qed.

Lemma rd_sized_inv : forall n st b st', rd_sized n st = (b, st') ->
  rs_psize st' = rs_psize st /\ rs_csize st' = add64 (rs_csize st) n /\
  ((rs_small st' = true /\ read_bytes n (rs_cur st) = Err E_SHORT_BUFFER /\ rs_cur st' = rs_cur st) \/
   (rs_small st' = rs_small st /\ read_bytes n (rs_cur st) = Ok (b, rs_cur st'))).
Proof.
  unfold rd_sized. intros n st b st' H.
  destruct (read_bytes n (rs_cur st)) as [[x r]|e] eqn:E; inv H; cbn; [intuition|].
  apply read_bytes_err in E as [-> _]. intuition.
Qed.

Lemma read_be_good_ok : forall k s v r, read_be k s = Ok (v, r) -> exists b, s = b ++ r /\ Nlen b = N.of_nat k /\ v = be_val b.
Proof.
  unfold read_be. intros k s v r H. destruct (read_bytes (N.of_nat k) s) as [[b r']|] eqn:E; cbn [bind] in H; inv H.
  apply read_bytes_inv in E. exists b. tauto.
Qed.

Lemma deserialize_frame_sound : forall p fs s f r, std_lens p -> fs < 4294967296 -> bytes_ok s ->
  ds_res (deserialize_frame p fs s) = Ok (f, r) -> frame_wf fs f /\ s = wire_frame f ++ r.
Proof.
  intros p fs s f r [IVL TL] FS O H. unfold deserialize_frame in H.
  destruct (N.eqb_spec fs 0).
  - unfold rd_nonframed in H. rewrite IVL, TL in H.
    destruct (rd_sized 12 (mk_rstate s 0 0 false)) as [iv st1] eqn:E1.
    destruct (rd_int 8 st1) as [ps st2] eqn:E2. cbn [rs_small] in H.
    apply rd_sized_inv in E1. destruct E1 as [_ [_ E1]]. apply rd_int_inv in E2. destruct E2 as [_ [_ E2]].
    destruct (N.leb_spec MAX_UNFRAMED_PLAINTEXT_SIZE ps); [cbn in H; discriminate|].
    destruct (rd_sized ps (rs_set_psize ps st2)) as [ct st3] eqn:E3.
    destruct (rd_sized 16 st3) as [tag st4] eqn:E4.
    apply rd_sized_inv in E3. destruct E3 as [_ [_ E3]]. apply rd_sized_inv in E4. destruct E4 as [_ [_ E4]].
    cbn [ds_res rs_cur rs_small rs_set_psize] in *.
    destruct (rs_small st4) eqn:S4; [discriminate|]. inv H.
    destruct E4 as [[? _]|[S3 E4]]; [congruence|].
    destruct E3 as [[? _]|[S2 E3]]; [congruence|].
    destruct E2 as [[? _]|[S1 [_ E2]]]; [congruence|].
    destruct E1 as [[? _]|[_ E1]]; [congruence|].
    apply read_bytes_inv_ok in E1; auto. destruct E1 as [-> [L1 O1]].
    apply read_u64_inv in E2; auto. destruct E2 as [E2 [B2 O2]]. rewrite E2 in *.
    apply read_bytes_inv_ok in E3; auto. destruct E3 as [E3 [L3 O3]]. rewrite E3 in *.
    apply read_bytes_inv_ok in E4; auto. destruct E4 as [E4 [L4 O4]]. rewrite E4 in *.
    subst ps. split.
    + unfold frame_wf. cbn. unfold MAX_UNFRAMED_PLAINTEXT_SIZE in *. auto.
    + cbn [wire_frame fr_type fr_seqno fr_iv fr_ciphertext fr_authtag]. rewrite <- !app_assoc. reflexivity.
  - unfold rd_framed in H. rewrite IVL, TL in H.
    destruct (rd_int 4 (mk_rstate s 0 0 false)) as [mark st1] eqn:E1.
    apply rd_int_inv in E1. destruct E1 as [_ [_ E1]]. cbn [rs_small rs_cur] in E1.
    destruct (N.eqb_spec mark LAST_FRAME_MARK).
    + unfold rd_last_frame in H. rewrite IVL, TL in H.
      destruct (rd_int 4 st1) as [sq st2] eqn:E2. apply rd_int_inv in E2. destruct E2 as [_ [_ E2]].
      destruct (rd_sized 12 st2) as [iv st3] eqn:E3. apply rd_sized_inv in E3. destruct E3 as [_ [_ E3]].
      destruct (rd_int 4 st3) as [ps st4] eqn:E4. apply rd_int_inv in E4. destruct E4 as [_ [_ E4]].
      destruct (N.ltb_spec fs ps); [cbn in H; discriminate|].
      destruct (rd_sized ps (rs_set_psize ps st4)) as [ct st5] eqn:E5. apply rd_sized_inv in E5. destruct E5 as [_ [_ E5]].
      destruct (rd_sized 16 st5) as [tag st6] eqn:E6. apply rd_sized_inv in E6. destruct E6 as [_ [_ E6]].
      cbn [ds_res rs_cur rs_small rs_set_psize] in *.
      destruct (rs_small st6) eqn:S6; [discriminate|]. inv H.
      destruct E6 as [[? _]|[S5 E6]]; [congruence|].
      destruct E5 as [[? _]|[S4 E5]]; [congruence|].
      destruct E4 as [[? _]|[S3 [_ E4]]]; [congruence|].
      destruct E3 as [[? _]|[S2 E3]]; [congruence|].
      destruct E2 as [[? _]|[S1 [_ E2]]]; [congruence|].
      destruct E1 as [[? _]|[_ [_ E1]]]; [congruence|].
      apply read_u32_inv in E1; auto. destruct E1 as [-> [B1 O1]].
      apply read_u32_inv in E2; auto. destruct E2 as [E2 [B2 O2]]. rewrite E2 in *.
      apply read_bytes_inv_ok in E3; auto. destruct E3 as [E3 [L3 O3]]. rewrite E3 in *.
      apply read_u32_inv in E4; auto. destruct E4 as [E4 [B4 O4]]. rewrite E4 in *.
      apply read_bytes_inv_ok in E5; auto. destruct E5 as [E5 [L5 O5]]. rewrite E5 in *.
      apply read_bytes_inv_ok in E6; auto. destruct E6 as [E6 [L6 O6]]. rewrite E6 in *.
      subst ps. split.
      * unfold frame_wf. cbn. repeat split; auto; lia.
      * cbn [wire_frame fr_type fr_seqno fr_iv fr_ciphertext fr_authtag]. rewrite <- !app_assoc. reflexivity.
    + destruct (rd_sized 12 (rs_set_psize fs st1)) as [iv st3] eqn:E3. apply rd_sized_inv in E3. destruct E3 as [_ [_ E3]].
      destruct (rd_sized fs st3) as [ct st5] eqn:E5. apply rd_sized_inv in E5. destruct E5 as [_ [_ E5]].
      destruct (rd_sized 16 st5) as [tag st6] eqn:E6. apply rd_sized_inv in E6. destruct E6 as [_ [_ E6]].
      cbn [ds_res rs_cur rs_small rs_set_psize] in *.
      destruct (rs_small st6) eqn:S6; [discriminate|]. inv H.
      destruct E6 as [[? _]|[S5 E6]]; [congruence|].
      destruct E5 as [[? _]|[S4 E5]]; [congruence|].
      destruct E3 as [[? _]|[S2 E3]]; [congruence|].
      destruct E1 as [[? _]|[_ [_ E1]]]; [congruence|].
      apply read_u32_inv in E1; auto. destruct E1 as [-> [B1 O1]].
      apply read_bytes_inv_ok in E3; auto. destruct E3 as [E3 [L3 O3]]. rewrite E3 in *.
      apply read_bytes_inv_ok in E5; auto. destruct E5 as [E5 [L5 O5]]. rewrite E5 in *.
      apply read_bytes_inv_ok in E6; auto. destruct E6 as [E6 [L6 O6]]. rewrite E6 in *.
      split.
      * unfold frame_wf, LAST_FRAME_MARK in *. cbn. repeat split; auto; lia.
      * cbn [wire_frame fr_type fr_seqno fr_iv fr_ciphertext fr_authtag]. rewrite <- !app_assoc. reflexivity.
Qed.

(** ** The same function as a parser in error-monad style *)

Definition frame_parser (p : alg_props) (fs : N) : parser frame := fun s =>
  if fs =? 0 then
    do (iv, s) <- read_bytes (ap_iv_len p) s;
    do (ps, s) <- read_be 8 s;
    if MAX_UNFRAMED_PLAINTEXT_SIZE <=? ps then Err E_BAD_CIPHERTEXT
    else
      do (ct, s) <- read_bytes ps s;
      do (tag, s) <- read_bytes (ap_tag_len p) s;
      Ok (mk_frame FRAME_TYPE_SINGLE 1 iv ct tag, s)
  else
    do (mark, s) <- read_be 4 s;
    if mark =? LAST_FRAME_MARK then
      do (sq, s) <- read_be 4 s;
      do (iv, s) <- read_bytes (ap_iv_len p) s;
      do (ps, s) <- read_be 4 s;
      if fs <? ps then Err E_BAD_CIPHERTEXT
      else
        do (ct, s) <- read_bytes ps s;
        do (tag, s) <- read_bytes (ap_tag_len p) s;
        Ok (mk_frame FRAME_TYPE_FINAL sq iv ct tag, s)
    else
      do (iv, s) <- read_bytes (ap_iv_len p) s;
      do (ct, s) <- read_bytes fs s;
      do (tag, s) <- read_bytes (ap_tag_len p) s;
      Ok (mk_frame FRAME_TYPE_FRAME mark iv ct tag, s).

Lemma good_frame_parser : forall p fs, good (frame_parser p fs).
Proof. intros. unfold frame_parser. good_auto. Qed.

Lemma rd_int_ok : forall k st v r, rs_small st = false -> read_be k (rs_cur st) = Ok (v, r) ->
  rd_int k st = (v, mk_rstate r (add64 (rs_csize st) (N.of_nat k)) (rs_psize st) false).
Proof. intros. unfold rd_int. now rewrite H, H0. Qed.
Lemma rd_int_bad : forall k st e, rs_small st = true \/ read_be k (rs_cur st) = Err e ->
  rd_int k st = (0, mk_rstate (rs_cur st) (add64 (rs_csize st) (N.of_nat k)) (rs_psize st) true).
Proof. intros k st e [H|H]; unfold rd_int; rewrite H; auto. destruct (rs_small st); auto. Qed.
Lemma rd_sized_ok : forall n st b r, read_bytes n (rs_cur st) = Ok (b, r) ->
  rd_sized n st = (b, mk_rstate r (add64 (rs_csize st) n) (rs_psize st) (rs_small st)).
Proof. intros. unfold rd_sized. now rewrite H. Qed.
Lemma rd_sized_bad : forall n st e, read_bytes n (rs_cur st) = Err e ->
  rd_sized n st = ([], mk_rstate (rs_cur st) (add64 (rs_csize st) n) (rs_psize st) true).
Proof. intros. unfold rd_sized. now rewrite H. Qed.

Lemma rd_sized_small : forall n st, rs_small st = true -> rs_small (snd (rd_sized n st)) = true.
Proof. intros. unfold rd_sized. destruct (read_bytes n (rs_cur st)) as [[? ?]|]; cbn; auto. Qed.
Lemma rd_sized_csize : forall n st, rs_csize (snd (rd_sized n st)) = add64 (rs_csize st) n.
Proof. intros. unfold rd_sized. destruct (read_bytes n (rs_cur st)) as [[? ?]|]; cbn; auto. Qed.
Lemma rd_sized_psize : forall n st, rs_psize (snd (rd_sized n st)) = rs_psize st.
Proof. intros. unfold rd_sized. destruct (read_bytes n (rs_cur st)) as [[? ?]|]; cbn; auto. Qed.
Lemma rd_int_small : forall n st, rs_small st = true -> rd_int n st =
  (0, mk_rstate (rs_cur st) (add64 (rs_csize st) (N.of_nat n)) (rs_psize st) true).
Proof. intros. unfold rd_int. now rewrite H. Qed.

Lemma des_tail_small : forall p ps st (g : list N -> list N -> frame), rs_small st = true ->
  rs_small (snd (rd_sized (ap_tag_len p) (snd (rd_sized ps st)))) = true.
Proof. intros. apply rd_sized_small, rd_sized_small. auto. Qed.

Lemma deserialize_frame_parser : forall p fs s,
  ds_res (deserialize_frame p fs s) = frame_parser p fs s.
Proof.
  intros p fs s. unfold deserialize_frame, frame_parser.
  destruct (fs =? 0).
  - unfold rd_nonframed.
    destruct (read_bytes (ap_iv_len p) s) as [[iv s1]|e] eqn:E1; cbn [bind].
    + erewrite rd_sized_ok by (cbn [rs_cur]; eauto). cbn [rs_csize rs_psize rs_small].
      destruct (read_be 8 s1) as [[ps s2]|e] eqn:E2; cbn [bind].
      * erewrite rd_int_ok by (cbn [rs_cur rs_small]; eauto). cbn [rs_csize rs_psize rs_small rs_set_psize rs_cur].
        destruct (MAX_UNFRAMED_PLAINTEXT_SIZE <=? ps); [reflexivity|].
        destruct (read_bytes ps s2) as [[ct s3]|e] eqn:E3; cbn [bind].
        -- unfold rs_set_psize. erewrite rd_sized_ok by (cbn [rs_cur]; eauto). cbn [rs_csize rs_psize rs_small rs_cur].
           destruct (read_bytes (ap_tag_len p) s3) as [[tag s4]|e] eqn:E4; cbn [bind].
           ++ erewrite rd_sized_ok by (cbn [rs_cur]; eauto). reflexivity.
           ++ erewrite rd_sized_bad by (cbn [rs_cur]; eauto). cbn. now apply read_bytes_err in E4 as [-> _].
        -- unfold rs_set_psize. erewrite rd_sized_bad by (cbn [rs_cur]; eauto). cbn [rs_csize rs_psize rs_small rs_cur].
           destruct (rd_sized (ap_tag_len p) _) as [tag st] eqn:E4. cbn [ds_res].
           pose proof (rd_sized_small (ap_tag_len p) (mk_rstate s2 (add64 (add64 (add64 0 (ap_iv_len p)) (N.of_nat 8)) ps) ps true) eq_refl) as S.
           cbn [rs_csize rs_psize rs_small rs_cur] in E4. rewrite E4 in S. cbn in S. rewrite S.
           now apply read_bytes_err in E3 as [-> _].
      * erewrite rd_int_bad by (cbn [rs_cur rs_small]; eauto). cbn [rs_csize rs_psize rs_small rs_cur].
        change (MAX_UNFRAMED_PLAINTEXT_SIZE <=? 0) with false. cbv iota.
        destruct (rd_sized 0 _) as [ct st3] eqn:E3. destruct (rd_sized (ap_tag_len p) st3) as [tag st4] eqn:E4.
        match type of E3 with rd_sized _ ?X = _ => pose proof (rd_sized_small 0 X eq_refl) as S3 end.
        rewrite E3 in S3. pose proof (rd_sized_small (ap_tag_len p) st3 S3) as S4. rewrite E4 in S4. cbn in S4. cbn [ds_res]. rewrite S4.
        now apply read_be_err in E2 as ->.
    + erewrite rd_sized_bad by (cbn [rs_cur]; eauto). rewrite rd_int_small by reflexivity.
      change (MAX_UNFRAMED_PLAINTEXT_SIZE <=? 0) with false. cbv iota.
      destruct (rd_sized 0 _) as [ct st3] eqn:E3. destruct (rd_sized (ap_tag_len p) st3) as [tag st4] eqn:E4.
      match type of E3 with rd_sized _ ?X = _ => pose proof (rd_sized_small 0 X eq_refl) as S3 end.
      rewrite E3 in S3. pose proof (rd_sized_small (ap_tag_len p) st3 S3) as S4. rewrite E4 in S4. cbn in S4. cbn [ds_res]. rewrite S4.
      now apply read_bytes_err in E1 as [-> _].
  - unfold rd_framed.
    destruct (read_be 4 s) as [[mark s1]|e] eqn:E1; cbn [bind].
    + erewrite rd_int_ok by (cbn [rs_cur rs_small]; eauto). cbn [rs_csize rs_psize rs_small].
      destruct (mark =? LAST_FRAME_MARK).
      * unfold rd_last_frame.
        destruct (read_be 4 s1) as [[sq s2]|e] eqn:E2; cbn [bind].
        -- erewrite rd_int_ok by (cbn [rs_cur rs_small]; eauto). cbn [rs_csize rs_psize rs_small].
           destruct (read_bytes (ap_iv_len p) s2) as [[iv s3]|e] eqn:E3; cbn [bind].
           ++ erewrite rd_sized_ok by (cbn [rs_cur]; eauto). cbn [rs_csize rs_psize rs_small].
              destruct (read_be 4 s3) as [[ps s4]|e] eqn:E4; cbn [bind].
              ** erewrite rd_int_ok by (cbn [rs_cur rs_small]; eauto). unfold rs_set_psize. cbn [rs_csize rs_psize rs_small rs_cur].
                 destruct (fs <? ps); [reflexivity|].
                 destruct (read_bytes ps s4) as [[ct s5]|e] eqn:E5; cbn [bind].
                 --- erewrite rd_sized_ok by (cbn [rs_cur]; eauto). cbn [rs_csize rs_psize rs_small rs_cur].
                     destruct (read_bytes (ap_tag_len p) s5) as [[tag s6]|e] eqn:E6; cbn [bind].
                     +++ erewrite rd_sized_ok by (cbn [rs_cur]; eauto). reflexivity.
                     +++ erewrite rd_sized_bad by (cbn [rs_cur]; eauto). cbn. now apply read_bytes_err in E6 as [-> _].
                 --- erewrite rd_sized_bad by (cbn [rs_cur]; eauto). cbn [rs_csize rs_psize rs_small rs_cur].
                     destruct (rd_sized (ap_tag_len p) _) as [tag st] eqn:E6. cbn [ds_res].
                     match type of E6 with rd_sized ?n ?X = _ => pose proof (rd_sized_small n X eq_refl) as S end.
                     rewrite E6 in S. cbn in S. rewrite S. now apply read_bytes_err in E5 as [-> _].
              ** erewrite rd_int_bad by (cbn [rs_cur rs_small]; eauto). unfold rs_set_psize. cbn [rs_csize rs_psize rs_small rs_cur].
                 destruct (N.ltb_spec fs 0); [lia|].
                 destruct (rd_sized 0 _) as [ct st5] eqn:E5. destruct (rd_sized (ap_tag_len p) st5) as [tag st6] eqn:E6.
                 match type of E5 with rd_sized _ ?X = _ => pose proof (rd_sized_small 0 X eq_refl) as S5 end.
                 rewrite E5 in S5. pose proof (rd_sized_small (ap_tag_len p) st5 S5) as S6. rewrite E6 in S6. cbn in S6. cbn [ds_res]. rewrite S6.
                 now apply read_be_err in E4 as ->.
           ++ erewrite rd_sized_bad by (cbn [rs_cur]; eauto). rewrite rd_int_small by reflexivity.
              unfold rs_set_psize. cbn [rs_csize rs_psize rs_small rs_cur].
              destruct (N.ltb_spec fs 0); [lia|].
              destruct (rd_sized 0 _) as [ct st5] eqn:E5. destruct (rd_sized (ap_tag_len p) st5) as [tag st6] eqn:E6.
              match type of E5 with rd_sized _ ?X = _ => pose proof (rd_sized_small 0 X eq_refl) as S5 end.
              rewrite E5 in S5. pose proof (rd_sized_small (ap_tag_len p) st5 S5) as S6. rewrite E6 in S6. cbn in S6. cbn [ds_res]. rewrite S6.
              now apply read_bytes_err in E3 as [-> _].
        -- erewrite rd_int_bad by (cbn [rs_cur rs_small]; eauto). cbn [rs_csize rs_psize rs_small rs_cur].
           destruct (rd_sized (ap_iv_len p) _) as [iv st3] eqn:E3.
           match type of E3 with rd_sized ?n ?X = _ => pose proof (rd_sized_small n X eq_refl) as S3 end.
           rewrite E3 in S3. cbn [snd] in S3. rewrite rd_int_small by auto.
           unfold rs_set_psize. cbn [rs_csize rs_psize rs_small rs_cur].
           destruct (N.ltb_spec fs 0); [lia|].
           destruct (rd_sized 0 _) as [ct st5] eqn:E5. destruct (rd_sized (ap_tag_len p) st5) as [tag st6] eqn:E6.
           match type of E5 with rd_sized _ ?X = _ => pose proof (rd_sized_small 0 X eq_refl) as S5 end.
           rewrite E5 in S5. pose proof (rd_sized_small (ap_tag_len p) st5 S5) as S6. rewrite E6 in S6. cbn in S6. cbn [ds_res]. rewrite S6.
           now apply read_be_err in E2 as ->.
      * unfold rs_set_psize. cbn [rs_csize rs_psize rs_small rs_cur].
        destruct (read_bytes (ap_iv_len p) s1) as [[iv s3]|e] eqn:E3; cbn [bind].
        -- erewrite rd_sized_ok by (cbn [rs_cur]; eauto). cbn [rs_csize rs_psize rs_small rs_cur].
           destruct (read_bytes fs s3) as [[ct s5]|e] eqn:E5; cbn [bind].
           ++ erewrite rd_sized_ok by (cbn [rs_cur]; eauto). cbn [rs_csize rs_psize rs_small rs_cur].
              destruct (read_bytes (ap_tag_len p) s5) as [[tag s6]|e] eqn:E6; cbn [bind].
              ** erewrite rd_sized_ok by (cbn [rs_cur]; eauto). reflexivity.
              ** erewrite rd_sized_bad by (cbn [rs_cur]; eauto). cbn. now apply read_bytes_err in E6 as [-> _].
           ++ erewrite rd_sized_bad by (cbn [rs_cur]; eauto). cbn [rs_csize rs_psize rs_small rs_cur].
              destruct (rd_sized (ap_tag_len p) _) as [tag st] eqn:E6. cbn [ds_res].
              match type of E6 with rd_sized ?n ?X = _ => pose proof (rd_sized_small n X eq_refl) as S end.
              rewrite E6 in S. cbn in S. rewrite S. now apply read_bytes_err in E5 as [-> _].
        -- erewrite rd_sized_bad by (cbn [rs_cur]; eauto). cbn [rs_csize rs_psize rs_small rs_cur].
           destruct (rd_sized fs _) as [ct st5] eqn:E5. destruct (rd_sized (ap_tag_len p) st5) as [tag st6] eqn:E6.
           match type of E5 with rd_sized ?n ?X = _ => pose proof (rd_sized_small n X eq_refl) as S5 end.
           rewrite E5 in S5. pose proof (rd_sized_small (ap_tag_len p) st5 S5) as S6. rewrite E6 in S6. cbn in S6. cbn [ds_res]. rewrite S6.
           now apply read_bytes_err in E3 as [-> _].
    + erewrite rd_int_bad by (cbn [rs_cur rs_small]; eauto).
      change (0 =? LAST_FRAME_MARK) with false. cbv iota. unfold rs_set_psize. cbn [rs_csize rs_psize rs_small rs_cur].
      destruct (rd_sized (ap_iv_len p) _) as [iv st3] eqn:E3.
      destruct (rd_sized fs st3) as [ct st5] eqn:E5. destruct (rd_sized (ap_tag_len p) st5) as [tag st6] eqn:E6.
      match type of E3 with rd_sized ?n ?X = _ => pose proof (rd_sized_small n X eq_refl) as S3 end.
      rewrite E3 in S3. pose proof (rd_sized_small fs st3 S3) as S5.
      rewrite E5 in S5. pose proof (rd_sized_small (ap_tag_len p) st5 S5) as S6. rewrite E6 in S6. cbn in S6. cbn [ds_res]. rewrite S6.
      now apply read_be_err in E1 as ->.
Qed.

(** ** Reported sizes *)

Lemma read_be_short : forall k s, Nlen s < N.of_nat k -> read_be k s = Err E_SHORT_BUFFER.
Proof. intros. unfold read_be. rewrite read_bytes_short by auto. reflexivity. Qed.
Lemma read_be_err_len : forall k s e, read_be k s = Err e -> Nlen s < N.of_nat k.
Proof.
  unfold read_be. intros k s e H. destruct (read_bytes (N.of_nat k) s) as [[? ?]|] eqn:E; cbn [bind] in H; inv H.
  apply read_bytes_err in E. tauto.
Qed.
Lemma read_be_ok_len : forall k s v r, read_be k s = Ok (v, r) -> Nlen s = N.of_nat k + Nlen r.
Proof. intros. apply read_be_good_ok in H. destruct H as [b [-> [L _]]]. rewrite Nlen_app. lia. Qed.
Lemma read_bytes_ok_len : forall n s v r, read_bytes n s = Ok (v, r) -> Nlen s = n + Nlen r.
Proof. intros. apply read_bytes_inv in H. destruct H as [-> L]. rewrite Nlen_app. lia. Qed.

Lemma des_sizes_nonframed : forall p s, std_lens p ->
  (exists iv s1 ps s2, read_bytes 12 s = Ok (iv, s1) /\ read_be 8 s1 = Ok (ps, s2) /\
     ds_psize (deserialize_frame p 0 s) = ps /\
     (ps < MAX_UNFRAMED_PLAINTEXT_SIZE -> ds_csize (deserialize_frame p 0 s) = 36 + ps)) \/
  (Nlen s < 20 /\ ds_psize (deserialize_frame p 0 s) = 0 /\ ds_csize (deserialize_frame p 0 s) = 36).
Proof.
  intros p s [IVL TL]. unfold deserialize_frame. change (0 =? 0) with true. cbv iota. unfold rd_nonframed. rewrite IVL, TL.
  destruct (read_bytes 12 s) as [[iv s1]|e] eqn:E1.
  - erewrite rd_sized_ok by (cbn [rs_cur]; eauto). cbn [rs_csize rs_psize rs_small].
    destruct (read_be 8 s1) as [[ps s2]|e] eqn:E2.
    + left. exists iv, s1, ps, s2. repeat split; auto.
      * erewrite rd_int_ok by (cbn [rs_cur rs_small]; eauto). unfold rs_set_psize. cbn [rs_csize rs_psize rs_small rs_cur].
        destruct (_ <=? _); [reflexivity|]. 
        destruct (rd_sized ps _) as [ct st3] eqn:E3. destruct (rd_sized 16 st3) as [tag st4] eqn:E4. cbn.
        apply rd_sized_inv in E3, E4. destruct E4 as [-> _]. destruct E3 as [-> _]. reflexivity.
      * erewrite rd_int_ok by (cbn [rs_cur rs_small]; eauto). unfold rs_set_psize. cbn [rs_csize rs_psize rs_small rs_cur].
        intros B. destruct (N.leb_spec MAX_UNFRAMED_PLAINTEXT_SIZE ps); [lia|].
        destruct (rd_sized ps _) as [ct st3] eqn:E3. destruct (rd_sized 16 st3) as [tag st4] eqn:E4. cbn [ds_csize].
        apply rd_sized_inv in E3, E4. destruct E4 as [_ [-> _]]. destruct E3 as [_ [-> _]]. cbn [rs_csize].
        unfold MAX_UNFRAMED_PLAINTEXT_SIZE in *. rewrite !add64_small by (rewrite ?add64_small by (rewrite ?add64_small by (rewrite ?add64_small by lia; lia); lia); lia).
        lia.
    + right. apply read_bytes_ok_len in E1. apply read_be_err_len in E2 as L2.
      erewrite rd_int_bad by (cbn [rs_cur rs_small]; eauto). unfold rs_set_psize. cbn [rs_csize rs_psize rs_small rs_cur].
      change (MAX_UNFRAMED_PLAINTEXT_SIZE <=? 0) with false. cbv iota.
      destruct (rd_sized 0 _) as [ct st3] eqn:E3. destruct (rd_sized 16 st3) as [tag st4] eqn:E4. cbn [ds_csize ds_psize].
      apply rd_sized_inv in E3, E4. destruct E4 as [-> [-> _]]. destruct E3 as [-> [-> _]]. cbn [rs_csize rs_psize].
      split; [lia|]. split; reflexivity.
  - right. apply read_bytes_err in E1 as L1.
    erewrite rd_sized_bad by (cbn [rs_cur]; eauto). rewrite rd_int_small by reflexivity.
    unfold rs_set_psize. cbn [rs_csize rs_psize rs_small rs_cur].
    change (MAX_UNFRAMED_PLAINTEXT_SIZE <=? 0) with false. cbv iota.
    destruct (rd_sized 0 _) as [ct st3] eqn:E3. destruct (rd_sized 16 st3) as [tag st4] eqn:E4. cbn [ds_csize ds_psize].
    apply rd_sized_inv in E3, E4. destruct E4 as [-> [-> _]]. destruct E3 as [-> [-> _]]. cbn [rs_csize rs_psize].
    split; [lia|]. split; reflexivity.
Qed.

Lemma des_sizes_framed : forall p fs s, std_lens p -> 0 < fs < 4294967296 ->
  let d := deserialize_frame p fs s in
  (Nlen s < 4 /\ ds_psize d = fs /\ ds_csize d = 32 + fs) \/
  (exists mark s1, read_be 4 s = Ok (mark, s1) /\ mark <> LAST_FRAME_MARK /\ ds_psize d = fs /\ ds_csize d = 32 + fs) \/
  (exists s1 sq s2 iv s3 ps s4, read_be 4 s = Ok (LAST_FRAME_MARK, s1) /\ read_be 4 s1 = Ok (sq, s2) /\
     read_bytes 12 s2 = Ok (iv, s3) /\ read_be 4 s3 = Ok (ps, s4) /\ ds_psize d = ps /\
     (ps <= fs -> ds_csize d = 40 + ps)) \/
  (exists s1, read_be 4 s = Ok (LAST_FRAME_MARK, s1) /\ Nlen s < 24 /\ ds_psize d = 0 /\ ds_csize d = 40).
Proof.
  intros p fs s [IVL TL] FS d. unfold d, deserialize_frame. destruct (N.eqb_spec fs 0); [lia|]. unfold rd_framed. rewrite IVL, TL.
  destruct (read_be 4 s) as [[mark s1]|e] eqn:E1.
  - erewrite rd_int_ok by (cbn [rs_cur rs_small]; eauto). cbn [rs_csize rs_psize rs_small].
    destruct (N.eqb_spec mark LAST_FRAME_MARK) as [->|NM].
    + right. right. unfold rd_last_frame. rewrite IVL, TL.
      destruct (rd_int 4 _) as [sq st2] eqn:E2. apply rd_int_inv in E2. cbn [rs_psize rs_csize rs_small rs_cur] in E2.
      destruct E2 as [P2 [C2 E2]].
      destruct (rd_sized 12 st2) as [iv st3] eqn:E3. apply rd_sized_inv in E3. destruct E3 as [P3 [C3 E3]].
      destruct (rd_int 4 st3) as [ps st4] eqn:E4. apply rd_int_inv in E4. destruct E4 as [P4 [C4 E4]].
      assert (CC : rs_csize st4 = 24) by (rewrite C4, C3, C2; reflexivity).
      destruct E4 as [[S4 [-> [R4 D4]]]|[S3 [S4 R4]]].
      * right. exists s1. split; auto.
        assert (LL : Nlen s < 24).
        { apply read_be_ok_len in E1. destruct E2 as [[S2 [_ [R2 [?|D2]]]]|[S2 [S2' R2]]]; [discriminate| |].
          - apply read_be_err_len in D2. lia.
          - apply read_be_ok_len in R2. destruct E3 as [[S3 [D3 R3]]|[S3 R3]].
            + apply read_bytes_err in D3. lia.
            + apply read_bytes_ok_len in R3. destruct D4 as [?|D4]; [congruence|]. apply read_be_err_len in D4. lia. }
        split; auto. destruct (N.ltb_spec fs 0); [lia|].
        destruct (rd_sized 0 _) as [ct st5] eqn:E5. destruct (rd_sized 16 st5) as [tag st6] eqn:E6. cbn [ds_csize ds_psize].
        apply rd_sized_inv in E5, E6. destruct E6 as [-> [-> _]]. destruct E5 as [-> [-> _]].
        unfold rs_set_psize. cbn [rs_csize rs_psize]. rewrite CC. split; reflexivity.
      * left. destruct E3 as [[? _]|[S3' R3]]; [congruence|]. destruct E2 as [[? _]|[_ [_ R2]]]; [congruence|].
        exists s1, sq, (rs_cur st2), iv, (rs_cur st3), ps, (rs_cur st4). repeat split; auto.
        -- destruct (fs <? ps); [reflexivity|].
           destruct (rd_sized ps _) as [ct st5] eqn:E5. destruct (rd_sized 16 st5) as [tag st6] eqn:E6. cbn [ds_csize ds_psize].
           apply rd_sized_inv in E5, E6. destruct E6 as [-> _]. destruct E5 as [-> _]. reflexivity.
        -- intros B. destruct (N.ltb_spec fs ps); [lia|].
           destruct (rd_sized ps _) as [ct st5] eqn:E5. destruct (rd_sized 16 st5) as [tag st6] eqn:E6. cbn [ds_csize ds_psize].
           apply rd_sized_inv in E5, E6. destruct E6 as [_ [-> _]]. destruct E5 as [_ [-> _]].
           unfold rs_set_psize. cbn [rs_csize]. rewrite CC.
           rewrite !add64_small by (rewrite ?add64_small by lia; lia). lia.
    + right. left. exists mark, s1. split; auto. split; auto. unfold rs_set_psize. cbn [rs_csize rs_psize rs_small rs_cur].
      destruct (rd_sized 12 _) as [iv st3] eqn:E3. destruct (rd_sized fs st3) as [ct st5] eqn:E5.
      destruct (rd_sized 16 st5) as [tag st6] eqn:E6. cbn [ds_csize ds_psize].
      apply rd_sized_inv in E3, E5, E6. destruct E6 as [-> [-> _]]. destruct E5 as [-> [-> _]]. destruct E3 as [-> [-> _]].
      cbn [rs_csize rs_psize]. split; [reflexivity|]. change (add64 (add64 0 (N.of_nat 4)) 12) with 16.
      rewrite !add64_small by (rewrite ?add64_small by lia; lia). lia.
  - left. apply read_be_err_len in E1 as L1. split; auto.
    erewrite rd_int_bad by (cbn [rs_cur rs_small]; eauto).
    change (0 =? LAST_FRAME_MARK) with false. cbv iota. unfold rs_set_psize. cbn [rs_csize rs_psize rs_small rs_cur].
    destruct (rd_sized 12 _) as [iv st3] eqn:E3. destruct (rd_sized fs st3) as [ct st5] eqn:E5.
    destruct (rd_sized 16 st5) as [tag st6] eqn:E6. cbn [ds_csize ds_psize].
    apply rd_sized_inv in E3, E5, E6. destruct E6 as [-> [-> _]]. destruct E5 as [-> [-> _]]. destruct E3 as [-> [-> _]].
    cbn [rs_csize rs_psize]. split; [reflexivity|]. change (add64 (add64 0 (N.of_nat 4)) 12) with 16.
    rewrite !add64_small by (rewrite ?add64_small by lia; lia). lia.
Qed.

Lemma read_be_ext : forall k s t v r, read_be k s = Ok (v, r) -> read_be k (s ++ t) = Ok (v, r ++ t).
Proof. intros. now apply (proj1 (proj2 (good_read_be k))). Qed.
Lemma read_bytes_ext : forall k s t v r, read_bytes k s = Ok (v, r) -> read_bytes k (s ++ t) = Ok (v, r ++ t).
Proof. intros. now apply (proj1 (proj2 (good_read_bytes k))). Qed.

Lemma Nlen_wire_frame : forall fs f, frame_wf fs f -> Nlen (wire_frame f) =
  match fr_type f with FRAME_TYPE_SINGLE => 36 | FRAME_TYPE_FRAME => 32 | FRAME_TYPE_FINAL => 40 end + Nlen (fr_ciphertext f).
Proof.
  intros fs f [IV [TG _]]. unfold wire_frame.
  destruct (fr_type f); rewrite !Nlen_app, ?Nlen_u32, ?Nlen_u64, IV, TG; lia.
Qed.

(** Lower bound on the eventual frame, and always more than what was supplied. *)
Lemma des_csize_lower : forall p fs f s t r, std_lens p -> fs < 4294967296 -> frame_wf fs f ->
  s ++ t = wire_frame f ++ r -> fs = 0 \/ 4 <= Nlen s ->
  ds_csize (deserialize_frame p fs s) <= Nlen (wire_frame f).
Proof.
  intros p fs f s t r SL FS WF E C. rewrite (Nlen_wire_frame fs f WF).
  destruct (N.eq_dec fs 0) as [->|NZ].
  - destruct f as [ty sq iv ct tag]. destruct WF as [IV [TG T]].
    destruct ty; cbn [fr_type fr_seqno fr_iv fr_ciphertext fr_authtag] in *; [|lia|lia].
    destruct T as [_ [L ->]].
    destruct (des_sizes_nonframed p s SL) as [[iv' [s1 [ps [s2 [R1 [R2 [P B]]]]]]]|[_ [_ ->]]]; [|lia].
    apply read_bytes_ext with (t := t) in R1. apply read_be_ext with (t := t) in R2. rewrite E in R1.
    cbn [wire_frame fr_type fr_seqno fr_iv fr_ciphertext fr_authtag] in R1. rewrite <- !app_assoc in R1.
    rewrite read_bytes_app_eq in R1 by auto. apply Ok_pair_inj in R1. destruct R1 as [_ R1]. rewrite <- R1 in R2.
    rewrite read_u64 in R2 by lia. apply Ok_pair_inj in R2. destruct R2 as [<- _].
    rewrite B; [lia|]. unfold MAX_UNFRAMED_PLAINTEXT_SIZE. lia.
  - destruct C as [?|C]; [contradiction|].
    destruct f as [ty sq iv ct tag]. destruct WF as [IV [TG T]].
    destruct ty; cbn [fr_type fr_seqno fr_iv fr_ciphertext fr_authtag] in *; [lia| |].
    + destruct T as [_ [L SQ]].
      destruct (des_sizes_framed p fs s SL) as [[? _]|[[mk [s1 [R1 [NM [_ ->]]]]]|[[s1 [sq' [s2 [iv' [s3 [ps [s4 [R1 _]]]]]]]]|[s1 [R1 _]]]]]; try lia.
      * apply read_be_ext with (t := t) in R1. rewrite E in R1. cbn [wire_frame fr_type fr_seqno fr_iv fr_ciphertext fr_authtag] in R1.
        rewrite <- !app_assoc, read_u32 in R1 by lia. inv R1. unfold LAST_FRAME_MARK in SQ. lia.
      * apply read_be_ext with (t := t) in R1. rewrite E in R1. cbn [wire_frame fr_type fr_seqno fr_iv fr_ciphertext fr_authtag] in R1.
        rewrite <- !app_assoc, read_u32 in R1 by lia. inv R1. unfold LAST_FRAME_MARK in SQ. lia.
    + destruct T as [_ [L SQ]].
      destruct (des_sizes_framed p fs s SL) as [[? _]|[[mk [s1 [R1 [NM _]]]]|[[s1 [sq' [s2 [iv' [s3 [ps [s4 [R1 [R2 [R3 [R4 [P B]]]]]]]]]]]]|[s1 [_ [_ [_ ->]]]]]]]; try lia.
      * apply read_be_ext with (t := t) in R1. rewrite E in R1. cbn [wire_frame fr_type fr_seqno fr_iv fr_ciphertext fr_authtag] in R1.
        rewrite <- !app_assoc, read_u32 in R1 by lia. inv R1. unfold LAST_FRAME_MARK in NM. lia.
      * apply read_be_ext with (t := t) in R1, R2, R4. apply read_bytes_ext with (t := t) in R3. rewrite E in R1.
        cbn [wire_frame fr_type fr_seqno fr_iv fr_ciphertext fr_authtag] in R1. rewrite <- !app_assoc in R1.
        rewrite read_u32 in R1 by lia. apply Ok_pair_inj in R1. destruct R1 as [_ R1]. rewrite <- R1 in R2.
        rewrite read_u32 in R2 by lia. apply Ok_pair_inj in R2. destruct R2 as [_ R2]. rewrite <- R2 in R3.
        rewrite read_bytes_app_eq in R3 by auto. apply Ok_pair_inj in R3. destruct R3 as [_ R3]. rewrite <- R3 in R4.
        rewrite read_u32 in R4 by lia. inv R4. rewrite B; lia.
Qed.

Lemma des_short_more : forall p fs s, std_lens p -> fs < 4294967296 ->
  ds_res (deserialize_frame p fs s) = Err E_SHORT_BUFFER -> Nlen s < ds_csize (deserialize_frame p fs s).
Proof.
  intros p fs s SL FS. rewrite deserialize_frame_parser. unfold frame_parser.
  destruct SL as [IVL TL]. rewrite IVL, TL. assert (SL : std_lens p) by (split; auto).
  destruct (N.eqb_spec fs 0) as [->|NZ].
  - destruct (des_sizes_nonframed p s SL) as [[iv' [s1 [ps [s2 [R1 [R2 [P B]]]]]]]|[? [_ ->]]]; [|lia].
    rewrite R1. cbn [bind]. rewrite R2. cbn [bind].
    destruct (N.leb_spec MAX_UNFRAMED_PLAINTEXT_SIZE ps); [discriminate|]. rewrite B by auto.
    apply read_bytes_ok_len in R1. apply read_be_ok_len in R2.
    destruct (read_bytes ps s2) as [[ct s3]|] eqn:R3; cbn [bind].
    + destruct (read_bytes 16 s3) as [[tag s4]|] eqn:R4; cbn [bind]; [discriminate|].
      apply read_bytes_ok_len in R3. apply read_bytes_err in R4. lia.
    + apply read_bytes_err in R3. lia.
  - destruct (des_sizes_framed p fs s SL) as [[? [_ ->]]|[[mk [s1 [R1 [NM [_ ->]]]]]|[[s1 [sq' [s2 [iv' [s3 [ps [s4 [R1 [R2 [R3 [R4 [P B]]]]]]]]]]]]|[s1 [_ [? [_ ->]]]]]]]; try lia.
    + rewrite R1. cbn [bind]. destruct (N.eqb_spec mk LAST_FRAME_MARK); [contradiction|].
      apply read_be_ok_len in R1.
      destruct (read_bytes 12 s1) as [[iv s2]|] eqn:R2; cbn [bind]; [|apply read_bytes_err in R2; lia].
      apply read_bytes_ok_len in R2.
      destruct (read_bytes fs s2) as [[ct s3]|] eqn:R3; cbn [bind]; [|apply read_bytes_err in R3; lia].
      apply read_bytes_ok_len in R3.
      destruct (read_bytes 16 s3) as [[tag s4]|] eqn:R4; cbn [bind]; [discriminate|apply read_bytes_err in R4; lia].
    + rewrite R1. cbn [bind]. rewrite N.eqb_refl. rewrite R2. cbn [bind]. rewrite R3. cbn [bind]. rewrite R4. cbn [bind].
      destruct (N.ltb_spec fs ps); [discriminate|]. rewrite B by auto.
      apply read_be_ok_len in R1, R2, R4. apply read_bytes_ok_len in R3.
      destruct (read_bytes ps s4) as [[ct s5]|] eqn:R5; cbn [bind]; [|apply read_bytes_err in R5; lia].
      apply read_bytes_ok_len in R5.
      destruct (read_bytes 16 s5) as [[tag s6]|] eqn:R6; cbn [bind]; [discriminate|apply read_bytes_err in R6; lia].
Qed.

Lemma deserialize_frame_err : forall p fs s e, ds_res (deserialize_frame p fs s) = Err e ->
  e = E_SHORT_BUFFER \/ e = E_BAD_CIPHERTEXT.
Proof.
  intros p fs s e. rewrite deserialize_frame_parser. unfold frame_parser. intros H.
  repeat match goal with
  | H : (if ?c then _ else _) = _ |- _ => destruct c
  | H : bind (read_be ?k ?s) _ = _ |- _ =>
      let E := fresh "E" in destruct (read_be k s) as [[? ?]|] eqn:E; cbn [bind] in H; [|inv H; apply read_be_err in E; auto]
  | H : bind (read_bytes ?k ?s) _ = _ |- _ =>
      let E := fresh "E" in destruct (read_bytes k s) as [[? ?]|] eqn:E; cbn [bind] in H; [|inv H; apply read_bytes_err in E; tauto]
  end; inv H; auto.
Qed.

(** ** Writing *)

Definition frame_total (ty : frame_type) (psize : N) : N :=
  match ty with FRAME_TYPE_SINGLE => 36 | FRAME_TYPE_FRAME => 32 | FRAME_TYPE_FINAL => 40 end + psize.

(** Sizes and sequence numbers for which a frame can be written. *)
Definition frame_writable (ty : frame_type) (seqno psize : N) : Prop :=
  match ty with
  | FRAME_TYPE_SINGLE => psize < 0xFFFFFFFE0
  | FRAME_TYPE_FRAME => psize <= 0xFFFFFFFF /\ seqno <> 0xFFFFFFFF
  | FRAME_TYPE_FINAL => psize <= 0xFFFFFFFF
  end.

Definition the_layout (ty : frame_type) (seqno psize : N) : layout :=
  match ty with
  | FRAME_TYPE_SINGLE => mk_layout ty 1 [] (u64 psize) psize
  | FRAME_TYPE_FRAME => mk_layout ty seqno (u32 seqno) [] psize
  | FRAME_TYPE_FINAL => mk_layout ty seqno (u32 0xFFFFFFFF ++ u32 seqno) (u32 psize) psize
  end.

Definition wr_ok (room used : N) (st : wstate) : Prop :=
  ws_csize st = used /\ ws_small st = (room <? used) /\ (used <= room -> ws_room st = room - used).
Lemma wr_int_ok : forall room used st w, wr_ok room used st -> used + w < 18446744073709551616 ->
  wr_ok room (used + w) (wr_int w st).
Proof.
  intros room used st w [C [S R]] B. unfold wr_int, wr_ok. rewrite C, S, add64_small by auto.
  destruct (N.ltb_spec room used) as [L|L].
  - cbn [ws_room ws_csize ws_small]. split; auto. split; [symmetry; apply N.ltb_lt; lia|lia].
  - specialize (R L). rewrite R. destruct (N.ltb_spec (room - used) w); cbn [ws_room ws_csize ws_small].
    + split; auto. split; [symmetry; apply N.ltb_lt; lia|lia].
    + split; auto. split; [symmetry; apply N.ltb_ge; lia|lia].
Qed.
Lemma wr_sized_ok : forall room used st w, wr_ok room used st -> used + w < 18446744073709551616 ->
  wr_ok room (used + w) (wr_sized w st).
Proof.
  intros room used st w [C [S R]] B. unfold wr_sized, wr_ok. rewrite C, S, add64_small by auto.
  destruct (N.ltb_spec room used) as [L|L].
  - destruct (w <=? ws_room st); cbn [ws_room ws_csize ws_small]; (split; auto; split; [symmetry; apply N.ltb_lt; lia|lia]).
  - specialize (R L). rewrite R. destruct (N.leb_spec w (room - used)); cbn [ws_room ws_csize ws_small].
    + split; auto. split; [symmetry; apply N.ltb_ge; lia|lia].
    + split; auto. split; [symmetry; apply N.ltb_lt; lia|lia].
Qed.
Lemma wr_ok_init : forall room, wr_ok room 0 (mk_wstate room 0 false).
Proof. intros. unfold wr_ok. cbn. split; auto. split; [symmetry; apply N.ltb_ge; lia|lia]. Qed.
Lemma wr_ok_final : forall room used tot st (l : layout), wr_ok room used st -> used = tot ->
  mk_ser (if ws_small st then Err E_SHORT_BUFFER else Ok l) (Some (ws_csize st)) =
  mk_ser (if room <? tot then Err E_SHORT_BUFFER else Ok l) (Some tot).
Proof. intros room used tot st l [C [S R]] <-. now rewrite C, S. Qed.

Lemma serialize_frame_spec : forall p ty seqno psize room, std_lens p -> seqno < 4294967296 ->
  frame_writable ty seqno psize ->
  serialize_frame p ty seqno psize room =
  mk_ser (if room <? frame_total ty psize then Err E_SHORT_BUFFER else Ok (the_layout ty seqno psize))
         (Some (frame_total ty psize)).
Proof.
  intros p ty seqno psize room [IVL TL] SQ W. unfold serialize_frame, frame_total, the_layout.
  destruct ty; cbn [frame_writable] in W; unfold wr_frame; rewrite IVL, TL.
  - destruct (N.ltb_spec MAX_UNFRAMED_PLAINTEXT_SIZE psize); [unfold MAX_UNFRAMED_PLAINTEXT_SIZE in *; lia|].
    destruct (N.leb_spec MAX_UNFRAMED_PLAINTEXT_SIZE psize); [unfold MAX_UNFRAMED_PLAINTEXT_SIZE in *; lia|].
    rewrite be8 by lia. eapply wr_ok_final.
    + repeat first [ apply wr_ok_init | apply wr_int_ok | apply wr_sized_ok ]; lia.
    + lia.
  - destruct W as [W NS]. destruct (N.ltb_spec MAX_FRAME_SIZE psize); [unfold MAX_FRAME_SIZE in *; lia|].
    destruct (N.eqb_spec seqno LAST_FRAME_MARK); [contradiction|].
    rewrite be4 by lia. eapply wr_ok_final.
    + repeat first [ apply wr_ok_init | apply wr_int_ok | apply wr_sized_ok ]; lia.
    + lia.
  - destruct (N.ltb_spec MAX_FRAME_SIZE psize); [unfold MAX_FRAME_SIZE in *; lia|].
    change LAST_FRAME_MARK with 4294967295. rewrite (be4 4294967295), (be4 seqno), (be4 psize) by lia. eapply wr_ok_final.
    + repeat first [ apply wr_ok_init | apply wr_int_ok | apply wr_sized_ok ]; lia.
    + lia.
Qed.

(** Not writable: never succeeds, never reported as merely short. *)
Lemma serialize_frame_refused : forall p ty seqno psize room,
  ~ frame_writable ty seqno psize ->
  exists e, sr_res (serialize_frame p ty seqno psize room) = Err e /\ e <> E_SHORT_BUFFER.
Proof.
  intros p ty seqno psize room W. unfold serialize_frame.
  destruct ty; cbn [frame_writable] in W.
  - destruct (N.ltb_spec MAX_UNFRAMED_PLAINTEXT_SIZE psize); cbn; [eexists; split; [reflexivity|discriminate]|].
    unfold wr_frame. destruct (N.leb_spec MAX_UNFRAMED_PLAINTEXT_SIZE psize); cbn; [eexists; split; [reflexivity|discriminate]|].
    unfold MAX_UNFRAMED_PLAINTEXT_SIZE in *. lia.
  - destruct (N.ltb_spec MAX_FRAME_SIZE psize); cbn; [eexists; split; [reflexivity|discriminate]|].
    destruct (N.eqb_spec seqno LAST_FRAME_MARK); cbn; [eexists; split; [reflexivity|discriminate]|].
    exfalso. apply W. unfold MAX_FRAME_SIZE, LAST_FRAME_MARK in *. lia.
  - destruct (N.ltb_spec MAX_FRAME_SIZE psize); cbn; [eexists; split; [reflexivity|discriminate]|].
    unfold MAX_FRAME_SIZE in *. lia.
Qed.

Lemma the_layout_bytes : forall ty seqno iv ct tag,
  (ty = FRAME_TYPE_SINGLE -> seqno = 1) ->
  layout_bytes (the_layout ty seqno (Nlen ct)) iv ct tag = wire_frame (mk_frame ty seqno iv ct tag).
Proof.
  intros ty seqno iv ct tag H. destruct ty; unfold layout_bytes, the_layout, wire_frame; cbn [lo_fixed1 lo_fixed2 fr_type fr_seqno fr_iv fr_ciphertext fr_authtag]; auto.
Qed.
