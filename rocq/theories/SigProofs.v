(** Proofs about ECDSA keys and signatures. *)
From Verif Require Import Base BaseProofs AlgModel SigModel WireSpec SessionSpec KeyringSpec SigSpec.
From Coq Require Import ZArith String ZifyBool ZifyNat ZifyN.
Import List.
Open Scope list_scope.
Open Scope N_scope.

Lemma alg_curve_spec : forall alg c, alg_curve alg = Some c <-> suite_curve alg c.
Proof.
  intros alg c. unfold alg_curve, suite_curve, ALG_AES128_HKDF_P256, ALG_AES192_HKDF_P384, ALG_AES256_HKDF_P384, ALG_AES256_COMMIT_P384. split.
  - intros H. repeat match type of H with (if ?a =? ?b then _ else _) = _ => let E := fresh in destruct (a =? b) eqn:E; [apply N.eqb_eq in E; injection H as <-; subst; cbn; auto 6 |] end.
    discriminate.
  - intros [[-> ->] | [H ->]]; [reflexivity|]. cbn in H. destruct H as [<-|[<-|[<-|[]]]]; reflexivity.
Qed.

Lemma alg_curve_small : forall alg c, alg_curve alg = Some c -> alg < 65536.
Proof. intros alg c H. apply alg_curve_spec in H. destruct H as [[-> _]|[H _]]; [lia|]. cbn in H. destruct H as [<-|[<-|[<-|[]]]]; lia. Qed.

Lemma sig_len_spec : forall alg c p, alg_curve alg = Some c -> alg_lookup alg = Some p -> ap_sig_len p = suite_sig_len alg.
Proof.
  intros alg c p H K. apply alg_curve_spec in H.
  destruct H as [[-> _]|[H _]]; [| cbn in H; destruct H as [<-|[<-|[<-|[]]]]];
    vm_compute in K; injection K as <-; reflexivity.
Qed.

Lemma curve_has_props : forall alg c, alg_curve alg = Some c -> exists p, alg_lookup alg = Some p.
Proof.
  intros alg c H. apply alg_curve_spec in H.
  destruct H as [[-> _]|[H _]]; [| cbn in H; destruct H as [<-|[<-|[<-|[]]]]]; eexists; vm_compute; reflexivity.
Qed.

Lemma strip_nul_id : forall t, ~ In 0 t -> strip_nul t = t.
Proof.
  induction t as [|x r IH]; intros H; [reflexivity|].
  cbn [strip_nul]. destruct r as [|y r].
  - destruct (x =? 0) eqn:E; [|reflexivity]. exfalso. apply H. left. lia.
  - rewrite IH; [reflexivity|]. intros K. apply H. right. exact K.
Qed.
Lemma strip_nul_app : forall t, strip_nul (t ++ [0]) = t.
Proof.
  induction t as [|x r IH]; [reflexivity|].
  change ((x :: r) ++ [0]) with (x :: (r ++ [0])). cbn [strip_nul].
  destruct (r ++ [0]) eqn:E; [destruct r; discriminate|]. rewrite <- E in *. rewrite IH. reflexivity.
Qed.

Lemma text_back : forall o b, ec_sane o -> ec_unb64 o (strip_nul (ec_b64 o b)) = Some b.
Proof.
  intros o b S0. destruct (es_text o S0 b) as (t & [E|E] & Ht & K); rewrite E.
  - rewrite strip_nul_id by exact Ht. exact K.
  - rewrite strip_nul_app. exact K.
Qed.

(** ** Storing *)
Lemma get_privkey_inv : forall o f x s, sig_get_privkey o f x = Ok s ->
  exists c d pubb privb, alg_curve (ex_alg x) = Some c /\ ex_priv x = Some d /\ ec_i2o o c (ex_pub x) = Some pubb /\
    ec_i2d o d = Some privb /\ Nlen pubb <= 255 /\ Nlen privb <= 255 /\ key_image (ex_alg x) pubb privb s /\ Nlen s <= 130.
Proof.
  intros o f x s H. unfold sig_get_privkey in H.
  destruct (alg_curve (ex_alg x)) as [c|] eqn:Hc; [|discriminate].
  destruct (ex_priv x) as [d|] eqn:Hd; [|discriminate].
  destruct (negb (ok_to_asn1 f)); [discriminate|].
  destruct (ec_i2d o d) as [privb|] eqn:Hv; [|discriminate].
  destruct (ec_i2o o c (ex_pub x)) as [pubb|] eqn:Hp; [|discriminate].
  destruct (255 <? Nlen privb) eqn:L1; [discriminate|]. destruct (255 <? Nlen pubb) eqn:L2; [discriminate|]. cbn [orb] in H.
  unfold buf_append at 1 in H. cbn [bind] in H.
  destruct (PRIVKEY_BUF_SIZE <? Nlen [] + Nlen (be_bytes 2 (ex_alg x))) eqn:B0; [discriminate|]. cbn [bind] in H.
  unfold buf_append at 1 in H.
  match type of H with context[if ?b then _ else _] => destruct b eqn:B1; [discriminate|] end. cbn [bind] in H.
  unfold buf_append at 1 in H.
  match type of H with context[if ?b then _ else _] => destruct b eqn:B2; [discriminate|] end. cbn [bind] in H.
  destruct (negb (ok_string f)); [discriminate|]. injection H as <-.
  exists c, d, pubb, privb. repeat (split; [assumption || lia || reflexivity|]).
  pose proof (alg_curve_small _ _ Hc) as Ha.
  split.
  - unfold key_image. rewrite (N.mod_small (Nlen pubb)), (N.mod_small (Nlen privb)) by lia.
    change (be_bytes 2 (ex_alg x)) with [(ex_alg x / 2 ^ 8) mod 256; (ex_alg x / 2 ^ 0) mod 256].
    change (2 ^ 8) with 256. change (2 ^ 0) with 1. rewrite N.div_1_r.
    rewrite (N.mod_small (ex_alg x / 256)) by (apply N.div_lt_upper_bound; lia).
    reflexivity.
  - apply N.ltb_ge in B2. revert B2. unfold PRIVKEY_BUF_SIZE, MAX_PUBKEY_SIZE. cbn [be_bytes].
    repeat rewrite ?Nlen_app, ?Nlen_cons, ?Nlen_nil. lia.
Qed.

Lemma get_privkey_fits : forall o f x c d pubb privb,
  alg_curve (ex_alg x) = Some c -> ex_priv x = Some d -> ec_i2o o c (ex_pub x) = Some pubb -> ec_i2d o d = Some privb ->
  Nlen pubb + Nlen privb <= 126 -> no_faults f -> exists s, sig_get_privkey o f x = Ok s.
Proof.
  intros o f x c d pubb privb Hc Hd Hp Hv L (F1 & F2 & F3 & F4 & F5 & F6 & F7 & F8 & F9 & F10).
  unfold sig_get_privkey. rewrite Hc, Hd, F4, Hv, Hp. cbn [negb].
  replace (255 <? Nlen privb) with false by (symmetry; apply N.ltb_ge; lia).
  replace (255 <? Nlen pubb) with false by (symmetry; apply N.ltb_ge; lia). cbn [orb].
  unfold buf_append. unfold PRIVKEY_BUF_SIZE, MAX_PUBKEY_SIZE.
  match goal with |- context[if ?b then _ else _] => destruct b eqn:B1 end.
  { apply N.ltb_lt in B1. rewrite Nlen_be_bytes, Nlen_nil in B1. lia. }
  cbn [bind].
  match goal with |- context[if ?b then _ else _] => destruct b eqn:B2 end.
  { apply N.ltb_lt in B2. revert B2. cbn [be_bytes]. repeat rewrite ?Nlen_app, ?Nlen_cons, ?Nlen_nil. lia. }
  cbn [bind].
  match goal with |- context[if ?b then _ else _] => destruct b eqn:B3 end.
  { apply N.ltb_lt in B3. revert B3. cbn [be_bytes]. repeat rewrite ?Nlen_app, ?Nlen_cons, ?Nlen_nil. lia. }
  cbn [bind]. rewrite F7. cbn [negb]. eexists. reflexivity.
Qed.

(** ** Reloading *)
Lemma start_cons : forall o f alg w a b pl vl r,
  sig_sign_start o f alg w (a :: b :: pl :: vl :: r) =
  match alg_curve alg with
  | None => Ok (None, None)
  | Some c =>
      if Nlen r =? 0 then Err E_CRYPTO_UNKNOWN
      else if negb (a * 256 + b =? alg) then Err E_CRYPTO_UNKNOWN
      else if negb (ok_key_new f) then Err E_OOM
      else if negb (ok_group f) then Err E_CRYPTO_UNKNOWN
      else if negb (ok_set_group f) then Err E_CRYPTO_UNKNOWN
      else
        do (pub, s) <- read_field (ec_o2i o c) pl r;
        do (d, s) <- read_field (ec_d2i o) vl s;
        if negb (ok_to_bn f) then Err E_OOM
        else if negb (ok_set_priv f) then Err E_OOM
        else if negb (Nlen s =? 0) then Err E_CRYPTO_UNKNOWN
        else
          do text <- (if w then do t <- serialize_pubkey o f c pub; Ok (Some t) else Ok None);
          do x <- sign_start f alg pub d;
          Ok (Some x, text)
  end.
Proof.
  intros. unfold sig_sign_start. destruct (alg_curve alg) as [c|]; [|reflexivity].
  replace (Nlen (a :: b :: pl :: vl :: r) <? 5) with (Nlen r =? 0).
  2: { rewrite !Nlen_cons. destruct (Nlen r =? 0) eqn:E, (_ <? 5) eqn:K; try reflexivity; exfalso; lia. }
  destruct (Nlen r =? 0); [reflexivity|].
  assert (R2 : read_int 2 (a :: b :: pl :: vl :: r) = Ok (a * 256 + b, pl :: vl :: r)).
  { unfold read_int, read_be, read_bytes. change (N.of_nat 2) with 2.
    replace (Nlen (a :: b :: pl :: vl :: r) <? 2) with false by (symmetry; apply N.ltb_ge; rewrite !Nlen_cons; lia).
    cbn [bind firstn skipn N.to_nat Pos.to_nat Pos.iter_op Nat.add]. unfold be_val. cbn [fold_left].
    change (N.to_nat 2) with 2%nat. cbn [firstn skipn]. unfold be_val. cbn [fold_left]. rewrite N.mul_0_l, N.add_0_l. reflexivity. }
  assert (R1 : forall y t, read_int 1 (y :: t) = Ok (y, t)).
  { intros y t. unfold read_int, read_be, read_bytes. change (N.of_nat 1) with 1.
    replace (Nlen (y :: t) <? 1) with false by (symmetry; apply N.ltb_ge; rewrite !Nlen_cons; lia).
    change (N.to_nat 1) with 1%nat. cbn [bind firstn skipn]. unfold be_val. cbn [fold_left]. rewrite N.mul_0_l, N.add_0_l. reflexivity. }
  rewrite R2. cbn [bind]. rewrite R1. cbn [bind]. rewrite R1. cbn [bind]. reflexivity.
Qed.

Lemma start_short : forall o f alg w s, alg_curve alg <> None -> Nlen s < 5 -> sig_sign_start o f alg w s = Err E_CRYPTO_UNKNOWN.
Proof.
  intros o f alg w s H L. unfold sig_sign_start. destruct (alg_curve alg); [|congruence].
  replace (Nlen s <? 5) with true by (symmetry; apply N.ltb_lt; exact L). reflexivity.
Qed.

Lemma long_cons : forall s : list N, 5 <= Nlen s -> exists a b c d r, s = a :: b :: c :: d :: r /\ 0 < Nlen r.
Proof.
  intros s H. destruct s as [|a [|b [|c [|d r]]]]; rewrite ?Nlen_cons, ?Nlen_nil in H; try lia.
  exists a, b, c, d, r. split; [reflexivity|lia].
Qed.

Lemma read_field_inv : forall A (dec : list N -> option (A * N)) n s v r, read_field dec n s = Ok (v, r) ->
  exists field, s = field ++ r /\ Nlen field = n /\ dec field = Some (v, n).
Proof.
  intros A dec n s v r H. unfold read_field in H.
  destruct (read_bytes n s) as [[field rest]|] eqn:E; [|discriminate].
  apply read_bytes_inv in E. destruct E as [-> L].
  destruct (dec field) as [[v' used]|] eqn:D; [|discriminate].
  destruct (used =? Nlen field) eqn:U; [|discriminate]. apply N.eqb_eq in U. injection H as -> ->.
  exists field. split; [reflexivity|]. split; [exact L|]. rewrite D. congruence.
Qed.

Lemma read_field_app : forall A (dec : list N -> option (A * N)) b v r, dec b = Some (v, Nlen b) ->
  read_field dec (Nlen b) (b ++ r) = Ok (v, r).
Proof. intros. unfold read_field. rewrite read_bytes_app. rewrite H, N.eqb_refl. reflexivity. Qed.

(** The pieces of an accepted text. *)
Lemma start_inv : forall o f alg w s x t, sig_sign_start o f alg w s = Ok (Some x, t) ->
  exists c a b pubb privb d, alg_curve alg = Some c /\ s = [a; b; Nlen pubb; Nlen privb] ++ pubb ++ privb /\ a * 256 + b = alg /\
    ec_o2i o c pubb = Some (ex_pub x, Nlen pubb) /\ ec_d2i o privb = Some (d, Nlen privb) /\
    x = mk_ec_ctx alg (ex_pub x) (Some d) true /\
    (w = false -> t = None) /\ (w = true -> exists k, t = Some k /\ serialize_pubkey o f c (ex_pub x) = Ok k).
Proof.
  intros o f alg w s x t H.
  destruct (alg_curve alg) as [c|] eqn:Hc; [|unfold sig_sign_start in H; rewrite Hc in H; discriminate].
  destruct (N.lt_ge_cases (Nlen s) 5) as [L|L]; [rewrite (start_short o f alg w s) in H by congruence; discriminate|].
  destruct (long_cons s L) as (a & b & pl & vl & r & -> & Lr).
  rewrite start_cons, Hc in H.
  destruct (Nlen r =? 0) eqn:E0; [discriminate|].
  destruct (a * 256 + b =? alg) eqn:Ea; [|discriminate]. apply N.eqb_eq in Ea. cbn [negb] in H.
  destruct (ok_key_new f); [|discriminate]. destruct (ok_group f); [|discriminate]. destruct (ok_set_group f); [|discriminate]. cbn [negb] in H.
  destruct (read_field (ec_o2i o c) pl r) as [[pub r1]|] eqn:R1; [|discriminate]. cbn [bind] in H.
  destruct (read_field (ec_d2i o) vl r1) as [[d r2]|] eqn:R2; [|discriminate]. cbn [bind] in H.
  destruct (ok_to_bn f); [|discriminate]. destruct (ok_set_priv f); [|discriminate]. cbn [negb] in H.
  destruct (Nlen r2 =? 0) eqn:E2; [|discriminate]. cbn [negb] in H. apply N.eqb_eq in E2. apply Nlen_0 in E2. subst r2.
  apply read_field_inv in R1. destruct R1 as (pubb & -> & <- & D1).
  apply read_field_inv in R2. destruct R2 as (privb & -> & <- & D2). rewrite app_nil_r in *.
  exists c, a, b, pubb, privb, d. split; [reflexivity|]. split; [reflexivity|]. split; [exact Ea|].
  assert (G : sign_start f alg pub d = Ok x -> x = mk_ec_ctx alg pub (Some d) true).
  { unfold sign_start. destruct (negb (ok_ctx f)); [discriminate|]. destruct (negb (ok_pkey f)); [discriminate|].
    destruct (negb (ok_digest f)); [discriminate|]. congruence. }
  destruct w.
  - destruct (serialize_pubkey o f c pub) as [k|] eqn:K; [|discriminate]. cbn [bind] in H.
    destruct (sign_start f alg pub d) as [x'|]; [|discriminate]. cbn [bind] in H.
    assert (x' = x) by congruence. assert (t = Some k) by congruence. subst x' t. rewrite (G eq_refl). cbn [ex_pub].
    split; [exact D1|]. split; [exact D2|]. split; [reflexivity|]. split; [discriminate|]. intros _. exists k. auto.
  - cbn [bind] in H. destruct (sign_start f alg pub d) as [x'|]; [|discriminate]. cbn [bind] in H.
    assert (x' = x) by congruence. assert (t = None) by congruence. subst x' t. rewrite (G eq_refl). cbn [ex_pub].
    split; [exact D1|]. split; [exact D2|]. split; [reflexivity|]. split; [reflexivity|discriminate].
Qed.

Lemma image_start : forall o f alg c pubb privb s pub d,
  alg_curve alg = Some c -> key_image alg pubb privb s -> pubb ++ privb <> [] ->
  ec_o2i o c pubb = Some (pub, Nlen pubb) -> ec_d2i o privb = Some (d, Nlen privb) -> no_faults f ->
  sig_sign_start o f alg false s = Ok (Some (mk_ec_ctx alg pub (Some d) true), None) /\
  (forall k, serialize_pubkey o f c pub = Ok k -> sig_sign_start o f alg true s = Ok (Some (mk_ec_ctx alg pub (Some d) true), Some k)).
Proof.
  intros o f alg c pubb privb s pub d Hc -> Hne D1 D2 (F1 & F2 & F3 & F4 & F5 & F6 & F7 & F8 & F9 & F10).
  assert (G : forall w, sig_sign_start o f alg w ([alg / 256; alg mod 256; Nlen pubb; Nlen privb] ++ pubb ++ privb) =
    do text <- (if w then do t <- serialize_pubkey o f c pub; Ok (Some t) else Ok None);
    Ok (Some (mk_ec_ctx alg pub (Some d) true), text)).
  { intros w. cbn [app]. rewrite start_cons, Hc.
    destruct (Nlen (pubb ++ privb) =? 0) eqn:E. { apply N.eqb_eq, Nlen_0 in E. contradiction. }
    replace (alg / 256 * 256 + alg mod 256) with alg by (rewrite N.mul_comm; apply N.div_mod; lia).
    rewrite N.eqb_refl, F1, F2, F3, F5, F6. cbn [negb].
    rewrite (read_field_app _ _ _ _ _ D1). cbn [bind].
    rewrite <- (app_nil_r privb) at 2. rewrite (read_field_app _ _ _ _ _ D2). cbn [bind].
    rewrite Nlen_nil, N.eqb_refl. cbn [negb]. unfold sign_start. rewrite F8, F9, F10. cbn [negb bind]. reflexivity. }
  split; [rewrite G; reflexivity|]. intros k Hk. rewrite G, Hk. reflexivity.
Qed.

Lemma round_trip : forall o f f' x s, ec_sane o -> ex_sign x = true -> sig_get_privkey o f x = Ok s -> no_faults f' ->
  sig_sign_start o f' (ex_alg x) false s = Ok (Some x, None) /\
  (forall k, sig_get_pubkey o f' x = Ok k -> sig_sign_start o f' (ex_alg x) true s = Ok (Some x, Some k)).
Proof.
  intros o f f' x s So Hs H F.
  destruct (get_privkey_inv _ _ _ _ H) as (c & d & pubb & privb & Hc & Hd & Hp & Hv & _ & _ & Im & _).
  pose proof (es_point _ So _ _ _ Hp) as D1. destruct (es_int _ So _ _ Hv) as [Hne D2].
  assert (Ex : mk_ec_ctx (ex_alg x) (ex_pub x) (Some d) true = x) by (destruct x; cbn in *; congruence).
  destruct (image_start o f' (ex_alg x) c pubb privb s (ex_pub x) d Hc Im) as [A B]; try assumption.
  { intros K. apply app_eq_nil in K. tauto. }
  rewrite Ex in *. split; [exact A|]. intros k Hk. apply B. unfold sig_get_pubkey in Hk. rewrite Hc in Hk. exact Hk.
Qed.

Lemma serialize_same : forall o f f' c p k k', serialize_pubkey o f c p = Ok k -> serialize_pubkey o f' c p = Ok k' -> k = k'.
Proof.
  intros o f f' c p k k'. unfold serialize_pubkey. destruct (ec_i2o o c p) as [[|y b]|]; try discriminate.
  destruct (_ <? _); [discriminate|]. destruct (negb (ok_string f)); [discriminate|]. destruct (negb (ok_string f')); [discriminate|]. congruence.
Qed.

Lemma reload_never_wrong : forall o f f' x s w y t, ec_sane o -> ex_sign x = true -> sig_get_privkey o f x = Ok s ->
  sig_sign_start o f' (ex_alg x) w s = Ok (y, t) ->
  y = Some x /\ forall g k, t = Some k -> forall k', sig_get_pubkey o g x = Ok k' -> k' = k.
Proof.
  intros o f f' x s w y t So Hs H K.
  destruct (get_privkey_inv _ _ _ _ H) as (c & d & pubb & privb & Hc & Hd & Hp & Hv & _ & _ & Im & _).
  destruct y as [y|].
  2: { exfalso. unfold sig_sign_start in K. rewrite Hc in K.
       repeat match type of K with
       | context[if ?b then _ else _] => destruct b; try discriminate
       | context[bind ?m _] => destruct m as [?v|]; [cbn [bind] in K|discriminate]; try (destruct v as [? ?])
       end; try discriminate. }
  destruct (start_inv _ _ _ _ _ _ _ K) as (c' & a & b & pubb' & privb' & d' & Hc' & Es & _ & D1 & D2 & Ey & T0 & T1).
  assert (c' = c) by congruence. subst c'.
  unfold key_image in Im. rewrite Im in Es. cbn [app] in Es. injection Es as _ _ L1 L2 E.
  assert (pubb = pubb' /\ privb = privb') as [<- <-].
  { assert (LL : length pubb = length pubb') by (rewrite !length_Nlen, L1; reflexivity).
    assert (Q : firstn (length pubb) (pubb ++ privb) = firstn (length pubb) (pubb' ++ privb')) by congruence.
    assert (Q' : skipn (length pubb) (pubb ++ privb) = skipn (length pubb) (pubb' ++ privb')) by congruence.
    rewrite LL in Q at 2. rewrite LL in Q' at 2.
    rewrite !firstn_app, !Nat.sub_diag, !firstn_all, !firstn_O, !app_nil_r in Q.
    rewrite !skipn_app, !Nat.sub_diag, !skipn_all, !skipn_O in Q'. cbn [app] in Q'. split; assumption. }
  pose proof (es_point _ So _ _ _ Hp) as E1. destruct (es_int _ So _ _ Hv) as [_ E2].
  assert (ex_pub y = ex_pub x) by congruence. assert (d' = d) by congruence. subst d'.
  split.
  - rewrite Ey. f_equal. destruct x, y; cbn in *; congruence.
  - intros g k Hk k' Hk'. destruct w; [|rewrite T0 in Hk by reflexivity; discriminate].
    destruct (T1 eq_refl) as (k0 & Ek & S1). unfold sig_get_pubkey in Hk'. rewrite Hc in Hk'.
    assert (k0 = k) by congruence. subst k0. replace (ex_pub y) with (ex_pub x) in S1 by congruence.
    symmetry. exact (serialize_same _ _ _ _ _ _ _ S1 Hk').
Qed.

Lemma bound_to_suite : forall o f x s o' f' alg' w, sig_get_privkey o f x = Ok s -> alg' <> ex_alg x -> alg_curve alg' <> None ->
  sig_sign_start o' f' alg' w s = Err E_CRYPTO_UNKNOWN.
Proof.
  intros o f x s o' f' alg' w H Hne Hcv.
  destruct (get_privkey_inv _ _ _ _ H) as (c & d & pubb & privb & Hc & Hd & Hp & Hv & _ & _ & Im & _).
  unfold key_image in Im. rewrite Im. cbn [app]. rewrite start_cons.
  destruct (alg_curve alg'); [|congruence].
  destruct (Nlen (pubb ++ privb) =? 0); [reflexivity|].
  replace (ex_alg x / 256 * 256 + ex_alg x mod 256) with (ex_alg x) by (rewrite N.mul_comm; apply N.div_mod; lia).
  destruct (ex_alg x =? alg') eqn:E; [apply N.eqb_eq in E; congruence|]. reflexivity.
Qed.

Lemma accepts_iff : forall o f alg s x, bytes_ok s -> no_faults f -> (forall v, ec_d2i o [] <> Some (v, 0)) ->
  sig_sign_start o f alg false s = Ok (Some x, None) <->
  exists c pubb privb d, suite_curve alg c /\ key_image alg pubb privb s /\ ec_o2i o c pubb = Some (ex_pub x, Nlen pubb) /\
    ec_d2i o privb = Some (d, Nlen privb) /\ signer x alg (ex_pub x) d.
Proof.
  intros o f alg s x Hb F D0. split.
  - intros H. destruct (start_inv _ _ _ _ _ _ _ H) as (c & a & b & pubb & privb & d & Hc & Es & Ea & D1 & D2 & Ex & _ & _).
    exists c, pubb, privb, d. split; [apply alg_curve_spec; exact Hc|]. split.
    + unfold key_image. rewrite Es. cbn [app].
      assert (Ha : b < 256). { rewrite Es in Hb. inversion Hb as [|? ? _ Hb']. inversion Hb' as [|? ? Q _]. exact Q. }
      assert (alg / 256 = a) by (symmetry; apply (N.div_unique alg 256 a b); lia).
      assert (alg mod 256 = b) by (symmetry; apply (N.mod_unique alg 256 a b); lia). congruence.
    + split; [exact D1|]. split; [exact D2|]. rewrite Ex. repeat split.
  - intros (c & pubb & privb & d & Hc & Im & D1 & D2 & (X1 & X2 & X3 & X4)). apply alg_curve_spec in Hc.
    destruct (image_start o f alg c pubb privb s (ex_pub x) d Hc Im) as [A _]; try assumption.
    + intros K. apply app_eq_nil in K. destruct K as [_ ->]. apply (D0 d). exact D2.
    + rewrite A. f_equal. f_equal. f_equal. destruct x; cbn in *; congruence.
Qed.

Lemma prefix_free : forall o f alg w s x t o' f' alg' w' e y u,
  sig_sign_start o f alg w s = Ok (Some x, t) -> sig_sign_start o' f' alg' w' (s ++ e) = Ok (Some y, u) -> e = [].
Proof.
  intros o f alg w s x t o' f' alg' w' e y u H K.
  destruct (start_inv _ _ _ _ _ _ _ H) as (c & a & b & p & v & d & _ & E1 & _).
  destruct (start_inv _ _ _ _ _ _ _ K) as (c' & a' & b' & p' & v' & d' & _ & E2 & _).
  rewrite E1 in E2. cbn [app] in E2. injection E2 as _ _ L1 L2 E.
  apply Nlen_0. assert (Q : Nlen ((p ++ v) ++ e) = Nlen (p' ++ v')) by congruence. rewrite !Nlen_app in Q. lia.
Qed.

Lemma start_total : forall o f alg w s r, alg_curve alg <> None -> sig_sign_start o f alg w s = Ok r -> exists x, fst r = Some x.
Proof.
  intros o f alg w s [[x|] t] Hc H; [exists x; reflexivity|]. exfalso.
  unfold sig_sign_start in H. destruct (alg_curve alg); [|congruence].
  repeat match type of H with
  | context[if ?b then _ else _] => destruct b; try discriminate
  | context[bind ?m _] => destruct m as [?v|]; [cbn [bind] in H|discriminate]; try (destruct v as [? ?])
  end; try discriminate.
Qed.

Lemma extension_rejected : forall o f alg w s x t, sig_sign_start o f alg w s = Ok (Some x, t) ->
  forall o' f' alg' w', alg_curve alg' <> None ->
  (forall e, e <> [] -> exists er, sig_sign_start o' f' alg' w' (s ++ e) = Err er) /\
  (forall s1 s2, s = s1 ++ s2 -> s2 <> [] -> exists er, sig_sign_start o' f' alg' w' s1 = Err er).
Proof.
  intros o f alg w s x t H o' f' alg' w' Hc. split.
  - intros e He. destruct (sig_sign_start o' f' alg' w' (s ++ e)) as [[y u]|er] eqn:K; [|eauto]. exfalso.
    destruct (start_total _ _ _ _ _ _ Hc K) as [y' Ey]. cbn in Ey. subst y.
    apply He. exact (prefix_free _ _ _ _ _ _ _ _ _ _ _ _ _ _ H K).
  - intros s1 s2 -> He. destruct (sig_sign_start o' f' alg' w' s1) as [[y u]|er] eqn:K; [|eauto]. exfalso.
    destruct (start_total _ _ _ _ _ _ Hc K) as [y' Ey]. cbn in Ey. subst y.
    apply He. exact (prefix_free _ _ _ _ _ _ _ _ _ _ _ _ _ _ K H).
Qed.

(** ** Public keys as text *)
Lemma pubkey_text_back : forall o f f' x t c pubb, ec_sane o -> sig_get_pubkey o f x = Ok t -> alg_curve (ex_alg x) = Some c ->
  ec_i2o o c (ex_pub x) = Some pubb -> Nlen pubb <= 64 -> no_faults f' ->
  sig_verify_start o f' (ex_alg x) t = Ok (Some (mk_ec_ctx (ex_alg x) (ex_pub x) None false)).
Proof.
  intros o f f' x t c pubb So H Hc Hp L (F1 & F2 & F3 & F4 & F5 & F6 & F7 & F8 & F9 & F10).
  unfold sig_get_pubkey in H. rewrite Hc in H. unfold serialize_pubkey in H. rewrite Hp in H.
  destruct pubb as [|z pubb]; [discriminate|].
  destruct (_ <? _) eqn:L1; [discriminate|]. destruct (negb (ok_string f)); [discriminate|]. injection H as <-.
  unfold sig_verify_start. rewrite Hc, F8. cbn [negb]. unfold load_pubkey. rewrite text_back by exact So.
  replace (MAX_PUBKEY_SIZE <? Nlen (z :: pubb)) with false by (symmetry; apply N.ltb_ge; unfold MAX_PUBKEY_SIZE; exact L).
  rewrite F1, F2, F3. cbn [negb]. rewrite (es_point _ So _ _ _ Hp). cbn [bind]. rewrite F9, F10. reflexivity.
Qed.

Lemma verify_start_inv : forall o f alg t r, sig_verify_start o f alg t = Ok r ->
  (r = None /\ alg_curve alg = None) \/
  exists c b pub n, alg_curve alg = Some c /\ ec_unb64 o t = Some b /\ Nlen b <= 64 /\ ec_o2i o c b = Some (pub, n) /\
    r = Some (mk_ec_ctx alg pub None false).
Proof.
  intros o f alg t r H. unfold sig_verify_start in H. destruct (alg_curve alg) as [c|] eqn:Hc.
  - right. destruct (negb (ok_ctx f)); [discriminate|]. unfold load_pubkey in H.
    destruct (ec_unb64 o t) as [b|]; [|discriminate].
    destruct (MAX_PUBKEY_SIZE <? Nlen b) eqn:L; [discriminate|]. apply N.ltb_ge in L.
    destruct (negb (ok_group f)); [discriminate|]. destruct (negb (ok_key_new f)); [discriminate|]. destruct (negb (ok_set_group f)); [discriminate|].
    destruct (ec_o2i o c b) as [[pub n]|] eqn:D; [|discriminate]. cbn [bind] in H.
    destruct (negb (ok_pkey f)); [discriminate|]. destruct (negb (ok_digest f)); [discriminate|].
    exists c, b, pub, n. repeat (split; [assumption || reflexivity|]). congruence.
  - left. split; congruence.
Qed.

Lemma keygen_inv : forall o f alg w gen x t, sig_sign_start_keygen o f alg w gen = Ok (x, t) ->
  (alg_curve alg = None /\ x = None /\ t = None) \/
  exists c pub d, alg_curve alg = Some c /\ gen = Some (pub, d) /\ x = Some (mk_ec_ctx alg pub (Some d) true) /\
    (w = false -> t = None) /\ (w = true -> exists k, t = Some k /\ serialize_pubkey o f c pub = Ok k).
Proof.
  intros o f alg w gen x t H. unfold sig_sign_start_keygen in H. destruct (alg_curve alg) as [c|]; [|left; split; [reflexivity|split; congruence]].
  right. destruct (_ || _); [discriminate|]. destruct gen as [[pub d]|]; [|discriminate].
  assert (G : forall y, sign_start f alg pub d = Ok y -> y = mk_ec_ctx alg pub (Some d) true).
  { unfold sign_start. intros y. destruct (negb (ok_ctx f)); [discriminate|]. destruct (negb (ok_pkey f)); [discriminate|].
    destruct (negb (ok_digest f)); [discriminate|]. congruence. }
  exists c, pub, d. split; [reflexivity|]. split; [reflexivity|].
  destruct w.
  - destruct (serialize_pubkey o f c pub) as [k|]; [|discriminate]. cbn [bind] in H.
    destruct (sign_start f alg pub d) as [y|]; [|discriminate]. cbn [bind] in H. rewrite (G y eq_refl) in H.
    split; [congruence|]. split; [discriminate|]. intros _. exists k. split; congruence.
  - cbn [bind] in H. destruct (sign_start f alg pub d) as [y|]; [|discriminate]. cbn [bind] in H. rewrite (G y eq_refl) in H.
    split; [congruence|]. split; [congruence|discriminate].
Qed.

Lemma keygen_then_verify : forall o f f' alg gen x t c pubb, ec_sane o -> sig_sign_start_keygen o f alg true gen = Ok (Some x, Some t) ->
  suite_curve alg c -> ec_i2o o c (ex_pub x) = Some pubb -> Nlen pubb <= 64 -> no_faults f' ->
  sig_verify_start o f' alg t = Ok (Some (mk_ec_ctx alg (ex_pub x) None false)).
Proof.
  intros o f f' alg gen x t c pubb So H Hc Hp L F. apply alg_curve_spec in Hc.
  destruct (keygen_inv _ _ _ _ _ _ _ H) as [(Q & _)|(c' & pub & d & Hc' & _ & Ex & _ & T)]; [congruence|].
  assert (c' = c) by congruence. subst c'. destruct (T eq_refl) as (k & Ek & S1).
  assert (x = mk_ec_ctx alg pub (Some d) true) by congruence. subst x. assert (t = k) by congruence. subst t.
  cbn [ex_pub] in *. 
  pose proof (pubkey_text_back o f f' (mk_ec_ctx alg pub (Some d) true) k c pubb So) as P. cbn [ex_alg ex_pub] in P.
  apply P; try assumption. unfold sig_get_pubkey. cbn [ex_alg ex_pub]. rewrite Hc. exact S1.
Qed.

(** ** Signing *)
Lemma sign_loop_ok : forall o c want cap (valid : list N -> Prop) tries cur b,
  (forall b r s b', valid b -> ec_sig_d2i o b = Some (r, s) -> ec_sig_i2d o (r, (ec_order o c - s)%Z) = Some b' -> valid b') ->
  (forall t b, In t tries -> st_sig t = Some b -> valid b) ->
  (Nlen cur = want -> valid cur) ->
  sign_loop o c want cap cur tries = SignOk b -> Nlen b = want /\ valid b.
Proof.
  intros o c want cap valid tries. induction tries as [|t rest IH]; intros cur b M V C H; cbn [sign_loop] in H.
  - destruct (Nlen cur =? want) eqn:E; [|discriminate]. apply N.eqb_eq in E. assert (cur = b) by congruence. subst. auto.
  - destruct (Nlen cur =? want) eqn:E. { apply N.eqb_eq in E. assert (cur = b) by congruence. subst. auto. }
    destruct (st_sig t) as [b0|] eqn:Et; [|discriminate].
    assert (V0 : valid b0) by (apply (V t); [left; reflexivity|exact Et]).
    assert (V' : forall t b, In t rest -> st_sig t = Some b -> valid b) by (intros t0 b1 Hi; apply V; right; exact Hi).
    destruct (Nlen b0 =? want) eqn:E0. { apply N.eqb_eq in E0. assert (b0 = b) by congruence. subst. auto. }
    destruct (ec_sig_d2i o b0) as [[r s]|] eqn:D.
    + destruct (negb (st_dup t)); [discriminate|]. destruct (negb (st_sub t)); [discriminate|].
      destruct (ec_sig_i2d o (r, (ec_order o c - s)%Z)) as [b'|] eqn:I; [|discriminate].
      destruct (cap <? Nlen b'); [discriminate|]. apply (IH b' b M V'); [|exact H]. intros _. exact (M _ _ _ _ V0 D I).
    + apply (IH b0 b M V'); [|exact H]. intros _. exact V0.
Qed.

Lemma sign_loop_overflow : forall o c want cap tries cur,
  (forall t b r s b', In t tries -> st_sig t = Some b -> ec_sig_d2i o b = Some (r, s) ->
     ec_sig_i2d o (r, (ec_order o c - s)%Z) = Some b' -> Nlen b' <= cap) ->
  sign_loop o c want cap cur tries <> SignOverflow.
Proof.
  intros o c want cap tries. induction tries as [|t rest IH]; intros cur B; cbn [sign_loop].
  - destruct (Nlen cur =? want); discriminate.
  - destruct (Nlen cur =? want); [discriminate|].
    destruct (st_sig t) as [b0|] eqn:Et; [|discriminate]. destruct (Nlen b0 =? want); [discriminate|].
    assert (B' : forall t b r s b', In t rest -> st_sig t = Some b -> ec_sig_d2i o b = Some (r, s) ->
       ec_sig_i2d o (r, (ec_order o c - s)%Z) = Some b' -> Nlen b' <= cap) by (intros; eapply B; [right|..]; eassumption).
    destruct (ec_sig_d2i o b0) as [[r s]|] eqn:D; [|apply IH; exact B'].
    destruct (negb (st_dup t)); [discriminate|]. destruct (negb (st_sub t)); [discriminate|].
    destruct (ec_sig_i2d o (r, (ec_order o c - s)%Z)) as [b'|] eqn:I; [|discriminate].
    assert (Nlen b' <= cap) by (eapply B; [left; reflexivity|..]; eassumption).
    replace (cap <? Nlen b') with false by (symmetry; apply N.ltb_ge; assumption). apply IH; exact B'.
Qed.

Lemma sign_loop_more : forall o c want cap tries cur,
  sign_loop o c want cap cur tries = SignMore -> Nlen cur <> want /\ forall t, In t tries -> misses o c want t.
Proof.
  intros o c want cap tries. induction tries as [|t rest IH]; intros cur H; cbn [sign_loop] in H.
  - destruct (Nlen cur =? want) eqn:E; [discriminate|]. apply N.eqb_neq in E. split; [exact E|]. intros t [].
  - destruct (Nlen cur =? want) eqn:E; [discriminate|]. apply N.eqb_neq in E. split; [exact E|].
    destruct (st_sig t) as [b0|] eqn:Et; [|discriminate]. destruct (Nlen b0 =? want) eqn:E0; [discriminate|]. apply N.eqb_neq in E0.
    destruct (ec_sig_d2i o b0) as [[r s]|] eqn:D.
    + destruct (negb (st_dup t)); [discriminate|]. destruct (negb (st_sub t)); [discriminate|].
      destruct (ec_sig_i2d o (r, (ec_order o c - s)%Z)) as [b'|] eqn:I; [|discriminate].
      destruct (cap <? Nlen b'); [discriminate|]. destruct (IH _ H) as [E1 R].
      intros t' [<-|Hi]; [|apply R; exact Hi]. exists b0. split; [exact Et|]. split; [exact E0|]. intros r' s' b1 D' I'.
      assert (r' = r) by congruence. assert (s' = s) by congruence. subst r' s'. assert (b1 = b') by congruence. subst. exact E1.
    + destruct (IH _ H) as [_ R]. intros t' [<-|Hi]; [|apply R; exact Hi]. exists b0. split; [exact Et|]. split; [exact E0|]. congruence.
Qed.

Lemma sign_finish_ok : forall o f alg c ready valid tries b, suite_curve alg c -> ecdsa_sane o c valid tries ->
  sig_sign_finish o f alg ready tries = SignOk b -> Nlen b = suite_sig_len alg /\ valid b.
Proof.
  intros o f alg c ready valid tries b Hc [V M] H. apply alg_curve_spec in Hc.
  unfold sig_sign_finish in H. rewrite Hc in H. destruct (curve_has_props _ _ Hc) as [p Hp]. rewrite Hp in H.
  destruct ready as [cap|]; [|discriminate].
  destruct (sign_loop o c (ap_sig_len p) cap [] tries) as [b0|e| |] eqn:L; try discriminate.
  destruct (ok_string f); [|discriminate]. assert (b0 = b) by congruence. subst b0.
  rewrite (sig_len_spec _ _ _ Hc Hp) in L. eapply sign_loop_ok in L; try eassumption.
  unfold suite_sig_len. rewrite Nlen_nil. destruct (alg =? 532); intros K; discriminate.
Qed.

Lemma sign_finish_overflow : forall o f alg c cap tries, suite_curve alg c ->
  (forall t b r s b', In t tries -> st_sig t = Some b -> ec_sig_d2i o b = Some (r, s) ->
     ec_sig_i2d o (r, (ec_order o c - s)%Z) = Some b' -> Nlen b' <= cap) ->
  sig_sign_finish o f alg (Ok cap) tries <> SignOverflow.
Proof.
  intros o f alg c cap tries Hc B. apply alg_curve_spec in Hc. unfold sig_sign_finish. rewrite Hc.
  destruct (curve_has_props _ _ Hc) as [p Hp]. rewrite Hp.
  pose proof (sign_loop_overflow o c (ap_sig_len p) cap tries [] B) as Q.
  destruct (sign_loop o c (ap_sig_len p) cap [] tries); try discriminate; try congruence. destruct (ok_string f); discriminate.
Qed.

Lemma sign_finish_more : forall o f alg c ready tries, suite_curve alg c ->
  sig_sign_finish o f alg ready tries = SignMore -> forall t, In t tries -> misses o c (suite_sig_len alg) t.
Proof.
  intros o f alg c ready tries Hc H. apply alg_curve_spec in Hc. unfold sig_sign_finish in H. rewrite Hc in H.
  destruct (curve_has_props _ _ Hc) as [p Hp]. rewrite Hp in H.
  destruct ready as [cap|]; [|discriminate]. rewrite (sig_len_spec _ _ _ Hc Hp) in H.
  destruct (sign_loop o c (suite_sig_len alg) cap [] tries) as [b|e| |] eqn:L; try discriminate.
  - destruct (ok_string f); discriminate.
  - apply sign_loop_more in L. exact (proj2 L).
Qed.
