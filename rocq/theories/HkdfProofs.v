(** The library's own HKDF agrees with RFC 5869. *)
From Verif Require Import Base AlgModel CryptoModel WireSpec SessionSpec LiveSpec HkdfModel HkdfSpec.
From Coq Require Import ZArith ZifyBool ZifyNat ZifyN Lia.
Import List.
Open Scope list_scope.
Open Scope N_scope.

Lemma skipn_twice {A} : forall a b (l : list A), skipn a (skipn b l) = skipn (b + a) l.
Proof. intros a b. induction b as [|b IH]; intros [|x l]; cbn; rewrite ?skipn_nil; auto. Qed.

Section Proofs.
Variable m : mac.
Variable sha : sha_version.
Hypothesis SHA : sha <> NOSHA.
Hypothesis LEN : forall k d, Nlen (mac_fn m sha k d) = md_size sha.
Notation h := (N.to_nat (md_size sha)).
Notation T prk info := (rfc_block (mac_fn m sha) prk info).
Notation cat prk info n := (concat (map (T prk info) (seq 1 n))).

Lemma h_pos : (0 < h)%nat.
Proof. destruct sha; [contradiction| | |]; cbn; lia. Qed.
Lemma md_pos : 0 < md_size sha /\ md_size sha <= 64.
Proof. destruct sha; [contradiction| | |]; cbn; lia. Qed.

Lemma block_len : forall prk info i, (0 < i)%nat -> length (T prk info i) = h.
Proof.
  intros prk info [|i] P; [lia|]. cbn [rfc_block]. pose proof (LEN prk (rfc_block (mac_fn m sha) prk info i ++ info ++ [N.of_nat (S i)])).
  unfold Nlen in *. lia.
Qed.

Lemma cat_len : forall prk info n, length (cat prk info n) = (n * h)%nat.
Proof.
  intros prk info n. induction n as [|n IH]; [reflexivity|].
  rewrite seq_S, map_app, concat_app, app_length, IH. cbn [map concat]. rewrite app_nil_r, block_len by lia. lia.
Qed.

Lemma cat_S : forall prk info n, cat prk info (S n) = cat prk info n ++ T prk info (S n).
Proof. intros. rewrite seq_S, map_app, concat_app. cbn [map concat]. now rewrite app_nil_r. Qed.

Lemma round_ok : forall c prk t info i t', (i < 255)%nat -> (0 < i -> t = T prk info i)%nat ->
  hkdf_round m c sha prk t info (N.of_nat (S i)) = Some t' -> t' = T prk info (S i).
Proof.
  intros c prk t info i t' I TE R. unfold hkdf_round, hm_init, hm_update, hm_final in R.
  destruct (mac_fails m c); [discriminate|].
  assert (B : N.of_nat (S i) mod 256 = N.of_nat (S i)) by (apply N.mod_small; lia).
  rewrite B in R. cbn [rfc_block].
  destruct i as [|i].
  - cbn [negb N.of_nat N.eqb Pos.eqb Pos.of_succ_nat fst snd] in R.
    destruct (mac_fails m (c + 2)); [discriminate|]. cbn [fst snd] in R.
    destruct (mac_fails m (c + 3)); [discriminate|]. cbn [fst snd] in R.
    destruct (mac_fails m (c + 4)); [discriminate|]. injection R as <-. reflexivity.
  - replace (N.of_nat (S (S i)) =? 1) with false in R by lia. cbn [negb] in R.
    destruct (mac_fails m (c + 1)); [discriminate|]. cbn [fst snd] in R.
    destruct (mac_fails m (c + 2)); [discriminate|]. cbn [fst snd] in R.
    destruct (mac_fails m (c + 3)); [discriminate|]. cbn [fst snd] in R.
    destruct (mac_fails m (c + 4)); [discriminate|]. injection R as <-.
    rewrite TE by lia. rewrite firstn_all2 by (rewrite block_len; lia). cbn [app]. now rewrite <- app_assoc.
Qed.

Lemma round_works : forall c prk t info i, (forall j, mac_fails m j = false) -> hkdf_round m c sha prk t info i <> None.
Proof.
  intros c prk t info i F. unfold hkdf_round, hm_init, hm_update, hm_final. rewrite !F. destruct (negb _); discriminate.
Qed.

(** What the loop has done after [i] rounds. *)
Lemma loop_ok : forall prk info L okm0 k i c t okm remaining, length okm0 = L ->
  (L <= (i + k) * h < L + h)%nat -> (i + k <= 255)%nat -> (0 < i -> t = T prk info i)%nat ->
  okm = firstn (Nat.min L (i * h)) (cat prk info i) ++ skipn (Nat.min L (i * h)) okm0 ->
  remaining = N.of_nat (L - Nat.min L (i * h)) ->
  (exists e, hkdf_loop m sha prk info k (N.of_nat (S i)) c t okm remaining = HRet (Err e) (zeros (N.of_nat L)) /\
     exists j, mac_fails m j = true) \/
  hkdf_loop m sha prk info k (N.of_nat (S i)) c t okm remaining = HRet (Ok tt) (firstn L (cat prk info (i + k))).
Proof.
  intros prk info L okm0 k. pose proof h_pos as HP.
  induction k as [|k IH]; intros i c t okm remaining LO LI IK TE OK RE.
  - right. cbn [hkdf_loop]. rewrite Nat.add_0_r in LI |- *. rewrite Nat.min_l in * by lia.
    rewrite RE, Nat.sub_diag. cbn [N.of_nat N.eqb]. rewrite OK, skipn_all2 by lia. now rewrite app_nil_r.
  - assert (SP : ((i + S k) * h = i * h + k * h + h)%nat) by (rewrite Nat.mul_add_distr_r; cbn [Nat.mul]; lia).
    assert (LE : (i * h < L)%nat) by (pose proof (Nat.le_0_l (k * h)); lia). rewrite Nat.min_r in OK, RE by lia.
    assert (LC : length okm = L).
    { rewrite OK, app_length, firstn_length, skipn_length, cat_len. lia. }
    cbn [hkdf_loop].
    destruct (hkdf_round m c sha prk t info (N.of_nat (S i))) as [t'|] eqn:R.
    + pose proof (round_ok c prk t info i t' ltac:(lia) TE R) as TE'.
      assert (LT : length t' = h) by (rewrite TE'; apply block_len; lia).
      replace (Nlen t' =? md_size sha) with true by (unfold Nlen; lia). cbn [negb].
      set (w := if remaining <? md_size sha then remaining else md_size sha).
      assert (W : N.to_nat w = Nat.min (L - i * h) h) by (unfold w; destruct (remaining <? md_size sha) eqn:X; lia).
      assert (O : (N.of_nat (S i) - 1) * md_size sha = N.of_nat (i * h)) by lia.
      rewrite O. unfold blit.
      assert (LF : length (firstn (N.to_nat w) t') = Nat.min (L - i * h) h) by (rewrite firstn_length; lia).
      unfold Nlen. rewrite LF, LC.
      match goal with |- context [if ?b then _ else _] => replace b with false by lia end.
      replace (N.of_nat (S i) + 1) with (N.of_nat (S (S i))) by lia.
      match goal with |- context [hkdf_loop m sha prk info k _ _ _ ?b ?r] => set (okm' := b); set (rem' := r) end.
      replace (i + S k)%nat with (S i + k)%nat in LI, IK |- * by lia.
      apply (IH (S i) (c + 5)%nat t' okm' rem' LO LI IK).
      * intros _. exact TE'.
      * unfold okm'. rewrite !Nat2N.id. rewrite OK.
        rewrite firstn_all2 with (l := cat prk info i) by (rewrite cat_len; lia).
        rewrite firstn_app, cat_len, Nat.sub_diag, firstn_O, app_nil_r.
        rewrite firstn_all2 with (l := cat prk info i) by (rewrite cat_len; lia).
        rewrite skipn_app, cat_len, skipn_all2 by (rewrite cat_len; lia). cbn [app].
        rewrite skipn_twice.
        rewrite cat_S, firstn_app, cat_len.
        rewrite firstn_all2 with (l := cat prk info i) by (rewrite cat_len; nia).
        rewrite <- !app_assoc. f_equal. rewrite TE'. f_equal; [f_equal; nia|f_equal; nia].
      * unfold rem'. nia.
    + left. exists E_CRYPTO_UNKNOWN. split; [unfold Nlen; now rewrite LC|].
      destruct (mac_fails m c) eqn:F0; [now exists c|]. destruct (mac_fails m (c+1)) eqn:F1; [now exists (c+1)%nat|].
      destruct (mac_fails m (c+2)) eqn:F2; [now exists (c+2)%nat|]. destruct (mac_fails m (c+3)) eqn:F3; [now exists (c+3)%nat|].
      destruct (mac_fails m (c+4)) eqn:F4; [now exists (c+4)%nat|].
      unfold hkdf_round, hm_init, hm_update, hm_final in R. rewrite F0, F1, F2, F3, F4 in R. destruct (negb _) in R; discriminate.
Qed.

Lemma extract_cases : forall salt ikm, hkdf_extract m sha salt ikm = Ok (rfc_extract (mac_fn m sha) h salt ikm) \/
  (mac_fails m 0 = true /\ hkdf_extract m sha salt ikm = Err E_CRYPTO_UNKNOWN).
Proof.
  intros salt ikm. assert (X : hkdf_extract m sha salt ikm =
    (if mac_fails m 0 || (Nlen (rfc_extract (mac_fn m sha) h salt ikm) =? 0) then Err E_CRYPTO_UNKNOWN
     else Ok (rfc_extract (mac_fn m sha) h salt ikm))).
  { unfold hkdf_extract, rfc_extract, zeros. destruct sha; [contradiction|reflexivity|reflexivity|reflexivity]. }
  rewrite X. unfold rfc_extract at 1. rewrite LEN. pose proof md_pos.
  replace (md_size sha =? 0) with false by lia. rewrite orb_false_r.
  destruct (mac_fails m 0) eqn:F; [right; split; reflexivity|left; reflexivity].
Qed.

Lemma hkdf_cases : forall salt ikm info okm0, Nlen okm0 + 64 <= two64 ->
  (exists e, own_hkdf m sha salt ikm info okm0 = HRet (Err e) okm0 /\ exists j, mac_fails m j = true) \/
  (exists e, own_hkdf m sha salt ikm info okm0 = HRet (Err e) (zeros (Nlen okm0)) /\
     (~ (0 < Nlen okm0 <= 255 * md_size sha) \/ exists j, mac_fails m j = true)) \/
  (exists okm, own_hkdf m sha salt ikm info okm0 = HRet (Ok tt) okm /\ (0 < Nlen okm0 <= 255 * md_size sha) /\
     rfc_hkdf (mac_fn m sha) h salt ikm info (length okm0) okm).
Proof.
  intros salt ikm info okm0 S. pose proof md_pos as [M1 M2]. unfold own_hkdf.
  destruct (extract_cases salt ikm) as [->|[F ->]]; [right|left; exists E_CRYPTO_UNKNOWN; split; [reflexivity|now exists 0%nat]].
  unfold rfc_hkdf. set (prk := rfc_extract (mac_fn m sha) h salt ikm).
  assert (PL : Nlen prk = md_size sha) by (unfold prk, rfc_extract; apply LEN).
  assert (X : hkdf_expand m sha prk info okm0 =
    (if (Nlen okm0 =? 0) || (Nlen prk =? 0) then HRet (Err E_CRYPTO_UNKNOWN) (zeros (Nlen okm0))
     else let n := sub64 (add64 (Nlen okm0) (md_size sha)) 1 / md_size sha in
        if 255 <? n then HRet (Err E_CRYPTO_UNKNOWN) (zeros (Nlen okm0))
        else hkdf_loop m sha prk info (N.to_nat n) 1 1 [] okm0 (Nlen okm0))).
  { unfold hkdf_expand. destruct sha; [contradiction|reflexivity|reflexivity|reflexivity]. }
  rewrite X. clear X. rewrite PL. replace (md_size sha =? 0) with false by lia. rewrite orb_false_r.
  destruct (Nlen okm0 =? 0) eqn:Z.
  { left. exists E_CRYPTO_UNKNOWN. split; [reflexivity|]. left. lia. }
  cbv zeta.
  assert (A : sub64 (add64 (Nlen okm0) (md_size sha)) 1 = Nlen okm0 + md_size sha - 1).
  { destruct (N.eq_dec (Nlen okm0 + md_size sha) two64) as [E|E].
    - assert (E1 : add64 (Nlen okm0) (md_size sha) = 0) by (unfold add64; rewrite E; apply N.mod_same; discriminate).
      rewrite E1, E. reflexivity.
    - assert (E1 : add64 (Nlen okm0) (md_size sha) = Nlen okm0 + md_size sha) by (unfold add64; apply N.mod_small; lia).
      rewrite E1. unfold sub64.
      replace (Nlen okm0 + md_size sha + two64 - 1) with ((Nlen okm0 + md_size sha - 1) + 1 * two64) by lia.
      rewrite N.mod_add by discriminate. apply N.mod_small. lia. }
  rewrite A. set (n := (Nlen okm0 + md_size sha - 1) / md_size sha).
  assert (D : Nlen okm0 <= n * md_size sha < Nlen okm0 + md_size sha).
  { pose proof (N.div_mod (Nlen okm0 + md_size sha - 1) (md_size sha) ltac:(lia)) as DM. fold n in DM.
    pose proof (N.mod_lt (Nlen okm0 + md_size sha - 1) (md_size sha) ltac:(lia)). nia. }
  destruct (255 <? n) eqn:C.
  { left. exists E_CRYPTO_UNKNOWN. split; [reflexivity|]. left. nia. }
  pose proof (loop_ok prk info (length okm0) okm0 (N.to_nat n) 0 1 [] okm0 (Nlen okm0) eq_refl) as LP.
  cbn [Nat.add Nat.mul] in LP. rewrite Nat.min_0_r in LP.
  destruct LP as [(e & E & J)|E]; [unfold Nlen in *; nia|unfold Nlen in *; nia|lia|reflexivity|unfold Nlen; lia| |].
  - left. exists e. split; [|now right]. change (N.of_nat 1) with 1 in E. rewrite E. unfold Nlen. reflexivity.
  - right. exists (firstn (length okm0) (cat prk info (N.to_nat n))). change (N.of_nat 1) with 1 in E. split; [exact E|].
    split; [nia|]. exists (N.to_nat n). split; [unfold Nlen in *; nia|]. split; [lia|reflexivity].
Qed.

End Proofs.

Lemma sane_len : forall m sha, hmac_sane (mac_fn m) -> sha <> NOSHA -> forall k d, Nlen (mac_fn m sha k d) = md_size sha.
Proof. intros m sha S N k d. unfold Nlen. rewrite (S sha k d N). destruct sha; reflexivity. Qed.

Lemma digest_md : forall sha, digest_len sha = N.to_nat (md_size sha).
Proof. intros []; reflexivity. Qed.

Lemma rfc_lemma : forall m sha salt ikm info okm0 okm, hmac_sane (mac_fn m) -> sha <> NOSHA -> Nlen okm0 + 64 <= two64 ->
  own_hkdf m sha salt ikm info okm0 = HRet (Ok tt) okm ->
  rfc_hkdf (mac_fn m sha) (digest_len sha) salt ikm info (length okm0) okm.
Proof.
  intros m sha salt ikm info okm0 okm S N B E. rewrite digest_md.
  destruct (hkdf_cases m sha N (sane_len m sha S N) salt ikm info okm0 B) as [(e & X & _)|[(e & X & _)|(o & X & _ & R)]]; rewrite X in E; try discriminate.
  injection E as <-. exact R.
Qed.

Lemma outcome_lemma : forall m sha salt ikm info okm0, hmac_sane (mac_fn m) -> sha <> NOSHA -> Nlen okm0 + 64 <= two64 ->
  exists rc okm, own_hkdf m sha salt ikm info okm0 = HRet rc okm /\ length okm = length okm0 /\
    (rc = Ok tt \/ (exists e, rc = Err e) /\ (okm = okm0 \/ okm = zeros (Nlen okm0))).
Proof.
  intros m sha salt ikm info okm0 S N B.
  destruct (hkdf_cases m sha N (sane_len m sha S N) salt ikm info okm0 B) as [(e & X & _)|[(e & X & _)|(o & X & _ & R)]]; rewrite X.
  - exists (Err e), okm0. repeat split; eauto.
  - exists (Err e), (zeros (Nlen okm0)). split; [reflexivity|]. split; [unfold zeros, Nlen; rewrite repeat_length; lia|eauto].
  - exists (Ok tt), o. split; [reflexivity|]. split; [|now left]. destruct R as (n & L & _ & ->). rewrite firstn_length, cat_len; auto.
    + lia.
    + now apply sane_len.
Qed.

Lemma succeeds_lemma : forall m sha salt ikm info okm0, hmac_sane (mac_fn m) -> (forall i, mac_fails m i = false) ->
  sha <> NOSHA -> Nlen okm0 + 64 <= two64 ->
  ((exists okm, own_hkdf m sha salt ikm info okm0 = HRet (Ok tt) okm) <-> (0 < length okm0 <= 255 * digest_len sha)%nat).
Proof.
  intros m sha salt ikm info okm0 S F N B. rewrite digest_md.
  destruct (hkdf_cases m sha N (sane_len m sha S N) salt ikm info okm0 B) as [(e & X & j & J)|[(e & X & [R|(j & J)])|(o & X & R & _)]].
  - rewrite F in J. discriminate.
  - split; [intros (okm & E); rewrite X in E; discriminate|]. intros L. exfalso. apply R. unfold Nlen. lia.
  - rewrite F in J. discriminate.
  - split; [intros _; unfold Nlen in R; lia|]. intros _. eauto.
Qed.

(** ** Message keys *)

Lemma rfc_okm_unique : forall hm hl prk info L a b, (0 < hl)%nat -> rfc_okm hm hl prk info L a -> rfc_okm hm hl prk info L b -> a = b.
Proof.
  intros hm hl prk info L a b P (n & N1 & _ & ->) (k & K1 & _ & ->). assert (n = k) by nia. now subst.
Qed.

Lemma own_iff : forall cr m sha salt ikm info n k, hmac_sane (mac_fn m) -> (forall i, mac_fails m i = false) -> sha <> NOSHA -> 16 <= n <= 32 ->
  (cr_hkdf (with_own_hkdf cr m) sha salt ikm info n = Some k <-> rfc_hkdf (mac_fn m sha) (digest_len sha) salt ikm info (N.to_nat n) k).
Proof.
  intros cr m sha salt ikm info n k S F N L. cbn [with_own_hkdf cr_hkdf].
  assert (ZL : length (zeros n) = N.to_nat n) by (unfold zeros; apply repeat_length).
  assert (B : Nlen (zeros n) + 64 <= two64) by (unfold Nlen; rewrite ZL; change two64 with 18446744073709551616; lia).
  destruct (succeeds_lemma m sha salt ikm info (zeros n) S F N B) as [_ X].
  destruct X as (okm & E); [rewrite ZL, digest_md; destruct sha; [contradiction| | |]; cbn; lia|].
  pose proof (rfc_lemma m sha salt ikm info (zeros n) okm S N B E) as R. rewrite ZL in R. rewrite E. split.
  - intros X. injection X as <-. exact R.
  - intros X. f_equal. refine (rfc_okm_unique _ _ _ _ _ _ _ _ R X). destruct sha; [contradiction| | |]; cbn; lia.
Qed.

Lemma key_len_range : forall alg, 16 <= suite_key_len alg <= 32.
Proof. intros alg. unfold suite_key_len. destruct (_ =? _); [lia|destruct (_ =? _); lia]. Qed.

Lemma content_lemma : forall cr m alg mid dk k, hmac_sane (mac_fn m) -> (forall i, mac_fails m i = false) ->
  (content_key (with_own_hkdf cr m) alg mid dk k <-> rfc_key (mac_fn m) alg mid dk P_CONTENT k).
Proof.
  intros cr m alg mid dk k S F. pose proof (key_len_range alg) as KL. split; intros K.
  - destruct K as [I|k I E|k I E|k I E].
    + now apply rk_plain.
    + apply rk_sha256; [exact I|]. apply (own_iff cr m) in E; try easy.
    + apply rk_sha384; [exact I|]. apply (own_iff cr m) in E; try easy.
    + apply rk_sha512; [exact I|]. apply (own_iff cr m) in E; try easy.
  - inversion K as [I|k' I E|k' I E|k' I E|]; subst.
    + now apply ck_plain.
    + apply ck_sha256; [exact I|]. apply (own_iff cr m); try easy.
    + apply ck_sha384; [exact I|]. apply (own_iff cr m); try easy.
    + apply ck_commit; [exact I|]. apply (own_iff cr m); try easy.
Qed.

Lemma commit_lemma : forall cr m alg mid dk k, hmac_sane (mac_fn m) -> (forall i, mac_fails m i = false) -> In alg v2_suites ->
  (key_commitment (with_own_hkdf cr m) mid dk k <-> rfc_key (mac_fn m) alg mid dk P_COMMIT k).
Proof.
  intros cr m alg mid dk k S F V. split; intros K.
  - apply rk_commitment; [exact V|]. unfold key_commitment in K. apply (own_iff cr m) in K; easy.
  - inversion K; subst. unfold key_commitment. apply (own_iff cr m); easy.
Qed.

(** ** The assumptions other theorems make about key derivation *)

Lemma blit_len : forall buf off src buf', blit buf off src = Some buf' -> length buf' = length buf.
Proof.
  unfold blit. intros buf off src buf' E. destruct (Nlen buf <? off + Nlen src) eqn:L; [discriminate|].
  injection E as <-. rewrite !app_length, firstn_length, skipn_length. unfold Nlen in *. lia.
Qed.
Lemma loop_len : forall m sha prk info k idx c t okm rem okm', hkdf_loop m sha prk info k idx c t okm rem = HRet (Ok tt) okm' -> length okm' = length okm.
Proof.
  intros m sha prk info k. induction k as [|k IH]; intros idx c t okm rem okm' E; cbn [hkdf_loop] in E.
  - destruct (rem =? 0); [|discriminate]. now injection E as ->.
  - destruct (hkdf_round _ _ _ _ _ _ _) as [t'|]; [|discriminate]. destruct (negb _); [discriminate|].
    destruct (blit _ _ _) as [b|] eqn:B; [|discriminate]. apply IH in E. apply blit_len in B. congruence.
Qed.
Lemma own_len : forall m sha salt ikm info okm okm', own_hkdf m sha salt ikm info okm = HRet (Ok tt) okm' -> length okm' = length okm.
Proof.
  intros m sha salt ikm info okm okm' E. unfold own_hkdf in E. destruct (hkdf_extract m sha salt ikm); [|discriminate].
  unfold hkdf_expand in E. destruct sha; [discriminate| | |];
    (destruct (_ || _)%bool; [discriminate|]; cbv zeta in E; destruct (255 <? _); [discriminate|]; exact (loop_len _ _ _ _ _ _ _ _ _ _ _ E)).
Qed.

Lemma with_own_sizes : forall cr m, crypto_sizes cr -> crypto_sizes (with_own_hkdf cr m).
Proof.
  intros cr m (A & B & _). split; [exact A|]. split; [exact B|]. intros h s i f n k E. cbn [with_own_hkdf cr_hkdf] in E.
  destruct (own_hkdf m h s i f (zeros n)) as [[[]|e] okm| |] eqn:O; try discriminate. injection E as <-.
  apply own_len in O. unfold Nlen. rewrite O. unfold zeros. rewrite repeat_length. lia.
Qed.

Lemma with_own_works : forall cr m, hmac_sane (mac_fn m) -> (forall i, mac_fails m i = false) -> crypto_works cr -> crypto_works (with_own_hkdf cr m).
Proof.
  intros cr m S F [A _ C]. constructor; [exact A| |exact C]. intros h s i f n H L.
  assert (ZL : length (zeros n) = N.to_nat n) by (unfold zeros; apply repeat_length).
  destruct (proj2 (succeeds_lemma m h s i f (zeros n) S F H ltac:(unfold Nlen; rewrite ZL; change two64 with 18446744073709551616; lia))) as (okm & E).
  { rewrite ZL, digest_md. destruct h; [contradiction| | |]; cbn; lia. }
  cbn [with_own_hkdf cr_hkdf]. rewrite E. discriminate.
Qed.
