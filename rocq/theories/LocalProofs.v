(** Proofs of C83. *)
From Verif Require Import Base AlgModel EncCtxModel HdrModel FrameModel CryptoModel SessionModel HkdfModel HkdfSpec SigModel
  LocalModel LocalSpec.
From Coq Require Import ZArith ZifyBool ZifyNat ZifyN String Lia.
Import List.
Open Scope list_scope.
Open Scope N_scope.

Lemma secure_all : forall a n, length a = N.to_nat n -> secure_zero a n = repeat 0 (N.to_nat n).
Proof.
  intros a n L. unfold secure_zero, zeros. rewrite skipn_all2 by lia. apply app_nil_r.
Qed.

Lemma put_len : forall a d, (length d <= length a)%nat -> length (put a d) = length a.
Proof. intros a d L. unfold put. rewrite app_length, skipn_length. lia. Qed.

Lemma put_first : forall a d, firstn (length d) (put a d) = d.
Proof.
  intros a d. unfold put. rewrite firstn_app, firstn_all, Nat.sub_diag, firstn_O. apply app_nil_r.
Qed.

Lemma put_firstN : forall a d, firstn (N.to_nat (Nlen d)) (put a d) = d.
Proof. intros a d. replace (N.to_nat (Nlen d)) with (length d) by (unfold Nlen; lia). apply put_first. Qed.

Lemma put_less : forall a d k, (k <= length d)%nat -> firstn k (put a d) = firstn k d.
Proof.
  intros a d k L. unfold put. rewrite firstn_app. replace (k - length d)%nat with 0%nat by lia. rewrite firstn_O. apply app_nil_r.
Qed.

Lemma md_digest : forall sha, N.to_nat (md_size sha) = digest_len sha.
Proof. destruct sha; reflexivity. Qed.
Lemma digest_64 : forall sha, (digest_len sha <= 64)%nat.
Proof. destruct sha; cbn; lia. Qed.

(** ** HKDF *)

Lemma round_same : forall m c sha prk t t' info idx,
  (idx <> 1 -> firstn (N.to_nat (md_size sha)) t = firstn (N.to_nat (md_size sha)) t') ->
  hkdf_round m c sha prk t info idx = hkdf_round m c sha prk t' info idx.
Proof.
  intros m c sha prk t t' info idx H. unfold hkdf_round.
  destruct (idx =? 1) eqn:E; cbn [negb]; [reflexivity|].
  rewrite H by lia. reflexivity.
Qed.

Lemma round_len : forall m c sha prk t info idx d, hmac_sane (mac_fn m) -> sha <> NOSHA ->
  hkdf_round m c sha prk t info idx = Some d -> length d = digest_len sha.
Proof.
  intros m c sha prk t info idx d H S E. unfold hkdf_round in E.
  destruct (hm_init m c prk) as [x0|]; [|discriminate].
  destruct (if negb (idx =? 1) then _ else _) as [x1|]; [|discriminate].
  destruct (hm_update m (c + 2) x1 info) as [x2|]; [|discriminate].
  destruct (hm_update m (c + 3) x2 _) as [x3|]; [|discriminate].
  unfold hm_final in E. destruct (mac_fails m (c + 4)); [discriminate|]. injection E as <-. apply H; exact S.
Qed.

Lemma loop_both : forall m junk sha prk info, hmac_sane (mac_fn m) -> sha <> NOSHA -> (forall c a, length (junk c a) = length a) ->
  forall k idx c t t' okm rem, length t = 64%nat -> 1 <= idx ->
  (idx <> 1 -> firstn (N.to_nat (md_size sha)) t = firstn (N.to_nat (md_size sha)) t') ->
  fst (loop_mem m junk sha prk info k idx c t okm rem) = hkdf_loop m sha prk info k idx c t' okm rem /\
  (forall rc okm', fst (loop_mem m junk sha prk info k idx c t okm rem) = HRet rc okm' ->
     snd (loop_mem m junk sha prk info k idx c t okm rem) = [wiped "t" 64]).
Proof.
  intros m junk sha prk info H S J. induction k as [|k IH]; intros idx c t t' okm rem L I F; cbn [loop_mem hkdf_loop].
  - destruct (rem =? 0); split; try reflexivity.
    + intros rc okm' _. cbn [snd]. rewrite secure_all by exact L. reflexivity.
    + intros rc okm' E. discriminate.
  - rewrite (round_same m c sha prk t t' info idx F).
    destruct (hkdf_round m c sha prk t' info idx) as [d|] eqn:R.
    + cbv zeta. pose proof (round_len _ _ _ _ _ _ _ _ H S R) as D. pose proof (md_digest sha) as MD. pose proof (digest_64 sha) as B.
      destruct (negb (Nlen d =? md_size sha)); [split; [reflexivity|intros rc okm' E; discriminate]|].
      rewrite put_less by (destruct (rem <? md_size sha) eqn:W; lia).
      destruct (blit okm _ _) as [okm'|]; [|split; [reflexivity|intros rc okm' E; discriminate]].
      apply IH; [rewrite put_len; lia|lia|].
      intros _. rewrite put_less by lia. reflexivity.
    + split; [reflexivity|]. intros rc okm' _. cbn [snd]. rewrite secure_all by (rewrite J; exact L). reflexivity.
Qed.

Lemma hkdf_both : forall m junk sha salt ikm info okm prk t, hmac_sane (mac_fn m) -> (forall c a, length (junk c a) = length a) ->
  length prk = 64%nat -> length t = 64%nat ->
  fst (hkdf_mem m junk sha salt ikm info okm prk t) = own_hkdf m sha salt ikm info okm /\
  forall rc okm', fst (hkdf_mem m junk sha salt ikm info okm prk t) = HRet rc okm' ->
    snd (hkdf_mem m junk sha salt ikm info okm prk t) = [wiped "prk" 64] \/
    snd (hkdf_mem m junk sha salt ikm info okm prk t) = [wiped "t" 64; wiped "prk" 64].
Proof.
  intros m junk sha salt ikm info okm prk t H J P T.
  destruct (match sha with NOSHA => true | _ => false end) eqn:NS.
  { destruct sha; try discriminate. split; [reflexivity|]. intros rc okm' _. left. unfold hkdf_mem, extract_mem. cbn [snd].
    rewrite secure_all by exact P. reflexivity. }
  assert (S : sha <> NOSHA) by (destruct sha; discriminate).
  assert (EX : extract_mem m junk sha salt ikm prk =
    let mysalt := match salt with [] => zeros (md_size sha) | _ => salt end in
    let d := mac_fn m sha mysalt ikm in
    if mac_fails m 0 then (Err E_CRYPTO_UNKNOWN, secure_zero (junk 0%nat prk) EVP_MAX_MD_SIZE)
    else if Nlen d =? 0 then (Err E_CRYPTO_UNKNOWN, secure_zero (put prk d) EVP_MAX_MD_SIZE)
    else (Ok (Nlen d), put prk d)) by (destruct sha; [congruence|reflexivity..]).
  assert (EO : hkdf_extract m sha salt ikm =
    let mysalt := match salt with [] => zeros (md_size sha) | _ => salt end in
    let prk := mac_fn m sha mysalt ikm in
    if mac_fails m 0 || (Nlen prk =? 0) then Err E_CRYPTO_UNKNOWN else Ok prk) by (destruct sha; [congruence|reflexivity..]).
  unfold hkdf_mem, own_hkdf. rewrite EX, EO. cbv zeta. clear EX EO.
  set (mysalt := match salt with [] => _ | _ => _ end).
  pose proof (H sha mysalt ikm S) as D. pose proof (digest_64 sha) as B.
  set (d := mac_fn m sha mysalt ikm) in *.
  destruct (mac_fails m 0); cbn [orb].
  { split; [reflexivity|]. intros rc okm' _. left. cbn [snd].
    rewrite (secure_all (junk 0%nat prk)) by (rewrite J; exact P). rewrite secure_all by apply repeat_length. reflexivity. }
  destruct (Nlen d =? 0) eqn:Z.
  { split; [reflexivity|]. intros rc okm' _. left. cbn [snd].
    rewrite (secure_all (put prk d)) by (rewrite put_len; [exact P|lia]). rewrite secure_all by apply repeat_length. reflexivity. }
  rewrite put_firstN.
  assert (EM : expand_mem m junk sha d info okm t =
      let err := (HRet (Err E_CRYPTO_UNKNOWN) (zeros (Nlen okm)), [("t"%string, secure_zero t EVP_MAX_MD_SIZE)]) in
      if (Nlen okm =? 0) || (Nlen d =? 0) then err
      else
        let n := sub64 (add64 (Nlen okm) (md_size sha)) 1 / md_size sha in
        if 255 <? n then err
        else loop_mem m junk sha d info (N.to_nat n) 1 1 t okm (Nlen okm)) by (destruct sha; [congruence|reflexivity..]).
  assert (EE : hkdf_expand m sha d info okm =
      if (Nlen okm =? 0) || (Nlen d =? 0) then HRet (Err E_CRYPTO_UNKNOWN) (zeros (Nlen okm))
      else
        let n := sub64 (add64 (Nlen okm) (md_size sha)) 1 / md_size sha in
        if 255 <? n then HRet (Err E_CRYPTO_UNKNOWN) (zeros (Nlen okm))
        else hkdf_loop m sha d info (N.to_nat n) 1 1 [] okm (Nlen okm)) by (destruct sha; [congruence|reflexivity..]).
  assert (X : fst (expand_mem m junk sha d info okm t) = hkdf_expand m sha d info okm /\
     forall rc okm', fst (expand_mem m junk sha d info okm t) = HRet rc okm' -> snd (expand_mem m junk sha d info okm t) = [wiped "t" 64]).
  { rewrite EM, EE. cbv zeta. clear EM EE. set (n := _ / md_size sha).
    destruct ((Nlen okm =? 0) || (Nlen d =? 0)).
    { split; [reflexivity|]. intros rc okm' _. cbn [snd]. rewrite secure_all by exact T. reflexivity. }
    destruct (255 <? n).
    { split; [reflexivity|]. intros rc okm' _. cbn [snd]. rewrite secure_all by exact T. reflexivity. }
    apply loop_both; auto; [lia|]. intros F. congruence. }
  destruct X as [X1 X2]. destruct (expand_mem m junk sha d info okm t) as [r l] eqn:E. cbn [fst snd] in X1, X2. subst r.
  destruct (hkdf_expand m sha d info okm) as [rc okm'| |] eqn:HE; cbn [fst snd]; (split; [reflexivity|]); intros rc1 okm1 E1; [|discriminate..].
  right. rewrite (X2 _ _ eq_refl). rewrite secure_all by (rewrite put_len; [exact P|lia]). reflexivity.
Qed.

(** ** Sessions *)

Lemma dk_32 : forall a p, alg_lookup a = Some p -> ap_data_key_len p <= 32.
Proof.
  intros a p. unfold alg_lookup.
  repeat (match goal with |- (if ?b then _ else _) = _ -> _ => destruct b end; [intros E; injection E as <-; vm_compute; discriminate|]).
  discriminate.
Qed.

Lemma exit_both : forall d r, length d = 32%nat ->
  fst (gen_exit d r) = r /\ (sr_rc r <> RAssert -> sr_rc r <> RAbort -> snd (gen_exit d r) = [wiped "data_key" 32]).
Proof.
  intros d r L. unfold gen_exit.
  destruct (sr_rc r); cbn [fst snd]; (split; [reflexivity|]); intros A B; try congruence; rewrite secure_all by exact L; reflexivity.
Qed.

Lemma gen_both : forall cr e s input d, length d = 32%nat ->
  fst (gen_key_mem cr e s input d) = try_gen_key cr e s input /\
  (sr_rc (try_gen_key cr e s input) <> RAssert -> sr_rc (try_gen_key cr e s input) <> RAbort ->
   snd (gen_key_mem cr e s input d) = [wiped "data_key" 32]).
Proof.
  intros cr e s input d L. unfold gen_key_mem, try_gen_key.
  destruct (e_gen e _) as [ctx' [m|x]]; [|apply exit_both; exact L].
  cbv zeta. destruct (alg_lookup (em_alg m)) as [p|] eqn:A; [|apply exit_both; exact L].
  pose proof (dk_32 _ _ A) as K.
  destruct (negb (Nlen (em_key m) =? ap_data_key_len p)) eqn:KL; [apply exit_both; exact L|].
  assert (KE : ap_data_key_len p = Nlen (em_key m)) by lia. rewrite KE, put_firstN.
  assert (L' : length (put d (em_key m)) = 32%nat) by (rewrite put_len; [exact L|unfold Nlen in *; lia]).
  destruct (Nlen (em_edks m) =? 0); [apply exit_both; exact L|].
  match goal with |- context [if ?b then gen_exit d (mk_step _ _ _ (RFail E_LIMIT_EXCEEDED) _) else _] => destruct b end;
    [apply exit_both; exact L|].
  destruct (negb (Bool.eqb _ _)); [apply exit_both; exact L|].
  match goal with |- context [if ?b then gen_exit d (mk_step _ _ _ RAssert _) else _] => destruct b end; [apply exit_both; exact L|].
  destruct (negb (allowed_for_encrypt _ _)); [apply exit_both; exact L|].
  destruct (e_rand e _) as [mid|]; [|apply exit_both; exact L'].
  match goal with |- context [kd_rc ?k] => set (kk := k) end.
  destruct (kd_rc kk) as [|x|x]; try (apply exit_both; exact L').
  match goal with |- context [build_header ?s ?p ?m] => destruct (build_header s p m) as [[s1|x]|] end; apply exit_both; exact L'.
Qed.

Lemma derive_both : forall cr e s p m,
  fst (derive_data_key_mem cr e s p m) = derive_data_key cr e s p m.
Proof.
  intros cr e s p m. unfold derive_data_key_mem, derive_data_key. cbv zeta.
  destruct (negb (Nlen (dm_key m) =? ap_data_key_len p)) eqn:KL; [reflexivity|].
  assert (KE : N.to_nat (ap_data_key_len p) = N.to_nat (Nlen (dm_key m))) by lia. rewrite KE, put_firstN.
  destruct (e_debug e && _); [reflexivity|]. destruct (negb (allowed_for_decrypt _ _)); [reflexivity|].
  match goal with |- context [kd_rc ?k] => set (kk := k) end.
  destruct (kd_rc kk); try reflexivity.
  match goal with |- context [commitment_eq ?a ?b] => destruct (commitment_eq a b) end; reflexivity.
Qed.

Lemma derive_leaves : forall cr e s p m s', derive_data_key cr e s p m = (s', RGo) -> ap_data_key_len p <= 32 ->
  snd (derive_data_key_mem cr e s p m) = [("data_key"%string, dm_key m ++ repeat 0 (32 - length (dm_key m)))].
Proof.
  intros cr e s p m s' E B. unfold derive_data_key in E. unfold derive_data_key_mem. cbv zeta in E |- *.
  destruct (negb (Nlen (dm_key m) =? ap_data_key_len p)) eqn:KL; [discriminate|].
  assert (KE : N.to_nat (ap_data_key_len p) = N.to_nat (Nlen (dm_key m))) by lia. rewrite KE, put_firstN.
  destruct (e_debug e && _); [discriminate|]. destruct (negb (allowed_for_decrypt _ _)); [discriminate|].
  revert E. match goal with |- context [kd_rc ?k] => set (kk := k) end. intros E.
  assert (P : put (zeros MAX_DATA_KEY_SIZE) (dm_key m) = dm_key m ++ repeat 0 (32 - length (dm_key m))).
  { unfold put. f_equal. unfold zeros. change (N.to_nat MAX_DATA_KEY_SIZE) with 32%nat.
    assert (Q : (length (dm_key m) <= 32)%nat) by (unfold Nlen in *; lia). revert Q. generalize (length (dm_key m)). intros n Q.
    replace 32%nat with (n + (32 - n))%nat at 1 by lia. rewrite repeat_app, skipn_app, repeat_length, Nat.sub_diag.
    rewrite skipn_all2 by (rewrite repeat_length; lia). reflexivity. }
  rewrite P. destruct (kd_rc kk); try discriminate.
  match type of E with context [commitment_eq ?a ?b] => destruct (commitment_eq a b) end; [reflexivity|discriminate].
Qed.

(** ** Private keys *)

Lemma nothing_wiped : forall l, (forall x, In x l -> exists n k, x = wiped n k) -> nothing_left l.
Proof.
  intros l H name a b I B. destruct (H _ I) as (n & k & E). injection E as -> ->. eapply repeat_spec. exact B.
Qed.

Lemma free_wiped : forall name b x, In x (free_buf name b (buf_len b)) -> exists k, x = wiped name k.
Proof.
  intros name [b|] x I; [|destruct I]. destruct I as [<-|[]]. exists (length b). unfold wiped. cbn [buf_len].
  rewrite secure_all by (unfold Nlen; lia). f_equal. f_equal. unfold Nlen. lia.
Qed.

Lemma exit_wiped : forall r w priv pub, (length w <= 130)%nat -> fst (privkey_exit r w priv pub) = r /\
  nothing_left (snd (privkey_exit r w priv pub)) /\ In (wiped "tmparr" 130) (snd (privkey_exit r w priv pub)) /\
  (forall b, priv = Some b -> In (wiped "privkey_buf" (length b)) (snd (privkey_exit r w priv pub))).
Proof.
  intros r w priv pub L. unfold privkey_exit. cbn [fst snd].
  assert (T : secure_zero (put (zeros PRIVKEY_BUF_SIZE) w) PRIVKEY_BUF_SIZE = repeat 0 130).
  { apply (secure_all _ PRIVKEY_BUF_SIZE). rewrite put_len; unfold zeros; rewrite repeat_length; [reflexivity|]. exact L. }
  rewrite T. split; [reflexivity|]. split; [|split].
  - apply nothing_wiped. intros x [<-|I]; [exists "tmparr"%string, 130%nat; reflexivity|].
    apply in_app_iff in I. destruct I as [I|I]; destruct (free_wiped _ _ _ I) as [k ->]; eauto.
  - left. reflexivity.
  - intros b ->. right. apply in_app_iff. left. left. cbn [buf_len]. unfold wiped. f_equal.
    rewrite secure_all by (unfold Nlen; lia). f_equal. unfold Nlen. lia.
Qed.

Lemma privkey_both : forall o f x,
  fst (get_privkey_mem o f x) = sig_get_privkey o f x /\
  nothing_left (snd (get_privkey_mem o f x)) /\ In (wiped "tmparr" 130) (snd (get_privkey_mem o f x)) /\
  (forall s, sig_get_privkey o f x = Ok s -> exists d b, ex_priv x = Some d /\ ec_i2d o d = Some b /\
     In (wiped "privkey_buf" (length b)) (snd (get_privkey_mem o f x))).
Proof.
  intros o f x. unfold get_privkey_mem, sig_get_privkey.
  assert (TRIV : forall e w priv pub (s0 : res (list N)), (length w <= 130)%nat -> s0 = Err e ->
    fst (privkey_exit (Err e) w priv pub) = s0 /\ nothing_left (snd (privkey_exit (Err e) w priv pub)) /\
    In (wiped "tmparr" 130) (snd (privkey_exit (Err e) w priv pub)) /\
    (forall s, s0 = Ok s -> exists d b, ex_priv x = Some d /\ ec_i2d o d = Some b /\
       In (wiped "privkey_buf" (length b)) (snd (privkey_exit (Err e) w priv pub)))).
  { intros e w priv pub s0 L ->. destruct (exit_wiped (Err e) w priv pub L) as (A & B & C & _).
    split; [exact A|]. split; [exact B|]. split; [exact C|]. intros s E. discriminate. }
  destruct (alg_curve (ex_alg x)) as [c|]; [|apply TRIV; [cbn; lia|reflexivity]].
  destruct (ex_priv x) as [d|] eqn:PX; [|apply TRIV; [cbn; lia|reflexivity]].
  destruct (negb (ok_to_asn1 f)); [apply TRIV; [cbn; lia|reflexivity]|].
  cbv zeta. destruct (ec_i2d o d) as [privb|] eqn:PB; [|apply TRIV; [cbn; lia|reflexivity]].
  destruct (ec_i2o o c (ex_pub x)) as [pubb|]; [|apply TRIV; [cbn; lia|reflexivity]].
  destruct ((255 <? Nlen privb) || (255 <? Nlen pubb)); [apply TRIV; [cbn; lia|reflexivity]|].
  assert (AP : forall b a r, buf_append PRIVKEY_BUF_SIZE b a = Ok r -> r = b ++ a /\ (length r <= 130)%nat).
  { intros b a r E. unfold buf_append in E. destruct (PRIVKEY_BUF_SIZE <? Nlen b + Nlen a) eqn:C0; [discriminate|]. injection E as <-.
    split; [reflexivity|]. apply N.ltb_ge in C0. rewrite app_length. unfold Nlen, PRIVKEY_BUF_SIZE, MAX_PUBKEY_SIZE in C0. lia. }
  destruct (buf_append PRIVKEY_BUF_SIZE [] (be_bytes 2 (ex_alg x))) as [b0|e] eqn:C0; cbn [bind]; [|apply TRIV; [cbn; lia|reflexivity]].
  assert (L1 : (length (b0 ++ [Nlen pubb mod 256; Nlen privb mod 256]%N) <= 130)%nat).
  { destruct (AP _ _ _ C0) as [-> _]. rewrite app_length. cbn. lia. }
  set (b1 := b0 ++ _) in *.
  destruct (buf_append PRIVKEY_BUF_SIZE b1 pubb) as [b2|e] eqn:C1; cbn [bind]; [|apply TRIV; [exact L1|reflexivity]].
  destruct (AP _ _ _ C1) as [_ L2].
  destruct (buf_append PRIVKEY_BUF_SIZE b2 privb) as [b3|e] eqn:C2; cbn [bind]; [|apply TRIV; [exact L2|reflexivity]].
  destruct (AP _ _ _ C2) as [_ L3].
  destruct (negb (ok_string f)); [apply TRIV; [exact L3|reflexivity]|].
  destruct (exit_wiped (Ok b3) b3 (Some privb) (Some pubb) L3) as (A & B & C & D).
  split; [exact A|]. split; [exact B|]. split; [exact C|]. intros s _. exists d, privb. split; [reflexivity|]. split; [exact PB|].
  apply D. reflexivity.
Qed.

Lemma read_private_left : forall o f n s, no_number_left (snd (read_private o f n s)).
Proof.
  intros o f n s name v. unfold read_private.
  destruct (read_bytes n s) as [[field rest]|]; [|intros []].
  destruct (ec_d2i o field) as [[z used]|]; [|intros []].
  destruct (negb (used =? Nlen field)); [intros [E|[]]; injection E as <- <-; reflexivity|].
  destruct (negb (ok_to_bn f)); [intros [E|[]]; injection E as <- <-; reflexivity|].
  destruct (negb (ok_set_priv f)); (intros [E|[E|[]]]; injection E as <- <-; reflexivity).
Qed.

Lemma sign_both : forall o f alg w s,
  fst (sign_start_mem o f alg w s) = sig_sign_start o f alg w s /\ no_number_left (snd (sign_start_mem o f alg w s)) /\
  (forall x t, sig_sign_start o f alg w s = Ok (Some x, t) ->
     snd (sign_start_mem o f alg w s) = [("priv_key_asn1"%string, None); ("priv_key_bn"%string, None)]).
Proof.
  intros o f alg w s. unfold sign_start_mem, sig_sign_start.
  assert (NIL : no_number_left []) by (intros ? ? []).
  destruct (alg_curve alg) as [c|]; [|split; [reflexivity|]; split; [exact NIL|]; intros x t E; discriminate].
  destruct (Nlen s <? 5); [split; [reflexivity|]; split; [exact NIL|]; intros x t E; discriminate|].
  assert (TRIV : forall e (s0 : res (option ec_ctx * option (list N))), s0 = Err e ->
    fst (@Err (option ec_ctx * option (list N)) e, @nil number) = s0 /\ no_number_left (snd (@Err (option ec_ctx * option (list N)) e, @nil number)) /\
    (forall x t, s0 = Ok (Some x, t) ->
       snd (@Err (option ec_ctx * option (list N)) e, @nil number) = [("priv_key_asn1"%string, None); ("priv_key_bn"%string, None)])).
  { intros e s0 ->. split; [reflexivity|]. split; [exact NIL|]. intros x t E. discriminate. }
  destruct (read_int 2 s) as [[id s1]|e]; cbn [bind]; [|apply TRIV; reflexivity].
  destruct (read_int 1 s1) as [[publen s2]|e]; cbn [bind]; [|apply TRIV; reflexivity].
  destruct (read_int 1 s2) as [[privlen s3]|e]; cbn [bind]; [|apply TRIV; reflexivity].
  destruct (negb (id =? alg)); [apply TRIV; reflexivity|].
  destruct (negb (ok_key_new f)); [apply TRIV; reflexivity|].
  destruct (negb (ok_group f)); [apply TRIV; reflexivity|].
  destruct (negb (ok_set_group f)); [apply TRIV; reflexivity|].
  destruct (read_field (ec_o2i o c) publen s3) as [[pub s4]|e]; cbn [bind]; [|apply TRIV; reflexivity].
  pose proof (read_private_left o f privlen s4) as RL.
  unfold read_private, read_field in *. destruct (read_bytes privlen s4) as [[field rest]|e]; [|apply TRIV; reflexivity].
  destruct (ec_d2i o field) as [[v used]|]; [|apply TRIV; reflexivity].
  destruct (used =? Nlen field); cbn [negb] in *; [|split; [reflexivity|]; split; [exact RL|]; intros x t E; discriminate].
  cbn [bind]. destruct (ok_to_bn f); cbn [negb] in *; [|split; [reflexivity|]; split; [exact RL|]; intros x t E; discriminate].
  destruct (ok_set_priv f); cbn [negb] in *; [|split; [reflexivity|]; split; [exact RL|]; intros x t E; discriminate].
  cbn [bind]. split; [reflexivity|]. split; [exact RL|]. intros x t _. reflexivity.
Qed.
