(** Raw keyrings, alone and in multi-keyrings, as parts of whole stacks. *)
From Verif Require Import Base AlgModel EncCtxModel HdrModel FrameModel CryptoModel SessionModel KeyringModel
  BaseProofs WireSpec SessionSpec StreamSpec LiveSpec KeyringSpec StackSpec EncCtxProofs HdrProofs CodecTheorems
  KeyringProofs RawKeyringProofs StackProofs StackTheorems.
From Coq Require Import Permutation ZArith ZifyBool ZifyNat ZifyN.
Import List.
Open Scope list_scope.
Open Scope N_scope.

(** What the keyring [r] makes of the data key [b]. *)
Definition made (cr : crypto) (rs : rsa) (r : raw) (ctx : enc_ctx) (alg : N) (dk : list N) (e : edk) : Prop :=
  addressed r e /\
  match r with
  | RawAes k => exists iv c t, Nlen iv = 12 /\ bytes_ok iv /\ Nlen t = 16 /\ edk_provider_info e = aes_info (ra_name k) iv /\ edk_ciphertext e = c ++ t /\
      cr_enc cr (ra_key k) iv (wire_ctx (ctx_sort ctx)) dk = Some (c, t) /\ ctx_fits ctx
  | RawRsa k => exists pub seed, rr_pub k = Some pub /\ rs_enc rs (rr_pad k) pub seed dk = Some (edk_ciphertext e)
  end.

Lemma raw_encrypt : forall cr rs x ctx alg a a', crypto_sizes cr -> raw_ok (fst x) -> kenv_ok (snd x) ->
  (forall b, ka_key a = Some b -> Nlen (kb_bytes b) = suite_key_len alg /\ bytes_ok (kb_bytes b)) ->
  keyring_on_encrypt (raw_keyring cr rs x) ctx alg a = (a', KrOk) ->
  exists b e, ka_key a' = Some b /\ (forall b0, ka_key a = Some b0 -> b = b0) /\ ka_edks a' = ka_edks a ++ [e] /\
    Nlen (kb_bytes b) = suite_key_len alg /\ bytes_ok (kb_bytes b) /\ made cr rs (fst x) ctx alg (kb_bytes b) e.
Proof.
  intros cr rs [r ke] ctx alg a a' CS RO [RS RB] PRE H. cbn [fst snd] in *. unfold raw_keyring in H. cbn [fst snd] in H.
  apply on_encrypt_inv in H as [_ H]. destruct (H eq_refl) as ((f & Ef & H') & _ & KL & _). clear H.
  destruct r as [k|k]; cbn in Ef; injection Ef as <-.
  - destruct (aes_encrypt_inv _ _ _ _ _ _ _ H') as (SU & b & c & t & K & SAME & GEN & E & F & LE & KLO & IL & ED & _).
    destruct CS as [C1 _]. destruct (C1 _ _ _ _ _ _ E) as [CL TL].
    assert (B : Nlen (kb_bytes b) = suite_key_len alg /\ bytes_ok (kb_bytes b)).
    { destruct (ka_key a) as [b0|] eqn:K0; [rewrite (SAME _ eq_refl); apply PRE; reflexivity|]. rewrite GEN by reflexivity. split; [apply RS|apply RB]. }
    rewrite CL, (proj1 B), N.sub_diag, (Nlen_0 _ _ (proj2 RS 0)) in ED. cbn [app] in ED.
    eexists b, _. split; [exact K|]. split; [exact SAME|]. split; [exact ED|]. split; [apply B|]. split; [apply B|].
    split; cbn [addressed edk_provider_id edk_provider_info edk_ciphertext].
    + split; [reflexivity|]. exists (ke_rand ke 0 12). split; [exact IL|reflexivity].
    + exists (ke_rand ke 0 12), c, t. split; [exact IL|]. split; [apply RB|]. auto.
  - destruct (rsa_encrypt_inv _ _ _ _ _ _ _ H') as (pub' & b & c & PU' & K & SAME & GEN & E & ED & _).
    assert (B : Nlen (kb_bytes b) = suite_key_len alg /\ bytes_ok (kb_bytes b)).
    { destruct (ka_key a) as [b0|] eqn:K0; [rewrite (SAME _ eq_refl); apply PRE; reflexivity|]. rewrite GEN by reflexivity. split; [apply RS|apply RB]. }
    eexists b, _. split; [exact K|]. split; [exact SAME|]. split; [exact ED|]. split; [apply B|]. split; [apply B|].
    split; cbn [addressed edk_provider_id edk_provider_info edk_ciphertext]; [auto|]. eauto.
Qed.

Lemma list_encrypt : forall cr rs l ctx alg a a', crypto_sizes cr -> Forall (fun x => raw_ok (fst x) /\ kenv_ok (snd x)) l ->
  forall b, ka_key a = Some b -> Nlen (kb_bytes b) = suite_key_len alg -> bytes_ok (kb_bytes b) ->
  encrypt_on_list (map (raw_keyring cr rs) l) ctx alg a = (a', KrOk) ->
  ka_key a' = Some b /\ exists es, ka_edks a' = ka_edks a ++ es /\ Forall2 (fun x e => made cr rs (fst x) ctx alg (kb_bytes b) e) l es.
Proof.
  intros cr rs l ctx alg. induction l as [|x l IH]; intros a a' CS F b K KL KB H; cbn [map encrypt_on_list] in H.
  - injection H as <-. split; auto. exists []. rewrite app_nil_r. split; auto.
  - inversion F as [|? ? [F1 F2] F3]; subst. destruct (keyring_on_encrypt (raw_keyring cr rs x) ctx alg a) as [a1 rc] eqn:E.
    destruct rc; try discriminate.
    assert (PRE : forall b0, ka_key a = Some b0 -> Nlen (kb_bytes b0) = suite_key_len alg /\ bytes_ok (kb_bytes b0)).
    { intros b0 K0. assert (b0 = b) by congruence. subst. auto. }
    destruct (raw_encrypt _ _ _ _ _ _ _ CS F1 F2 PRE E) as [b1 [e [K1 [SM [ED [_ [_ M]]]]]]].
    rewrite (SM _ K) in *. destruct (IH a1 a' CS F3 b K1 KL KB H) as [K2 [es [E2 M2]]]. split; auto.
    exists (e :: es). rewrite E2, ED, <- app_assoc. split; auto.
Qed.

Lemma multi_encrypt : forall cr rs x l mem ctx alg a, crypto_sizes cr -> Forall (fun x => raw_ok (fst x) /\ kenv_ok (snd x)) (x :: l) ->
  keyring_on_encrypt (raw_multi cr rs x l mem) ctx alg fresh_args = (a, KrOk) ->
  exists b es, ka_key a = Some b /\ suite alg /\ Nlen (kb_bytes b) = suite_key_len alg /\ bytes_ok (kb_bytes b) /\ ka_edks a = es /\
    Forall2 (fun x e => made cr rs (fst x) ctx alg (kb_bytes b) e) (x :: l) es.
Proof.
  intros cr rs x l mem ctx alg a CS F H. apply on_encrypt_inv in H as [_ H]. destruct (H eq_refl) as ((f & Ef & H') & _ & KL & _). clear H.
  cbn [raw_multi multi_keyring kr_encrypt] in Ef. injection Ef as <-. unfold multi_on_encrypt in H'.
  destruct (mm_init mem); [discriminate|]. cbn [m_generator m_children fresh_args ka_key ka_edks ka_trace] in H'. cbv zeta in H'.
  inversion F as [|? ? [F1 F2] F3]; subst.
  destruct (keyring_on_encrypt (raw_keyring cr rs x) ctx alg (mk_kargs None [] [])) as [a1 rc] eqn:E. destruct rc; try discriminate.
  destruct (raw_encrypt cr rs x ctx alg (mk_kargs None [] []) _ CS F1 F2 ltac:(intros b0 K0; discriminate) E) as [b [e [K1 [_ [ED [BL [BB M]]]]]]].
  rewrite K1 in H'. cbn [ka_edks app] in ED.
  destruct (encrypt_on_list _ ctx alg a1) as [a2 rc2] eqn:E2. destruct rc2; try discriminate.
  destruct (list_encrypt _ _ _ _ _ _ _ CS F3 b K1 BL BB E2) as [K2 [es [E3 M3]]].
  destruct (transfer_list (mm_edks mem) [] (ka_edks a2)) as [[edks rest] ok] eqn:T. destruct ok; [|discriminate].
  destruct (transfer_list (mm_trace mem) [] (ka_trace a2)) as [[tr rest2] ok2]. injection H' as <-. cbn [ka_key ka_edks] in *.
  destruct (C51_transfer_lemma _ _ _ _ _ _ _ T) as [T1 _]. destruct (T1 eq_refl) as [T2 _]. exists b, (e :: es). split; auto. split; [eapply KL; [reflexivity|exact K2]|]. split; auto. split; auto.
  split; [|constructor; auto]. rewrite T2, E3, ED. reflexivity.
Qed.

(** ** Decryption *)
Lemma made_bytes : forall cr rs r ctx alg dk e, crypto_bytes cr -> rsa_bytes rs -> raw_ok r -> suite alg -> crypto_sizes cr ->
  Nlen dk = suite_key_len alg -> bytes_ok dk -> made cr rs r ctx alg dk e -> edk_is_bytes e /\ edk_fits e.
Proof.
  intros cr rs r ctx alg dk e [CB _] RBY RO SU CS DL DB [AD M]. destruct r as [k|k]; cbn in RO.
  - destruct RO as (_ & F1 & B1 & F2 & B2). destruct AD as [P1 _]. destruct M as (iv & c & t & IL & IB & TL & P2 & P3 & E & _).
    destruct (CB _ _ _ _ _ _ DB E) as [BC BT]. destruct CS as [C1 _]. destruct (C1 _ _ _ _ _ _ E) as [CL _].
    assert (KL : suite_key_len alg <= 32) by (unfold suite_key_len; repeat match goal with |- context [if ?c then _ else _] => destruct c end; lia).
    split.
    + unfold edk_is_bytes. rewrite P1, P2, P3. split; auto. unfold aes_info. rewrite !bytes_ok_app. split; [|auto].
      split; auto. split; [apply bytes_ok_u32; lia|]. split; [apply bytes_ok_u32; lia|auto].
    + unfold edk_fits, fits16 in *. rewrite P1, P2, P3. split; auto. unfold aes_info. rewrite !Nlen_app, !Nlen_u32. lia.
  - destruct RO as (_ & F1 & B1 & F2 & B2). destruct AD as [P1 P2]. destruct M as (pub & seed & _ & E).
    destruct (RBY _ _ _ _ _ E) as [B3 F3]. unfold edk_is_bytes, edk_fits. rewrite P1, P2. auto.
Qed.

Lemma aes_made_opens : forall cr rs k ctx ctx2 alg dk e, crypto_sizes cr -> dec_inverts cr -> Nlen dk = suite_key_len alg ->
  distinct_keys ctx -> Permutation ctx2 ctx ->
  made cr rs (RawAes k) ctx alg dk e -> aes_opens cr k ctx2 alg e dk /\ forall dk2, aes_opens cr k ctx2 alg e dk2 -> dk2 = dk.
Proof.
  intros cr rs k ctx ctx2 alg dk e [C1 _] DI DL D P [[AD _] (iv & c & t & IL & IB & TL & P2 & P3 & E & F)].
  destruct (C1 _ _ _ _ _ _ E) as [CL _]. pose proof (DI _ _ _ _ _ _ E) as DE.
  assert (D2 : distinct_keys ctx2) by (eapply distinct_perm; [symmetry; exact P|auto]).
  split.
  - exists iv, (wire_ctx (ctx_sort ctx)), c, t. repeat (split; [first [assumption|congruence]|]).
    split; [|exact DE]. eapply aad_perm; [symmetry; exact P|]. now apply sort_aad.
  - intros dk2 (iv1 & aad1 & c1 & t1 & Q1 & Q2 & Q3 & Q4 & Q5 & Q6 & Q7 & Q8).
    rewrite P2 in Q2. unfold aes_info in Q2. apply app_inv_head in Q2. apply app_inv_head in Q2. apply app_inv_head in Q2. subst iv1.
    apply (aad_perm _ _ _ P) in Q7. destruct (aad_sort _ _ D Q7) as [_ ->]. rewrite P3 in Q4.
    assert (Y : c = c1 /\ t = t1) by (apply app_inv_length; auto; unfold Nlen in *; lia).
    destruct Y as [<- <-]. congruence.
Qed.

Lemma forall2_in : forall A B (R : A -> B -> Prop) l l', Forall2 R l l' ->
  (forall x, In x l -> exists y, In y l' /\ R x y) /\ (forall y, In y l' -> exists x, In x l /\ R x y).
Proof.
  intros A B R l l' F. induction F as [|x y l l' H F [I1 I2]]; split; [intros ? []|intros ? []| |].
  - intros x' [<-|J]; [exists y; split; auto; now left|]. destruct (I1 _ J) as [y' [J' R']]. exists y'. split; auto. now right.
  - intros y' [<-|J]; [exists x; split; auto; now left|]. destruct (I2 _ J) as [x' [J' R']]. exists x'. split; auto. now right.
Qed.

(** A keyring that has names of its own, or is the counterpart of a keyring that wrapped, finds the data key or nothing. *)
Lemma raw_decrypt : forall cr rs l es ctx ctx2 alg dk y d, crypto_sizes cr -> dec_inverts cr -> raw_ok (fst y) -> suite alg ->
  Nlen dk = suite_key_len alg -> distinct_keys ctx -> Permutation ctx2 ctx -> Forall edk_is_bytes es ->
  Forall2 (fun x e => made cr rs (fst x) ctx alg dk e) l es ->
  (forall x : raw * kenv, In x l -> apart (fst x) (fst y) \/ counterpart rs (fst x) (fst y)) -> da_key d = None ->
  exists d' rc, keyring_on_decrypt (raw_keyring cr rs y) es ctx2 alg d = (d', rc) /\ rc <> KrUB /\
    (da_key d' = None \/ rc = KrOk /\ exists b', da_key d' = Some b' /\ kb_bytes b' = dk) /\
    (forall x, In x l -> counterpart rs (fst x) (fst y) -> kenv_works (snd y) -> da_key d' <> None).
Proof.
  intros cr rs l es ctx ctx2 alg dk [r ke] d CS DI RO SU DL D P EB M AC DK. cbn [fst snd] in *.
  destruct (forall2_in _ _ _ _ _ M) as [M1 M2].
  assert (D2 : distinct_keys ctx2) by (eapply distinct_perm; [symmetry; exact P|auto]).
  unfold raw_keyring. cbn [fst snd]. destruct r as [k|k].
  - assert (BA : Forall (fun e => bytes_ok (edk_provider_info e)) es) by (eapply Forall_impl; [|exact EB]; intros e E; apply E).
    destruct (serialize_aad_init (ke_fail ke 0) ctx2) as [aad|x] eqn:A.
    + apply aad_spec in A as (M0 & F2 & ->). destruct (ke_fail ke 1) as [x|] eqn:M1'.
      * exists d, (KrErr x). split.
        { unfold keyring_on_decrypt. rewrite DK. cbn [kr_decrypt raw_aes_keyring]. unfold raw_aes_on_decrypt.
          assert (AA : serialize_aad_init (ke_fail ke 0) ctx2 = Ok (wire_ctx (ctx_sort ctx2))) by (apply aad_spec; auto). rewrite AA.
          destruct (lookup_suite _ SU) as [p L]. rewrite L, M1'. now rewrite DK. }
        split; [discriminate|]. split; [now left|]. intros x0 _ _ KW. rewrite (KW 1%nat) in M1'. discriminate.
      * destruct (C43_search_lemma cr k ke es ctx2 alg d (proj1 RO) SU D2 F2 BA M0 M1' CS DK) as (d' & R & S).
        exists d', KrOk. split; [exact R|]. split; [discriminate|]. destruct (da_key d') as [b'|] eqn:DB.
        -- split; [|intros; discriminate]. right. split; auto. exists b'. split; auto. destruct S as (_ & m1 & e1 & m2 & EQ & O1 & _).
           assert (J : In e1 es) by (rewrite EQ; apply in_or_app; right; now left).
           destruct (M2 _ J) as [[r ke'] [Jx Mx]]. destruct (AC _ Jx) as [X|X]; cbn [fst] in *.
           ++ exfalso. apply (X e1); [apply Mx|]. destruct O1 as (iv & aad & c & t & Q1 & Q2 & Q3 & _). split; [auto|]. eauto.
           ++ destruct r as [k1|k1]; [|destruct X]. cbn in X. subst k1.
              destruct (aes_made_opens _ _ _ _ _ _ _ _ CS DI DL D P Mx) as [_ U]. now apply U.
        -- split; [now left|]. intros [r ke'] Jx X KW _. cbn [fst] in X. destruct r as [k1|k1]; [|destruct X]. cbn in X. subst k1.
           destruct (M1 _ Jx) as [e1 [Je Mx]]. cbn [fst] in Mx. destruct (aes_made_opens _ _ _ _ _ _ _ _ CS DI DL D P Mx) as [O _].
           destruct S as [_ S]. exact (S _ _ Je O).
    + exists d, (KrErr x). split.
      { unfold keyring_on_decrypt. rewrite DK. cbn [kr_decrypt raw_aes_keyring]. unfold raw_aes_on_decrypt. rewrite A. now rewrite DK. }
      split; [discriminate|]. split; [now left|]. intros [r ke'] Jx X KW _. cbn [fst] in X. destruct r as [k1|k1]; [|destruct X]. cbn in X. subst k1.
      destruct (M1 _ Jx) as [e1 [Je [_ (iv & c & t & _ & _ & _ & _ & _ & _ & F)]]].
      assert (AA : serialize_aad_init (ke_fail ke 0) ctx2 = Ok (wire_ctx (ctx_sort ctx2))).
      { apply aad_spec. split; [apply KW|]. split; [unfold ctx_fits in *; now rewrite (Nlen_wire_ctx_perm _ _ P)|reflexivity]. }
      congruence.
  - destruct (rr_priv k) as [priv|] eqn:PR.
    + destruct (C45_search_lemma rs k ke priv es ctx2 alg d (proj1 RO) PR SU DK) as (d' & rc & R & S).
      exists d', rc. split; [exact R|]. destruct (da_key d') as [b'|] eqn:DB.
      * destruct S as (RC & _ & m1 & e1 & m2 & EQ & O1 & _).
        assert (BR : kb_bytes b' = dk).
        { assert (J : In e1 es) by (rewrite EQ; apply in_or_app; right; now left).
          destruct (M2 _ J) as [[r ke'] [Jx Mx]]. destruct (AC _ Jx) as [X|X]; cbn [fst] in *.
          - exfalso. apply (X e1); [apply Mx|]. destruct O1 as (Q1 & Q2 & _). split; auto.
          - destruct r as [k1|k1]; [destruct X|]. cbn in X. destruct X as (X1 & X2 & X3 & pub & priv' & X4 & X5 & X6).
            destruct Mx as [_ (pub' & seed & Y1 & Y2)]. assert (pub' = pub) by congruence. assert (priv' = priv) by congruence. subst pub' priv'.
            destruct (X6 _ _ _ _ Y2) as [_ Y3]. destruct O1 as (_ & _ & _ & O1). rewrite X3 in O1. congruence. }
        rewrite BR, DL, N.eqb_refl in RC. rewrite RC. split; [discriminate|]. split; [|intros; discriminate]. right. eauto.
      * destruct S as (-> & _ & S). split; [discriminate|]. split; [now left|]. intros [r ke'] Jx X KW _. cbn [fst] in X. destruct r as [k1|k1]; [destruct X|].
        cbn in X. destruct X as (X1 & X2 & X3 & pub & priv' & X4 & X5 & X6). destruct (M1 _ Jx) as [e1 [Je [AD (pub' & seed & Y1 & Y2)]]].
        assert (pub' = pub) by congruence. assert (priv' = priv) by congruence. subst pub' priv'. destruct (X6 _ _ _ _ Y2) as [Y4 Y3].
        cbn [fst addressed] in AD. destruct AD as [A1 A2]. apply (S e1 dk Je). unfold rsa_opens. rewrite X1, X2, X3. auto.
    + exists d, (KrErr E_BAD_STATE). split; [apply C45_missing_lemma; auto|]. split; [discriminate|]. split; [now left|].
      intros [r ke'] Jx X KW _. cbn [fst] in X. destruct r as [k1|k1]; [destruct X|]. cbn in X. destruct X as (_ & _ & _ & pub & priv' & _ & X5 & _). congruence.
Qed.

Lemma list_decrypt : forall cr rs l es ctx ctx2 alg dk ys d failed, crypto_sizes cr -> dec_inverts cr -> Forall (fun y => raw_ok (fst y)) ys -> suite alg ->
  Nlen dk = suite_key_len alg -> distinct_keys ctx -> Permutation ctx2 ctx -> Forall edk_is_bytes es ->
  Forall2 (fun x e => made cr rs (fst x) ctx alg dk e) l es ->
  (forall (x y : raw * kenv), In x l -> In y ys -> apart (fst x) (fst y) \/ counterpart rs (fst x) (fst y)) -> da_key d = None ->
  (exists x y, In x l /\ In y ys /\ counterpart rs (fst x) (fst y) /\ kenv_works (snd y)) ->
  exists d' b', decrypt_on_list (map (raw_keyring cr rs) ys) es ctx2 alg failed d = (d', KrOk) /\ da_key d' = Some b' /\ kb_bytes b' = dk.
Proof.
  intros cr rs l es ctx ctx2 alg dk ys. induction ys as [|y ys IH]; intros d failed CS DI RO SU DL D P EB M AC DK [x [z [Jx [Jz [X KW]]]]]; [destruct Jz|].
  inversion RO as [|? ? R1 R2]; subst. cbn [map decrypt_on_list].
  destruct (raw_decrypt cr rs l es ctx ctx2 alg dk y d CS DI R1 SU DL D P EB M (fun x J => AC x y J (or_introl eq_refl)) DK) as (d1 & rc & E & U & OUT & WORK).
  rewrite E. destruct OUT as [N|[-> [b' [B1 B2]]]].
  - rewrite N. assert (Jz' : In z ys).
    { destruct Jz as [<-|Jz]; auto. exfalso. exact (WORK _ Jx X KW N). }
    destruct rc; [| |congruence]; apply IH; auto; try (exists x, z; auto); intros x0 y0 J1 J2; apply AC; auto; now right.
  - rewrite B1. exists d1, b'. auto.
Qed.

(** ** The two directions together *)
Lemma all_bytes : forall cr rs l es ctx alg dk, crypto_bytes cr -> rsa_bytes rs -> suite alg -> crypto_sizes cr ->
  Nlen dk = suite_key_len alg -> bytes_ok dk -> Forall (fun x => raw_ok (fst x) /\ kenv_ok (snd x)) l ->
  Forall2 (fun x e => made cr rs (fst x) ctx alg dk e) l es -> Forall edk_is_bytes es /\ Forall edk_fits es.
Proof.
  intros cr rs l es ctx alg dk CB RB SU CS DL DB F M. revert F. induction M as [|x e l es Hx M IH]; intros F; [split; constructor|].
  inversion F as [|? ? [F1 F2] F3]; subst. destruct (IH F3) as [I1 I2].
  destruct (made_bytes _ _ _ _ _ _ _ CB RB F1 SU CS DL DB Hx) as [A B]. split; constructor; auto.
Qed.

Lemma forall2_perm : forall A B (R : A -> B -> Prop) es' es, Permutation es' es -> forall l, Forall2 R l es -> exists l', Permutation l' l /\ Forall2 R l' es'.
Proof.
  intros A B R es' es P. induction P as [|e m m' P IH|e f m|m1 m2 m3 P1 IH1 P2 IH2]; intros l F.
  - inversion F; subst. exists []. auto.
  - inversion F as [|x ? l0 ? X F0]; subst. destruct (IH _ F0) as [l' [Q G]]. exists (x :: l'). split; [now constructor|now constructor].
  - inversion F as [|x ? l0 ? X F0]; subst. inversion F0 as [|y ? l1 ? Y F1]; subst. exists (y :: x :: l1). split; [constructor|]. constructor; auto.
  - destruct (IH2 _ F) as [l2 [Q2 G2]]. destruct (IH1 _ G2) as [l1 [Q1 G1]]. exists l1. split; [etransitivity; eauto|exact G1].
Qed.
Lemma rights_perm : forall rs l l' ys, Permutation l' l -> rights rs l ys -> rights rs l' ys.
Proof.
  intros rs l l' ys P [R1 [x [y [J1 J2]]]]. split.
  - intros x0 y0 J. apply R1. eapply Permutation_in; eauto.
  - exists x, y. split; [|exact J2]. eapply Permutation_in; [symmetry; exact P|exact J1].
Qed.

Lemma multi_recovers_any : forall cr rs x l mem y ys mem2 alg, crypto_sizes cr -> dec_inverts cr -> crypto_bytes cr -> rsa_bytes rs ->
  Forall (fun x => raw_ok (fst x) /\ kenv_ok (snd x)) (x :: l) -> Forall (fun y => raw_ok (fst y)) (y :: ys) -> rights rs (x :: l) (y :: ys) ->
  recovers_any_order (raw_multi cr rs x l mem) (raw_multi cr rs y ys mem2) alg.
Proof.
  intros cr rs x l mem y ys mem2 alg CS DI CB RB F G RI ctx a D _ H.
  destruct (multi_encrypt _ _ _ _ _ _ _ _ CS F H) as (b & es & K & SU & BL & BB & EE & M). exists b. split; auto.
  intros ctx2 edks d P PE DK. rewrite EE in PE. destruct (all_bytes _ _ _ _ _ _ _ CB RB SU CS BL BB F M) as [EB _].
  destruct (forall2_perm _ _ _ _ _ PE _ M) as [l' [PL M']]. apply (rights_perm _ _ _ _ PL) in RI. destruct RI as [R1 R2].
  assert (EB' : Forall edk_is_bytes edks) by (eapply Permutation_Forall; [symmetry; exact PE|exact EB]).
  destruct (list_decrypt cr rs _ _ ctx ctx2 alg _ (y :: ys) d KrOk CS DI G SU BL D P EB' M' R1 DK R2) as (d' & b' & Q & B1 & B2).
  exists d', b'. split; [|auto]. unfold keyring_on_decrypt. rewrite DK. cbn [raw_multi multi_keyring kr_decrypt].
  unfold multi_on_decrypt. cbn [m_generator m_children]. cbn [map] in Q. rewrite Q, B1.
  assert (KO : key_len_ok alg b' = true) by (apply key_len_ok_spec; split; [auto|congruence]). now rewrite KO.
Qed.

Lemma multi_raw_recovers_any : forall cr rs x l mem y alg, crypto_sizes cr -> dec_inverts cr -> crypto_bytes cr -> rsa_bytes rs ->
  Forall (fun x => raw_ok (fst x) /\ kenv_ok (snd x)) (x :: l) -> raw_ok (fst y) -> rights rs (x :: l) [y] ->
  recovers_any_order (raw_multi cr rs x l mem) (raw_keyring cr rs y) alg.
Proof.
  intros cr rs x l mem y alg CS DI CB RB F G RI ctx a D _ H.
  destruct (multi_encrypt _ _ _ _ _ _ _ _ CS F H) as (b & es & K & SU & BL & BB & EE & M). exists b. split; auto.
  intros ctx2 edks d P PE DK. rewrite EE in PE. destruct (all_bytes _ _ _ _ _ _ _ CB RB SU CS BL BB F M) as [EB _].
  destruct (forall2_perm _ _ _ _ _ PE _ M) as [l' [PL M']]. apply (rights_perm _ _ _ _ PL) in RI.
  destruct RI as [R1 [x0 [y0 [J1 [J2 [CP KW]]]]]]. destruct J2 as [<-|[]].
  assert (EB' : Forall edk_is_bytes edks) by (eapply Permutation_Forall; [symmetry; exact PE|exact EB]).
  destruct (raw_decrypt cr rs _ _ ctx ctx2 alg _ y d CS DI G SU BL D P EB' M' (fun x J => R1 x y J (or_introl eq_refl)) DK) as (d1 & rc & E & U & OUT & WORK).
  destruct OUT as [N|[-> [b' [B1 B2]]]]; [exfalso; exact (WORK _ J1 CP KW N)|]. eauto.
Qed.

Lemma raw_recovers_any : forall cr rs x y alg, crypto_sizes cr -> dec_inverts cr -> crypto_bytes cr -> rsa_bytes rs ->
  raw_ok (fst x) -> kenv_ok (snd x) -> raw_ok (fst y) -> counterpart rs (fst x) (fst y) -> kenv_works (snd y) ->
  recovers_any_order (raw_keyring cr rs x) (raw_keyring cr rs y) alg.
Proof.
  intros cr rs x y alg CS DI CB RB F1 F2 G CP KW ctx a D _ H.
  pose proof (on_encrypt_inv _ _ _ _ _ _ H) as [_ OI]. destruct (OI eq_refl) as (_ & _ & KL & _).
  destruct (raw_encrypt cr rs x ctx alg fresh_args _ CS F1 F2 ltac:(intros b0 K0; discriminate) H) as [b [e [K [_ [ED [BL [BB M]]]]]]].
  destruct (KL _ eq_refl K) as [SU _].
  exists b. split; auto. intros ctx2 edks d P PE DK. cbn [fresh_args ka_edks app] in ED. rewrite ED in PE.
  apply Permutation_sym, Permutation_length_1_inv in PE. subst edks.
  assert (MM : Forall2 (fun x e => made cr rs (fst x) ctx alg (kb_bytes b) e) [x] [e]) by (constructor; auto).
  assert (F : Forall (fun x => raw_ok (fst x) /\ kenv_ok (snd x)) [x]) by (apply Forall_cons; auto).
  destruct (all_bytes _ _ _ _ _ _ _ CB RB SU CS BL BB F MM) as [EB _].
  assert (AC : forall x0 : raw * kenv, In x0 [x] -> apart (fst x0) (fst y) \/ counterpart rs (fst x0) (fst y)) by (intros x0 [<-|[]]; auto).
  destruct (raw_decrypt cr rs _ _ ctx ctx2 alg _ y d CS DI G SU BL D P EB MM AC DK) as (d1 & rc & E & U & OUT & WORK).
  destruct OUT as [N|[-> [b' [B1 B2]]]]; [exfalso; exact (WORK _ (or_introl eq_refl) CP KW N)|]. eauto.
Qed.

Lemma any_order_recovers : forall ke kd alg, recovers_any_order ke kd alg -> recovers ke kd alg.
Proof.
  intros ke kd alg R ctx a D B H. destruct (R ctx a D B H) as [b [K U]]. exists b. split; auto.
Qed.
Lemma multi_recovers : forall cr rs x l mem y ys mem2 alg, crypto_sizes cr -> dec_inverts cr -> crypto_bytes cr -> rsa_bytes rs ->
  Forall (fun x => raw_ok (fst x) /\ kenv_ok (snd x)) (x :: l) -> Forall (fun y => raw_ok (fst y)) (y :: ys) -> rights rs (x :: l) (y :: ys) ->
  recovers (raw_multi cr rs x l mem) (raw_multi cr rs y ys mem2) alg.
Proof. intros. apply any_order_recovers, multi_recovers_any; auto. Qed.
Lemma multi_raw_recovers : forall cr rs x l mem y alg, crypto_sizes cr -> dec_inverts cr -> crypto_bytes cr -> rsa_bytes rs ->
  Forall (fun x => raw_ok (fst x) /\ kenv_ok (snd x)) (x :: l) -> raw_ok (fst y) -> rights rs (x :: l) [y] ->
  recovers (raw_multi cr rs x l mem) (raw_keyring cr rs y) alg.
Proof. intros. apply any_order_recovers, multi_raw_recovers_any; auto. Qed.
Lemma raw_recovers : forall cr rs x y alg, crypto_sizes cr -> dec_inverts cr -> crypto_bytes cr -> rsa_bytes rs ->
  raw_ok (fst x) -> kenv_ok (snd x) -> raw_ok (fst y) -> counterpart rs (fst x) (fst y) -> kenv_works (snd y) ->
  recovers (raw_keyring cr rs x) (raw_keyring cr rs y) alg.
Proof. intros. apply any_order_recovers, raw_recovers_any; auto. Qed.

Lemma forall2_nlen : forall A B (R : A -> B -> Prop) l l', Forall2 R l l' -> Nlen l' = Nlen l.
Proof. intros A B R l l' F. induction F; [reflexivity|]. rewrite !Nlen_cons. lia. Qed.

Lemma multi_tidy : forall cr rs x l mem alg, crypto_sizes cr -> crypto_bytes cr -> rsa_bytes rs ->
  Forall (fun x => raw_ok (fst x) /\ kenv_ok (snd x)) (x :: l) -> Nlen (x :: l) <= 65535 -> tidy (raw_multi cr rs x l mem) alg (Nlen (x :: l)).
Proof.
  intros cr rs x l mem alg CS CB RB F N. split; auto. intros ctx a _ _ H.
  destruct (multi_encrypt _ _ _ _ _ _ _ _ CS F H) as (b & es & K & SU & BL & BB & EE & M). rewrite EE.
  destruct (all_bytes _ _ _ _ _ _ _ CB RB SU CS BL BB F M) as [E1 E2]. rewrite (forall2_nlen _ _ _ _ _ M). split; [|auto].
  rewrite Nlen_cons. lia.
Qed.
Lemma raw_tidy : forall cr rs x alg, crypto_sizes cr -> crypto_bytes cr -> rsa_bytes rs -> raw_ok (fst x) -> kenv_ok (snd x) ->
  tidy (raw_keyring cr rs x) alg 1.
Proof.
  intros cr rs x alg CS CB RB F1 F2. split; [lia|]. intros ctx a _ _ H.
  pose proof (on_encrypt_inv _ _ _ _ _ _ H) as [_ OI]. destruct (OI eq_refl) as (_ & _ & KL & _).
  destruct (raw_encrypt cr rs x ctx alg fresh_args _ CS F1 F2 ltac:(intros b0 K0; discriminate) H) as [b [e [K [_ [ED [BL [BB M]]]]]]].
  destruct (KL _ eq_refl K) as [SU _]. cbn [fresh_args ka_edks app] in ED. rewrite ED.
  destruct (made_bytes _ _ _ _ _ _ _ CB RB F1 SU CS BL BB M) as [A B].
  split; [unfold Nlen; cbn; lia|]. split; apply Forall_cons; auto.
Qed.

(** ** Wrapping works *)
Lemma raw_works : forall cr rs x ctx alg a, crypto_sizes cr -> crypto_works cr -> raw_ok (fst x) -> kenv_ok (snd x) -> kenv_works (snd x) -> can_wrap rs (fst x) ->
  suite alg -> ctx_fits ctx -> (ka_key a = None -> ka_edks a = []) -> (forall b, ka_key a = Some b -> Nlen (kb_bytes b) = suite_key_len alg /\ bytes_ok (kb_bytes b)) ->
  exists a', keyring_on_encrypt (raw_keyring cr rs x) ctx alg a = (a', KrOk).
Proof.
  intros cr rs [r ke] ctx alg a CS CW RO [RS RB] KW CWR SU F GUARD PRE. cbn [fst snd] in *. destruct (lookup_suite _ SU) as [p L].
  destruct (suite_lookup _ _ L) as (_ & DL & _).
  assert (WR : forall f, kr_encrypt (raw_keyring cr rs (r, ke)) = Some f -> forall b t es, (match ka_key a with Some b0 => b = b0 | None => Nlen (kb_bytes b) = suite_key_len alg end) ->
    f ctx alg a = (mk_kargs (Some b) t es, KrOk) -> exists a', keyring_on_encrypt (raw_keyring cr rs (r, ke)) ctx alg a = (a', KrOk)).
  { intros f Ef b t es KB E. unfold keyring_on_encrypt. destruct (ka_key a) as [b0|] eqn:K.
    - subst b. rewrite Ef, E. cbn [ka_key]. unfold same_buf. rewrite !N.eqb_refl. cbn [andb]. destruct (ka_edks a); eauto.
    - rewrite (GUARD eq_refl), Ef, E. cbn [ka_key]. assert (KO : key_len_ok alg b = true) by (apply key_len_ok_spec; auto). rewrite KO. eauto. }
  destruct r as [k|k]; cbn [raw_keyring fst snd kr_encrypt raw_aes_keyring raw_rsa_keyring] in WR; specialize (WR _ eq_refl).
  - assert (AW : forall dk es, Nlen dk = suite_key_len alg -> exists es', aes_wrap cr k ke dk (suite_key_len alg) es ctx (ke_rand ke 0 12) = (es', Ok tt)).
    { intros dk es DK. unfold aes_wrap. rewrite !KW.
      assert (AA : serialize_aad_init None ctx = Ok (wire_ctx (ctx_sort ctx))) by (apply aad_spec; auto). rewrite AA.
      unfold aes_gcm_encrypt. destruct RO as [RO _]. rewrite key_ok_b by auto. rewrite (proj1 RS), DK, N.ltb_irrefl. change (negb true || negb (12 =? 12) || false) with false.
      cbv iota. destruct (cr_enc cr (ra_key k) (ke_rand ke 0 12) (wire_ctx (ctx_sort ctx)) dk) as [[c t]|] eqn:E; [eauto|].
      exfalso. exact (cw_enc _ CW _ _ _ _ E). }
    unfold raw_aes_on_encrypt in WR. rewrite L, DL in WR. cbv zeta in WR. unfold genrandom in WR. rewrite !KW in WR. change RAW_AES_KR_IV_LEN with 12 in WR.
    destruct (ka_key a) as [b0|] eqn:K.
    + destruct (AW (kb_bytes b0) (ka_edks a) (proj1 (PRE _ eq_refl))) as [es' E]. rewrite E in WR. eapply WR; [reflexivity|reflexivity].
    + cbn [kb_bytes] in WR. destruct (AW (ke_rand ke 2 (suite_key_len alg)) (ka_edks a) (proj1 RS _ _)) as [es' E]. rewrite E in WR.
      eapply WR; [|reflexivity]. cbn [kb_bytes]. apply RS.
  - destruct CWR as [pub [PU NF]]. 
    assert (AW : forall dk es, Nlen dk = suite_key_len alg -> bytes_ok dk -> exists es', rsa_wrap rs k ke pub dk es = (es', Ok tt)).
    { intros dk es KL KB. assert (K32 : Nlen dk <= 32) by (rewrite KL; unfold suite_key_len; repeat match goal with |- context [if ?c then _ else _] => destruct c end; lia).
      unfold rsa_wrap, rsa_encrypt. rewrite rsa_pad_ok by apply RO. cbn [negb]. rewrite !KW.
      destruct (rs_enc rs (rr_pad k) pub (ke_seed ke) dk) eqn:E; [eauto|]. exfalso. exact (NF _ _ KB K32 E). }
    unfold raw_rsa_on_encrypt in WR. rewrite PU in WR. cbv zeta in WR. rewrite L, DL in WR. unfold genrandom in WR. rewrite !KW in WR.
    destruct (ka_key a) as [b0|] eqn:K.
    + destruct (AW (kb_bytes b0) (ka_edks a) (proj1 (PRE _ eq_refl)) (proj2 (PRE _ eq_refl))) as [es' E]. rewrite E in WR. eapply WR; [reflexivity|reflexivity].
    + cbn [kb_bytes] in WR. destruct (AW (ke_rand ke 1 (suite_key_len alg)) (ka_edks a) (proj1 RS _ _) (RB _ _)) as [es' E]. rewrite E in WR.
      eapply WR; [|reflexivity]. cbn [kb_bytes]. apply RS.
Qed.

Lemma raw_wraps : forall cr rs x alg, crypto_sizes cr -> crypto_works cr -> wrapper rs x -> suite alg -> wraps (raw_keyring cr rs x) alg.
Proof.
  intros cr rs x alg CS CW (W1 & W2 & W3 & W4) SU ctx _ _ F. eapply raw_works; eauto. intros b K. discriminate.
Qed.

Lemma list_works : forall cr rs l ctx alg a b, crypto_sizes cr -> crypto_works cr -> Forall (wrapper rs) l -> suite alg -> ctx_fits ctx ->
  ka_key a = Some b -> Nlen (kb_bytes b) = suite_key_len alg -> bytes_ok (kb_bytes b) ->
  exists a', encrypt_on_list (map (raw_keyring cr rs) l) ctx alg a = (a', KrOk).
Proof.
  intros cr rs l ctx alg a b CS CW F SU FI K KL KB. revert a K. induction F as [|x l (W1 & W2 & W3 & W4) F IH]; intros a K; cbn [map encrypt_on_list]; [eauto|].
  assert (PRE : forall b0, ka_key a = Some b0 -> Nlen (kb_bytes b0) = suite_key_len alg /\ bytes_ok (kb_bytes b0)).
  { intros b0 K0. assert (b0 = b) by congruence. subst. auto. }
  destruct (raw_works cr rs x ctx alg a CS CW W1 W2 W3 W4 SU FI ltac:(congruence) PRE) as [a1 E]. rewrite E.
  destruct (raw_encrypt _ _ _ _ _ _ _ CS W1 W2 PRE E) as [b1 [e [K1 [SM _]]]]. rewrite (SM _ K) in K1. auto.
Qed.

Lemma multi_wraps : forall cr rs x l mem alg, crypto_sizes cr -> crypto_works cr -> Forall (wrapper rs) (x :: l) -> suite alg ->
  mm_init mem = None -> (forall n, mm_edks mem n = true) -> wraps (raw_multi cr rs x l mem) alg.
Proof.
  intros cr rs x l mem alg CS CW F SU MI ME ctx _ _ FI. inversion F as [|? ? (W1 & W2 & W3 & W4) F2]; subst.
  destruct (raw_works cr rs x ctx alg fresh_args CS CW W1 W2 W3 W4 SU FI ltac:(reflexivity) ltac:(intros b K; discriminate K)) as [a1 E].
  destruct (raw_encrypt cr rs x ctx alg fresh_args a1 CS W1 W2 ltac:(intros b0 K0; discriminate) E) as [b [e [K1 [_ [ED [BL [BB M]]]]]]].
  destruct (list_works cr rs l ctx alg a1 b CS CW F2 SU FI K1 BL BB) as [a2 E2].
  assert (FX : Forall (fun x => raw_ok (fst x) /\ kenv_ok (snd x)) l) by (eapply Forall_impl; [|exact F2]; intros z (Z1 & Z2 & _); auto).
  destruct (list_encrypt _ _ _ _ _ _ _ CS FX b K1 BL BB E2) as [K2 _].
  assert (MO : exists a3, multi_on_encrypt (mk_multi (Some (raw_keyring cr rs x)) (map (raw_keyring cr rs) l)) mem ctx alg fresh_args = (a3, KrOk) /\ ka_key a3 = Some b).
  { unfold multi_on_encrypt. rewrite MI. cbn [m_generator m_children]. cbv zeta. change (mk_kargs (ka_key fresh_args) [] []) with fresh_args. rewrite E, K1, E2.
    destruct (transfer_list (mm_edks mem) (ka_edks fresh_args) (ka_edks a2)) as [[edks rest] ok] eqn:T.
    destruct (C51_transfer_lemma _ _ _ _ _ _ _ T) as [_ T1]. rewrite T1 by (intros i _; apply ME).
    destruct (transfer_list (mm_trace mem) (ka_trace fresh_args) (ka_trace a2)) as [[tr rest2] ok2]. eexists. split; [reflexivity|exact K2]. }
  destruct MO as [a3 [MO K3]]. exists a3. unfold keyring_on_encrypt. cbn [ka_key ka_edks fresh_args raw_multi multi_keyring kr_encrypt].
  fold fresh_args. rewrite MO, K3. assert (KO : key_len_ok alg b = true) by (apply key_len_ok_spec; auto). now rewrite KO.
Qed.

(** ** Keyrings with different names *)
Lemma addressed_ns : forall r e, addressed r e -> edk_provider_id e = match r with RawAes k => ra_ns k | RawRsa k => rr_ns k end.
Proof. intros [k|k] e H; apply H. Qed.
Lemma apart_ns : forall r s, match r with RawAes k => ra_ns k | RawRsa k => rr_ns k end <> match s with RawAes k => ra_ns k | RawRsa k => rr_ns k end -> apart r s.
Proof. intros r s N e A B. apply addressed_ns in A, B. congruence. Qed.
Lemma apart_aes : forall k k2, ra_name k <> ra_name k2 -> apart (RawAes k) (RawAes k2).
Proof.
  intros k k2 N e [_ [iv [L A]]] [_ [iv2 [L2 B]]]. rewrite A in B. unfold aes_info in B. apply N.
  assert (E : length (ra_name k) = length (ra_name k2)).
  { apply (f_equal Nlen) in B. rewrite !Nlen_app, L, L2 in B. unfold Nlen in *. lia. }
  apply app_inv_length in B; [apply B|exact E].
Qed.
Lemma apart_rsa : forall k k2, rr_name k <> rr_name k2 -> apart (RawRsa k) (RawRsa k2).
Proof. intros k k2 N e [_ A] [_ B]. congruence. Qed.

(** ** Raw keyrings have defined behaviour for every suite *)
Lemma raw_enc_defined : forall cr rs x ctx alg a, suite alg -> snd (keyring_on_encrypt (raw_keyring cr rs x) ctx alg a) <> KrUB.
Proof.
  intros cr rs [r ke] ctx alg a SU. destruct (lookup_suite _ SU) as [p L]. unfold keyring_on_encrypt.
  assert (ND : forall f, kr_encrypt (raw_keyring cr rs (r, ke)) = Some f -> snd (f ctx alg a) <> KrUB).
  { intros f E. unfold raw_keyring in E. cbn [fst snd] in E. destruct r as [k|k]; cbn in E; injection E as <-.
    - unfold raw_aes_on_encrypt. rewrite L. repeat (cbv zeta; cbn [snd]; first [discriminate
        | match goal with |- context [let (_, _) := ?x in _] => destruct x | |- context [match ?x with _ => _ end] => destruct x end]).
    - unfold raw_rsa_on_encrypt. rewrite L. repeat (cbv zeta; cbn [snd]; first [discriminate
        | match goal with |- context [let (_, _) := ?x in _] => destruct x | |- context [match ?x with _ => _ end] => destruct x end]). }
  destruct (kr_encrypt (raw_keyring cr rs (r, ke))) as [f|]; [specialize (ND f eq_refl)|clear ND].
  - destruct (f ctx alg a) as [a' rc]. cbn [snd] in ND.
    destruct (ka_key a), (ka_edks a), rc, (ka_key a'); cbn [snd]; try congruence; match goal with |- context [if ?c then _ else _] => destruct c end; cbn; congruence.
  - destruct (ka_key a), (ka_edks a); discriminate.
Qed.
Lemma raw_dec_defined : forall cr rs x edks ctx alg d, suite alg -> snd (keyring_on_decrypt (raw_keyring cr rs x) edks ctx alg d) <> KrUB.
Proof.
  intros cr rs [r ke] edks ctx alg d SU. destruct (lookup_suite _ SU) as [p L]. unfold keyring_on_decrypt. destruct (da_key d) eqn:DK; [discriminate|].
  assert (ND : forall f, kr_decrypt (raw_keyring cr rs (r, ke)) = Some f -> snd (f edks ctx alg d) <> KrUB).
  { intros f E. unfold raw_keyring in E. cbn [fst snd] in E. destruct r as [k|k]; cbn in E; injection E as <-.
    - unfold raw_aes_on_decrypt. rewrite L. repeat (cbv zeta; cbn [snd]; first [discriminate
        | match goal with |- context [match ?x with _ => _ end] => destruct x end]).
    - unfold raw_rsa_on_decrypt. rewrite DK. repeat (cbv zeta; cbn [snd]; first [discriminate
        | match goal with |- context [match ?x with _ => _ end] => destruct x end]). }
  destruct (kr_decrypt (raw_keyring cr rs (r, ke))) as [f|]; [specialize (ND f eq_refl)|discriminate].
  destruct (f edks ctx alg d) as [a' rc]. cbn [snd] in ND. destruct rc, (da_key a'); cbn [snd]; try congruence;
    match goal with |- context [if ?c then _ else _] => destruct c end; cbn; congruence.
Qed.
Lemma list_enc_defined : forall cr rs l ctx alg a, suite alg -> snd (encrypt_on_list (map (raw_keyring cr rs) l) ctx alg a) <> KrUB.
Proof.
  intros cr rs l ctx alg a SU. revert a. induction l as [|x l IH]; intros a; cbn [map encrypt_on_list]; [discriminate|].
  pose proof (raw_enc_defined cr rs x ctx alg a SU) as N. destruct (keyring_on_encrypt _ _ _ _) as [a' []]; cbn [snd] in *; auto.
Qed.
Lemma list_dec_defined : forall cr rs l edks ctx alg d f, suite alg -> f <> KrUB -> snd (decrypt_on_list (map (raw_keyring cr rs) l) edks ctx alg f d) <> KrUB.
Proof.
  intros cr rs l edks ctx alg d f SU. revert d f. induction l as [|x l IH]; intros d f F; cbn [map decrypt_on_list]; [exact F|].
  pose proof (raw_dec_defined cr rs x edks ctx alg d SU) as N. destruct (keyring_on_decrypt _ _ _ _ _) as [d' []]; cbn [snd] in *; try congruence;
    (destruct (da_key d'); [discriminate|apply IH; congruence]).
Qed.
Lemma multi_enc_defined : forall cr rs x l mem ctx alg a, suite alg -> snd (keyring_on_encrypt (raw_multi cr rs x l mem) ctx alg a) <> KrUB.
Proof.
  intros cr rs x l mem ctx alg a SU.
  assert (ND : snd (multi_on_encrypt (mk_multi (Some (raw_keyring cr rs x)) (map (raw_keyring cr rs) l)) mem ctx alg a) <> KrUB).
  { unfold multi_on_encrypt. destruct (mm_init mem); [discriminate|]. cbn [m_generator m_children]. cbv zeta.
    pose proof (raw_enc_defined cr rs x ctx alg (mk_kargs (ka_key a) [] []) SU) as N1.
    destruct (keyring_on_encrypt _ _ _ _) as [a1 []]; cbn [snd] in *; try congruence. destruct (ka_key a1); [|discriminate].
    pose proof (list_enc_defined cr rs l ctx alg a1 SU) as N2. destruct (encrypt_on_list _ _ _ _) as [a2 []]; cbn [snd] in *; try congruence.
    destruct (transfer_list _ _ _) as [[? ?] []]; [|discriminate]. destruct (transfer_list _ _ _) as [[? ?] ?]. discriminate. }
  unfold keyring_on_encrypt. cbn [raw_multi multi_keyring kr_encrypt]. destruct (multi_on_encrypt _ _ _ _ _) as [a' rc]. cbn [snd] in ND.
  destruct (ka_key a), (ka_edks a), rc, (ka_key a'); cbn [snd]; try congruence; match goal with |- context [if ?c then _ else _] => destruct c end; cbn; congruence.
Qed.
Lemma multi_dec_defined : forall cr rs x l mem edks ctx alg d, suite alg -> snd (keyring_on_decrypt (raw_multi cr rs x l mem) edks ctx alg d) <> KrUB.
Proof.
  intros cr rs x l mem edks ctx alg d SU. unfold keyring_on_decrypt. destruct (da_key d); [discriminate|].
  cbn [raw_multi multi_keyring kr_decrypt]. unfold multi_on_decrypt. cbn [m_generator m_children].
  pose proof (list_dec_defined cr rs (x :: l) edks ctx alg d KrOk SU ltac:(discriminate)) as ND. cbn [map] in ND.
  destruct (decrypt_on_list _ _ _ _ _ _) as [d' rc]. cbn [snd] in ND. destruct rc, (da_key d'); cbn [snd]; try congruence;
    match goal with |- context [if ?c then _ else _] => destruct c end; cbn; congruence.
Qed.

Lemma C70_raw_lemma : forall cr rs x y alg, crypto_sizes cr -> crypto_bytes cr -> rsa_bytes rs -> suite alg ->
  raw_ok (fst x) -> kenv_ok (snd x) -> raw_ok (fst y) ->
  tidy (raw_keyring cr rs x) alg 1 /\
  (crypto_works cr -> kenv_works (snd x) -> can_wrap rs (fst x) -> wraps (raw_keyring cr rs x) alg) /\
  (dec_inverts cr -> counterpart rs (fst x) (fst y) -> kenv_works (snd y) -> recovers (raw_keyring cr rs x) (raw_keyring cr rs y) alg) /\
  (forall ctx a, snd (keyring_on_encrypt (raw_keyring cr rs x) ctx alg a) <> KrUB) /\
  (forall edks ctx d, snd (keyring_on_decrypt (raw_keyring cr rs y) edks ctx alg d) <> KrUB).
Proof.
  intros cr rs x y alg CS CB RB SU X1 X2 Y. split; [apply raw_tidy; auto|]. split; [intros; apply raw_wraps; auto; repeat split; auto; apply X2|].
  split; [intros; apply raw_recovers; auto|]. split; intros; [apply raw_enc_defined|apply raw_dec_defined]; auto.
Qed.
Lemma C70_multi_lemma : forall cr rs x l mem y ys mem2 alg, crypto_sizes cr -> crypto_bytes cr -> rsa_bytes rs -> suite alg ->
  Forall (fun x => raw_ok (fst x) /\ kenv_ok (snd x)) (x :: l) -> Forall (fun y => raw_ok (fst y)) (y :: ys) ->
  (Nlen (x :: l) <= 65535 -> tidy (raw_multi cr rs x l mem) alg (Nlen (x :: l))) /\
  (crypto_works cr -> Forall (wrapper rs) (x :: l) -> mm_init mem = None -> (forall n, mm_edks mem n = true) -> wraps (raw_multi cr rs x l mem) alg) /\
  (dec_inverts cr -> rights rs (x :: l) (y :: ys) -> recovers (raw_multi cr rs x l mem) (raw_multi cr rs y ys mem2) alg) /\
  (dec_inverts cr -> rights rs (x :: l) [y] -> recovers (raw_multi cr rs x l mem) (raw_keyring cr rs y) alg) /\
  (forall ctx a, snd (keyring_on_encrypt (raw_multi cr rs x l mem) ctx alg a) <> KrUB) /\
  (forall edks ctx d, snd (keyring_on_decrypt (raw_multi cr rs y ys mem2) edks ctx alg d) <> KrUB).
Proof.
  intros cr rs x l mem y ys mem2 alg CS CB RB SU X Y. split; [intros; apply multi_tidy; auto|]. split; [intros; apply multi_wraps; auto|].
  split; [intros; apply multi_recovers; auto|]. split; [intros; apply multi_raw_recovers; auto; inversion Y; auto|].
  split; intros; [apply multi_enc_defined|apply multi_dec_defined]; auto.
Qed.
