(** The MRK-aware keyring: which EDKs it tries, what it accepts, encryption; the multi-keyring builder. *)
From Verif Require Import Base AlgModel EncCtxModel HdrModel CryptoModel SessionModel KeyringModel KmsModel WireSpec SessionSpec KeyringSpec KmsSpec
  BaseProofs SessionBase KeyringProofs ArnProofs KmsProofs.
From Coq Require Import String Lia ZArith ZifyBool ZifyNat ZifyN Permutation.
Import List.
Open Scope list_scope.
Open Scope N_scope.

Lemma carries_spec : forall e a, arn_parse (edk_provider_info e) = Some a -> edk_provider_id e = text "aws-kms" ->
  (is_valid_arn a && starts_with (arn_resource a) (c_str "key") = true
   <-> carries_key_arn e (arn_partition a) (arn_region a) (arn_account a) (arn_resource a)).
Proof.
  intros e a P PR. rewrite c_str_text, andb_true_iff, (is_valid_arn_spec _ _ P). unfold valid_arn, carries_key_arn. split.
  - intros [[K (ty & id & R & T & F)] SW]. split; [exact PR|]. split; [exact K|].
    apply starts_with_spec in SW. destruct SW as [t SW]. pose proof R as (n & m & E & NT & TN & IN & IH).
    assert (n = 0%nat). { destruct n; auto. rewrite E in SW. discriminate. } subst n. cbn [slashes repeat app] in E.
    destruct T as [->| ->]; [rewrite E in SW; discriminate|]. exists id, m. auto.
  - intros (_ & K & id & m & E & IN & IH & IF). split; [split; [exact K|]|apply starts_with_spec; eauto].
    exists (text "key"), id. split; [|auto]. exists 0%nat, m. split; [exact E|]. split; [vm_compute; intuition discriminate|]. split; [easy|]. auto.
Qed.
Lemma carries_arn : forall e p r ac res, carries_key_arn e p r ac res -> arn_parse (edk_provider_info e) = Some (mk_arn p (text "kms") r ac res).
Proof. intros e p r ac res (_ & [K _] & _). now apply arn_parse_spec. Qed.

Lemma carries_mrk_same : forall e p r ac res, carries_key_arn e p r ac res ->
  (is_kms_mrk_identifier (edk_provider_info e) = true <-> mrk_arn (edk_provider_info e) p r ac res).
Proof.
  intros e p r ac res C. apply carries_arn in C. split.
  - intros H. pose proof (mrk_parsed _ _ C H) as M. exact M.
  - apply mrk_arn_id.
Qed.

Lemma filter_spec : forall (fo : option dfilter) s p sv r ac res, is_arn s p sv r ac res ->
  (match fo with Some f => negb (is_authorized f s) | None => false end = false
   <-> (forall f, fo = Some f -> p = df_partition f /\ In ac (df_accounts f))).
Proof.
  intros fo s p sv r ac res A. destruct fo as [f|]; [|split; [discriminate|auto]]. rewrite negb_false_iff, is_authorized_spec. split.
  - intros (p' & sv' & r' & ac' & res' & A' & E & I) f' X. injection X as <-. destruct (is_arn_unique _ _ _ _ _ _ _ _ _ _ _ A A') as (-> & _ & _ & -> & _). auto.
  - intros H. destruct (H f eq_refl) as [-> I]. unfold filter_allows. eauto 10.
Qed.

Lemma replace_region_text : forall p r ac res region,
  replace_arn_region (mk_arn p (text "kms") r ac res) region = text "arn:" ++ p ++ text ":kms:" ++ region ++ text ":" ++ ac ++ text ":" ++ res.
Proof. intros. unfold replace_arn_region. cbn [arn_partition arn_service arn_account arn_resource]. rewrite c_str_text. reflexivity. Qed.

Lemma mrk_select_spec : forall k e reg key, mrk_select k e = Some (reg, key) <-> mrk_eligible k e reg key.
Proof.
  intros k e reg key. unfold mrk_select. rewrite provider_text. split.
  - intros H. destruct (bytes_eqb (edk_provider_id e) (text "aws-kms")) eqn:E1; [|discriminate]. apply bytes_eqb_spec in E1. cbn [negb] in H.
    destruct (arn_parse (edk_provider_info e)) as [a|] eqn:P; [|discriminate].
    destruct (is_valid_arn a) eqn:V; [|discriminate]. destruct (starts_with (arn_resource a) (c_str "key")) eqn:SW; [|discriminate]. cbn [negb orb] in H.
    assert (C : carries_key_arn e (arn_partition a) (arn_region a) (arn_account a) (arn_resource a)) by (apply carries_spec; auto; now rewrite V, SW).
    pose proof C as C2. apply carries_arn in C2. rewrite P in C2. injection C2 as C2. pose proof C as [_ [[A _] _]].
    pose proof (carries_mrk_same _ _ _ _ _ C) as CM. set (info := edk_provider_info e) in *.
    destruct (is_empty (mk_id k)) eqn:DI.
    + apply is_empty_true in DI. destruct (is_kms_mrk_identifier info) eqn:M; cbn [negb andb] in H.
      * destruct (match mk_filt k with Some f => negb (is_authorized f info) | None => false end) eqn:F; [discriminate|].
        injection H as <- <-. eapply discovery_mrk; eauto; [now apply CM|eapply filter_spec; eauto|]. rewrite C2 at 1. apply replace_region_text.
      * destruct (bytes_eqb (mk_region k) (arn_region a)) eqn:R; cbn [negb] in H; [|discriminate].
        destruct (match mk_filt k with Some f => negb (is_authorized f info) | None => false end) eqn:F; [discriminate|].
        injection H as <- <-. apply bytes_eqb_spec in R. rewrite R. eapply discovery_single; eauto; [eapply filter_spec; eauto|].
        intros MM. apply CM in MM. congruence.
    + apply is_empty_spec in DI. destruct (is_kms_mrk_identifier info) eqn:M; cbn [negb] in H.
      * destruct (kms_mrk_match_for_decrypt (mk_id k) info) eqn:MT; cbn [negb] in H; [|discriminate]. injection H as <- <-.
        apply C48_match_lemma in MT. destruct MT as [E|RL].
        -- rewrite E, P. rewrite <- E. eapply strict_same; eauto.
        -- destruct RL as (p & r1 & r2 & ac & res & M1 & M2). rewrite (mrk_arn_parse _ _ _ _ _ M1). cbn [arn_region].
           eapply strict_related; eauto; [exists p, r1, r2, ac, res; auto|]. destruct M1 as [K _]. exact K.
      * destruct (bytes_eqb (mk_id k) info) eqn:E; cbn [negb] in H; [|discriminate]. injection H as <- <-. apply bytes_eqb_spec in E.
        rewrite E, P. rewrite <- E. eapply strict_same; eauto.
  - intros H.
    assert (G : exists p r ac res, carries_key_arn e p r ac res) by (inversion H; eauto 6).
    destruct G as (p & r & ac & res & C). pose proof C as (E1 & [A _] & _). pose proof (carries_arn _ _ _ _ _ C) as P.
    pose proof (proj2 (carries_spec _ _ P E1) C) as V. apply andb_prop in V. destruct V as [V SW]. cbn [arn_resource] in SW.
    rewrite E1, bytes_eqb_refl. cbn [negb]. rewrite P, V. cbn [arn_resource arn_region]. rewrite SW. cbn [negb orb].
    pose proof (carries_mrk_same _ _ _ _ _ C) as CM.
    assert (U : forall p' r' ac' res', carries_key_arn e p' r' ac' res' -> p' = p /\ r' = r /\ ac' = ac /\ res' = res).
    { intros p' r' ac' res' C'. destruct C' as (_ & [A' _] & _). destruct (is_arn_unique _ _ _ _ _ _ _ _ _ _ _ A' A) as (? & _ & ? & ? & ?). auto. }
    inversion H as [p1 r1 ac1 res1 NE C1 EQ T1 T2|p1 r1 ac1 res1 p2 r2 ac2 res2 NE C1 RL KA T1 T2|p1 r1 ac1 res1 NE C1 RE FI NM T1 T2|p1 r1 ac1 res1 key1 NE C1 MM FI KE T1 T2]; destruct (U _ _ _ _ C1) as (-> & -> & -> & ->); try rewrite <- T2.
    + apply is_empty_spec in NE. rewrite NE. destruct (is_kms_mrk_identifier (edk_provider_info e)) eqn:M; cbn [negb].
      * assert (MT : kms_mrk_match_for_decrypt (mk_id k) (edk_provider_info e) = true) by (apply C48_match_lemma; left; congruence). rewrite MT. cbn [negb].
        now rewrite <- EQ, P.
      * rewrite <- EQ at 1. rewrite bytes_eqb_refl. cbn [negb]. now rewrite <- EQ, P.
    + apply is_empty_spec in NE. rewrite NE.
      assert (M : is_kms_mrk_identifier (edk_provider_info e) = true). { destruct RL as (p1 & q1 & q2 & ac1 & res1 & M1 & M2). eapply mrk_arn_id; eauto. }
      rewrite M. cbn [negb]. assert (MT : kms_mrk_match_for_decrypt (mk_id k) (edk_provider_info e) = true) by (apply C48_match_lemma; auto). rewrite MT. cbn [negb].
      destruct KA as [KA _]. pose proof (proj2 (arn_parse_spec _ (mk_arn p2 (text "kms") reg ac2 res2)) KA) as PK. now rewrite PK.
    + rewrite NE. cbn [is_empty]. assert (M : is_kms_mrk_identifier (edk_provider_info e) = false) by (apply not_true_iff_false; intros X; apply CM in X; auto).
      rewrite M, <- RE, bytes_eqb_refl. cbn [negb andb]. pose proof (proj2 (filter_spec _ _ _ _ _ _ _ A) FI) as F. rewrite F. reflexivity.
    + rewrite NE. cbn [is_empty]. pose proof (proj2 CM MM) as M. rewrite M. cbn [negb andb].
      pose proof (proj2 (filter_spec _ _ _ _ _ _ _ A) FI) as F. rewrite F. rewrite replace_region_text, T2, KE. reflexivity.
Qed.

(** ** Decryption *)
Lemma mrk_loop_asks : forall k ev ctx len edks f i log r, mrk_dec_loop k ev ctx len f i edks = (log, r) ->
  forall rq ans, In (rq, ans) log -> exists e, In e edks /\ mrk_eligible k e (kq_region rq) (kq_key rq) /\
    rq = decrypt_request (mk_grants k) ctx e (kq_region rq) (kq_key rq).
Proof.
  induction edks as [|e edks IH]; intros f i log r H rq ans I; cbn [mrk_dec_loop] in H.
  - injection H as <- <-. destruct I.
  - assert (REC : forall f' lg r', mrk_dec_loop k ev ctx len f' (S i) edks = (lg, r') -> In (rq, ans) lg -> exists e0, In e0 (e :: edks) /\ mrk_eligible k e0 (kq_region rq) (kq_key rq) /\
      rq = decrypt_request (mk_grants k) ctx e0 (kq_region rq) (kq_key rq)).
    { intros f' lg r' L I'. destruct (IH _ _ _ _ L _ _ I') as (e0 & I0 & X). exists e0. split; [now right|exact X]. }
    destruct (mrk_select k e) as [[reg key]|] eqn:S1; [|eauto].
    destruct (kv_client ev i reg); cbn [negb] in H; [|eauto].
    apply mrk_select_spec in S1. fold (decrypt_request (mk_grants k) ctx e reg key) in H.
    assert (ME : forall a', In (rq, ans) [(decrypt_request (mk_grants k) ctx e reg key, a')] -> exists e0, In e0 (e :: edks) /\ mrk_eligible k e0 (kq_region rq) (kq_key rq) /\
      rq = decrypt_request (mk_grants k) ctx e0 (kq_region rq) (kq_key rq)).
    { intros a' [X|[]]. injection X as <- _. exists e. split; [now left|]. split; [exact S1|reflexivity]. }
    assert (BOTH : forall f' a' lg r', mrk_dec_loop k ev ctx len f' (S i) edks = (lg, r') -> In (rq, ans) ((decrypt_request (mk_grants k) ctx e reg key, a') :: lg) ->
      exists e0, In e0 (e :: edks) /\ mrk_eligible k e0 (kq_region rq) (kq_key rq) /\ rq = decrypt_request (mk_grants k) ctx e0 (kq_region rq) (kq_key rq)).
    { intros f' a' lg r' L [X|I']; [apply (ME a'); now left|eauto]. }
    destruct (kv_call ev i _) as [x|].
    + destruct len as [n|]; [|assert (log = [(decrypt_request (mk_grants k) ctx e reg key, Some x)]) by congruence; subst log; eauto].
      destruct (negb (Nlen (kx_plain x) =? n) || negb (bytes_eqb (kx_key x) key)).
      * destruct (mrk_dec_loop k ev ctx (Some n) true (S i) edks) as [lg r'] eqn:L.
        assert (log = (decrypt_request (mk_grants k) ctx e reg key, Some x) :: lg) by congruence. subst log. eauto.
      * assert (log = [(decrypt_request (mk_grants k) ctx e reg key, Some x)]) by congruence; subst log; eauto.
    + destruct (mrk_dec_loop k ev ctx len (if is_empty (mk_id k) then f else true) (S i) edks) as [lg r'] eqn:L.
      assert (log = (decrypt_request (mk_grants k) ctx e reg key, None) :: lg) by congruence. subst log. eauto.
Qed.

(** [rejected_answer] for a length that may be missing. *)
Definition rejected (len : option N) (c : kms_call) : Prop :=
  match snd c with None => True | Some x => exists n, len = Some n /\ (Nlen (kx_plain x) <> n \/ kx_key x <> kq_key (fst c)) end.

Lemma mrk_loop_answers : forall k ev ctx len edks f i log r, mrk_dec_loop k ev ctx len f i edks = (log, r) ->
  match r with
  | MkNone f' => Forall (rejected len) log /\ (f' = true <-> f = true \/ Exists (counted_failure k) log)
  | MkFound info plain => exists log' rq x e, log = log' ++ [(rq, Some x)] /\ Forall (rejected len) log' /\ kx_key x = kq_key rq /\
      len = Some (Nlen plain) /\ plain = kx_plain x /\ In e edks /\ info = edk_provider_info e /\ kq_op rq = OpDecrypt (edk_ciphertext e)
  | MkUB => len = None /\ exists log' rq x, log = log' ++ [(rq, Some x)] /\ Forall (rejected len) log'
  end.
Proof.
  induction edks as [|e edks IH]; intros f i log r H; cbn [mrk_dec_loop] in H.
  - injection H as <- <-. split; [constructor|]. split; [auto|intros [X|X]; [exact X|inversion X]].
  - assert (REC : forall f' lg r', mrk_dec_loop k ev ctx len f' (S i) edks = (lg, r') -> match r' with
      | MkNone f'' => Forall (rejected len) lg /\ (f'' = true <-> f' = true \/ Exists (counted_failure k) lg)
      | MkFound info plain => exists log' rq x e0, lg = log' ++ [(rq, Some x)] /\ Forall (rejected len) log' /\ kx_key x = kq_key rq /\
          len = Some (Nlen plain) /\ plain = kx_plain x /\ In e0 (e :: edks) /\ info = edk_provider_info e0 /\ kq_op rq = OpDecrypt (edk_ciphertext e0)
      | MkUB => len = None /\ exists log' rq x, lg = log' ++ [(rq, Some x)] /\ Forall (rejected len) log'
      end).
    { intros f' lg r' L. apply IH in L. destruct r'; auto. destruct L as (l' & rq & x & e0 & E1 & E2 & E3 & E4 & E5 & E6 & E7 & E8). exists l', rq, x, e0. cbn. auto 12. }
    assert (STEP : forall c f' lg r', rejected len c -> (f' = true <-> f = true \/ counted_failure k c) -> mrk_dec_loop k ev ctx len f' (S i) edks = (lg, r') -> match r' with
      | MkNone f'' => Forall (rejected len) (c :: lg) /\ (f'' = true <-> f = true \/ Exists (counted_failure k) (c :: lg))
      | MkFound info plain => exists log' rq x e0, c :: lg = log' ++ [(rq, Some x)] /\ Forall (rejected len) log' /\ kx_key x = kq_key rq /\
          len = Some (Nlen plain) /\ plain = kx_plain x /\ In e0 (e :: edks) /\ info = edk_provider_info e0 /\ kq_op rq = OpDecrypt (edk_ciphertext e0)
      | MkUB => len = None /\ exists log' rq x, c :: lg = log' ++ [(rq, Some x)] /\ Forall (rejected len) log'
      end).
    { intros c f' lg r' RJ F L. apply REC in L. destruct r' as [f''|info plain|].
      - destruct L as [A B]. split; [constructor; auto|]. rewrite B, F, Exists_cons. tauto.
      - destruct L as (l' & rq & x & e0 & E1 & E2 & E). exists (c :: l'), rq, x, e0. split; [cbn; now f_equal|]. split; [constructor; auto|exact E].
      - destruct L as (E0 & l' & rq & x & E1 & E2). split; auto. exists (c :: l'), rq, x. split; [cbn; now f_equal|]. constructor; auto. }
    destruct (mrk_select k e) as [[reg key]|] eqn:S1; [|now apply REC in H].
    destruct (kv_client ev i reg); cbn [negb] in H; [|now apply REC in H].
    fold (decrypt_request (mk_grants k) ctx e reg key) in H.
    destruct (kv_call ev i _) as [x|].
    + destruct len as [n|].
      2:{ injection H as <- <-. split; auto. exists [], (decrypt_request (mk_grants k) ctx e reg key), x. split; auto. }
      destruct (negb (Nlen (kx_plain x) =? n) || negb (bytes_eqb (kx_key x) key)) eqn:RJ.
      * destruct (mrk_dec_loop k ev ctx (Some n) true (S i) edks) as [lg r'] eqn:L. injection H as <- <-. eapply STEP; [| |exact L].
        -- cbn. exists n. split; auto. apply orb_prop in RJ. destruct RJ as [RJ|RJ]; [left; lia|right]. apply negb_true_iff in RJ. now apply bytes_eqb_false in RJ.
        -- split; auto. intros _. right. left. easy.
      * injection H as <- <-. apply orb_false_elim in RJ. destruct RJ as [R1 R2]. apply negb_false_iff in R1. apply negb_false_iff in R2.
        apply N.eqb_eq in R1. apply bytes_eqb_spec in R2. exists [], (decrypt_request (mk_grants k) ctx e reg key), x, e.
        cbn. rewrite R1. auto 12.
    + destruct (mrk_dec_loop k ev ctx len (if is_empty (mk_id k) then f else true) (S i) edks) as [lg r'] eqn:L. injection H as <- <-.
      eapply STEP; [exact Logic.I| |exact L]. unfold counted_failure. cbn [snd]. destruct (is_empty (mk_id k)) eqn:EM.
      * apply is_empty_true in EM. rewrite EM. split; [auto|]. intros [X|[X|X]]; congruence.
      * apply is_empty_spec in EM. split; auto.
Qed.

Lemma mrk_loop_complete : forall k ev ctx len edks f i log r, mrk_dec_loop k ev ctx len f i edks = (log, r) ->
  exists tried rest, edks = tried ++ rest /\
    (forall j e reg key, nth_error tried j = Some e -> mrk_eligible k e reg key -> kv_client ev (i + j) reg = true ->
       exists ans, In (decrypt_request (mk_grants k) ctx e reg key, ans) log) /\
    match r with MkNone _ => rest = [] | _ => rest <> [] end.
Proof.
  induction edks as [|e edks IH]; intros f i log r H; cbn [mrk_dec_loop] in H.
  - injection H as <- <-. exists [], []. split; auto. split; auto. intros j e reg key J. now destruct j.
  - assert (STEP : forall f' lg r' c, mrk_dec_loop k ev ctx len f' (S i) edks = (lg, r') ->
      (forall reg key, mrk_eligible k e reg key -> kv_client ev i reg = true -> exists ans, In (decrypt_request (mk_grants k) ctx e reg key, ans) (c ++ lg)) ->
      exists tried rest, e :: edks = tried ++ rest /\
      (forall j e0 reg key, nth_error tried j = Some e0 -> mrk_eligible k e0 reg key -> kv_client ev (i + j) reg = true ->
         exists ans, In (decrypt_request (mk_grants k) ctx e0 reg key, ans) (c ++ lg)) /\
      match r' with MkNone _ => rest = [] | _ => rest <> [] end).
    { intros f' lg r' c L NC. destruct (IH _ _ _ _ L) as (tr & rs & E1 & E2 & E3). exists (e :: tr), rs. split; [cbn; now f_equal|]. split; auto.
      intros j e0 reg key J El C. destruct j as [|j].
      - injection J as <-. rewrite Nat.add_0_r in C. eauto.
      - rewrite Nat.add_succ_r, <- Nat.add_succ_l in C. destruct (E2 _ _ _ _ J El C) as [ans I]. exists ans. apply in_or_app. now right. }
    assert (STOP : forall lg : list kms_call, match r with MkNone _ => False | _ => True end -> exists tried rest, e :: edks = tried ++ rest /\
      (forall j e0 reg key, nth_error tried j = Some e0 -> mrk_eligible k e0 reg key -> kv_client ev (i + j) reg = true ->
         exists ans, In (decrypt_request (mk_grants k) ctx e0 reg key, ans) lg) /\
      match r with MkNone _ => rest = [] | _ => rest <> [] end).
    { intros lg X. exists [], (e :: edks). split; auto. split; [intros j e0 reg key J; now destruct j|]. destruct r; easy. }
    destruct (mrk_select k e) as [[reg key]|] eqn:S1.
    2:{ apply (STEP f _ _ [] H). intros reg key El. apply mrk_select_spec in El. congruence. }
    assert (UN : forall reg' key', mrk_eligible k e reg' key' -> reg' = reg /\ key' = key).
    { intros reg' key' El. apply mrk_select_spec in El. rewrite S1 in El. injection El as <- <-. auto. }
    destruct (kv_client ev i reg) eqn:CL; cbn [negb] in H.
    2:{ apply (STEP f _ _ [] H). intros reg' key' El C. destruct (UN _ _ El) as [-> ->]. congruence. }
    fold (decrypt_request (mk_grants k) ctx e reg key) in H.
    assert (HEAD : forall (ans : option kms_result) (lg : list kms_call) reg' key', mrk_eligible k e reg' key' -> kv_client ev i reg' = true ->
       exists ans', In (decrypt_request (mk_grants k) ctx e reg' key', ans') ([(decrypt_request (mk_grants k) ctx e reg key, ans)] ++ lg)).
    { intros ans lg reg' key' El _. destruct (UN _ _ El) as [-> ->]. exists ans. now left. }
    destruct (kv_call ev i _) as [x|].
    + destruct len as [n|]; [|injection H as <- <-; now apply STOP].
      destruct (negb (Nlen (kx_plain x) =? n) || negb (bytes_eqb (kx_key x) key)); [|injection H as <- <-; now apply STOP].
      destruct (mrk_dec_loop k ev ctx (Some n) true (S i) edks) as [lg r'] eqn:L. injection H as <- <-.
      apply (STEP true lg r' [(decrypt_request (mk_grants k) ctx e reg key, Some x)] L). apply HEAD.
    + destruct (mrk_dec_loop k ev ctx len (if is_empty (mk_id k) then f else true) (S i) edks) as [lg r'] eqn:L. injection H as <- <-.
      apply (STEP _ lg r' [(decrypt_request (mk_grants k) ctx e reg key, None)] L). apply HEAD.
Qed.

Lemma lookup_len : forall alg p, alg_lookup alg = Some p -> suite alg /\ ap_content_key_len p = suite_key_len alg /\ ap_data_key_len p = suite_key_len alg.
Proof. intros alg p L. destruct (suite_lookup _ _ L) as (S1 & _). destruct (suite_facts _ _ L) as (_ & A & B & _). auto. Qed.
Lemma key_len_nz : forall alg, suite_key_len alg <> 0.
Proof. intros alg. unfold suite_key_len. repeat match goal with |- context [if ?b then _ else _] => destruct b end; discriminate. Qed.
Lemma lookup_none : forall alg, alg_lookup alg = None -> ~ suite alg.
Proof. intros alg L S1. apply lookup_suite in S1. destruct S1 as [p X]. congruence. Qed.
Definition mrk_len (alg : N) : option N := match alg_lookup alg with Some p => Some (ap_content_key_len p) | None => None end.
Lemma rejected_spec : forall alg c, rejected (mrk_len alg) c -> rejected_answer alg c.
Proof.
  intros alg c. unfold rejected, rejected_answer, mrk_len. destruct (snd c) as [x|]; auto. intros (n & L & R).
  destruct (alg_lookup alg) as [p|] eqn:A; [|discriminate]. destruct (lookup_len _ _ A) as (S1 & C & _). injection L as <-. rewrite C in R. auto.
Qed.

Lemma key_empty_None : forall o, da_key o = None -> is_empty (key_bytes (da_key o)) = true. Proof. now intros o ->. Qed.

Lemma C49_idle_lemma : forall k ev edks ctx alg a log a' rc b, mrk_on_decrypt k ev edks ctx alg a = (log, (a', rc)) ->
  da_key a = Some b -> kb_bytes b <> [] -> log = [] /\ a' = a /\ rc = KrOk.
Proof.
  intros k ev edks ctx alg a log a' rc b H K N. unfold mrk_on_decrypt in H. rewrite K in H. cbn [key_bytes] in H.
  apply is_empty_spec in N. rewrite N in H. cbn [negb] in H. split; [congruence|]. split; congruence.
Qed.

Lemma C49_asks_lemma : forall k ev edks ctx alg a log a' rc, mrk_on_decrypt k ev edks ctx alg a = (log, (a', rc)) ->
  forall rq ans, In (rq, ans) log -> exists e, In e edks /\ mrk_eligible k e (kq_region rq) (kq_key rq) /\
    rq = mk_kms_request (kq_region rq) (kq_key rq) (OpDecrypt (edk_ciphertext e)) ctx (mk_grants k).
Proof.
  intros k ev edks ctx alg a log a' rc H rq ans I. unfold mrk_on_decrypt in H. destruct (negb (is_empty (key_bytes (da_key a)))).
  - assert (log = []) by congruence. subst log. destruct I.
  - match type of H with context [mrk_dec_loop k ev ctx ?L false 0 edks] => destruct (mrk_dec_loop k ev ctx L false 0 edks) as [lg r] eqn:L1 end.
    assert (lg = log) by congruence. subst lg. destruct (mrk_loop_asks _ _ _ _ _ _ _ _ _ L1 _ _ I) as (e & X). exists e. exact X.
Qed.

Lemma C49_answer_lemma : forall k ev edks ctx alg a log a' rc, mrk_on_decrypt k ev edks ctx alg a = (log, (a', rc)) -> da_key a = None ->
  match da_key a' with
  | Some b => rc = KrOk /\ exists log' rq x, log = log' ++ [(rq, Some x)] /\ Forall (rejected_answer alg) log' /\ kx_key x = kq_key rq /\
      kx_plain x = kb_bytes b /\ Nlen (kb_bytes b) = suite_key_len alg /\ suite alg
  | None => (Forall (rejected_answer alg) log /\ a' = a /\ rc = KrErr E_KMS_FAILURE /\ Exists (counted_failure k) log)
            \/ (Forall (rejected_answer alg) log /\ a' = a /\ rc = KrOk /\ ~ Exists (counted_failure k) log)
            \/ (exists e, kv_fail ev 0 = Some e /\ rc = KrErr e)
            \/ (~ suite alg /\ rc = KrUB /\ exists log' rq x, log = log' ++ [(rq, Some x)])
  end.
Proof.
  intros k ev edks ctx alg a log a' rc H KN. unfold mrk_on_decrypt in H. rewrite KN in H. cbn [key_bytes is_empty negb] in H.
  fold (mrk_len alg) in H. destruct (mrk_dec_loop k ev ctx (mrk_len alg) false 0 edks) as [lg r] eqn:L1.
  assert (lg = log) by congruence. subst lg. apply mrk_loop_answers in L1. destruct r as [f|info plain|].
  - destruct L1 as [A B]. assert (a' = a) by congruence. subst a'. rewrite KN. assert (RJ : Forall (rejected_answer alg) log) by (eapply Forall_impl; [|exact A]; apply rejected_spec).
    destruct f.
    + left. split; auto. split; auto. split; [congruence|]. destruct B as [B _]. destruct (B eq_refl) as [X|X]; [discriminate|exact X].
    + right. left. split; auto. split; auto. split; [congruence|]. intros X. destruct B as [_ B]. discriminate B; auto.
  - destruct L1 as (log' & rq & x & e & E1 & E2 & E3 & E4 & E5 & _). destruct (kv_fail ev 0) as [er|].
    + assert (a' = mk_dargs None (da_trace a)) by congruence. subst a'. cbn [da_key]. right. right. left. exists er. split; congruence.
    + unfold mrk_len in E4. destruct (alg_lookup alg) as [p|] eqn:A; [|discriminate]. destruct (lookup_len _ _ A) as (S1 & C & _). injection E4 as E4. rewrite C in E4.
      assert (D : exists b, dup_key (kv_meta ev) plain = Some b /\ kb_bytes b = plain).
      { destruct plain as [|y pl]; [|eexists; split; reflexivity]. now destruct (key_len_nz alg). }
      destruct D as (b & D & DB). rewrite D in H. assert (KA : da_key a' = Some b) by (injection H as <- _; reflexivity). rewrite KA.
      split; [congruence|]. exists log', rq, x. split; auto. split; [|rewrite DB, <- E4; auto].
      eapply Forall_impl; [|exact E2]. intros c R. apply rejected_spec. exact R.
  - destruct L1 as (E0 & log' & rq & x & E1 & _). assert (a' = a) by congruence. subst a'. rewrite KN. right. right. right.
    split; [|split; [congruence|eauto]]. apply lookup_none. unfold mrk_len in E0. now destruct (alg_lookup alg).
Qed.

Lemma C49_complete_lemma : forall k ev edks ctx alg a log a' rc, mrk_on_decrypt k ev edks ctx alg a = (log, (a', rc)) -> da_key a = None -> da_key a' = None -> suite alg -> kv_fail ev 0 = None ->
  forall j e reg key, nth_error edks j = Some e -> mrk_eligible k e reg key -> kv_client ev j reg = true ->
    exists ans, In (decrypt_request (mk_grants k) ctx e reg key, ans) log.
Proof.
  intros k ev edks ctx alg a log a' rc H KN KN' SU KF j e reg key J El C. unfold mrk_on_decrypt in H. rewrite KN in H. cbn [key_bytes is_empty negb] in H.
  fold (mrk_len alg) in H. destruct (mrk_dec_loop k ev ctx (mrk_len alg) false 0 edks) as [lg r] eqn:L1.
  assert (lg = log) by congruence. subst lg. destruct (mrk_loop_complete _ _ _ _ _ _ _ _ _ L1) as (tr & rs & E1 & E2 & E3).
  apply mrk_loop_answers in L1. destruct r as [f|info plain|].
  - subst rs. rewrite app_nil_r in E1. subst tr. eauto.
  - exfalso. rewrite KF in H. destruct L1 as (_ & _ & _ & _ & _ & _ & _ & E4 & _). unfold mrk_len in E4.
    destruct (alg_lookup alg) as [p|] eqn:A; [|discriminate]. destruct (lookup_len _ _ A) as (S1 & C1 & _). injection E4 as E4. rewrite C1 in E4.
    destruct plain as [|y pl]; [now destruct (key_len_nz alg)|].
    injection H as <- _. discriminate.
  - destruct L1 as [L1 _]. unfold mrk_len in L1. apply lookup_suite in SU. destruct SU as [p SU]. rewrite SU in L1. discriminate.
Qed.

(** ** Encryption *)
Lemma valid_key_arn_spec : forall s, is_valid_kms_key_arn s = true <-> valid_key_arn s.
Proof.
  intros s. unfold is_valid_kms_key_arn, valid_key_arn. destruct (arn_parse s) as [a|] eqn:P.
  - rewrite (is_valid_arn_spec _ _ P). unfold valid_arn. split.
    + intros (K & ty & id & R & T & F). exists (arn_partition a), (arn_region a), (arn_account a), (arn_resource a), ty, id. auto.
    + intros (p & r & ac & res & ty & id & K & R & T & F). pose proof K as [A _].
      pose proof (proj2 (arn_parse_spec s (mk_arn p (text "kms") r ac res)) A) as P2. rewrite P in P2. injection P2 as P2. subst a. cbn. split; eauto 10.
  - split; [discriminate|]. intros (p & r & ac & res & ty & id & [A _] & _).
    pose proof (proj2 (arn_parse_spec s (mk_arn p (text "kms") r ac res)) A) as P2. congruence.
Qed.
Lemma parse_region_or_none : forall s, region_or_none s (parse_region s).
Proof.
  intros s. unfold region_or_none. destruct (parse_region s) as [|x t] eqn:P.
  - right. split; auto. intros r R. apply parse_region_spec in R. destruct R as [E N]. congruence.
  - left. rewrite <- P. apply region_names. now rewrite P.
Qed.
Lemma add_record_true : forall t p n f, add_record true t p n f = t ++ [mk_trace_rec p n f]. Proof. reflexivity. Qed.

Lemma C58_success_lemma : forall k ev ctx alg a log a', mrk_on_encrypt k ev ctx alg a = (log, (a', KrOk)) ->
  mk_id k <> [] /\ exists reg x, region_or_none (mk_id k) reg /\ valid_key_arn (kx_key x) /\ ka_edks a' = ka_edks a ++ [answer_edk x] /\
  match ka_key a with
  | Some b => log = [(mk_kms_request reg (mk_id k) (OpEncrypt (kb_bytes b)) ctx (mk_grants k), Some x)] /\ ka_key a' = Some b
  | None => suite alg /\ log = [(mk_kms_request reg (mk_id k) (OpGenerate (suite_key_len alg)) ctx (mk_grants k), Some x)] /\
      Nlen (kx_plain x) = suite_key_len alg /\ ka_key a' = Some (mk_kbuf (kv_meta ev) (kx_plain x))
  end /\
  (kv_record ev 0 = true -> (forall n, kv_trace ev n = true) ->
     ka_trace a' = ka_trace a ++ [mk_trace_rec (text "aws-kms") (key_name (mk_id k)) (match ka_key a with Some _ => 10 | None => 11 end)]).
Proof.
  intros k ev ctx alg a log a' H. unfold mrk_on_encrypt in H. destruct (is_empty (mk_id k)) eqn:EM; [congruence|]. apply is_empty_spec in EM. split; auto.
  destruct (kv_fail ev 0); [congruence|]. destruct (kv_fail ev 1); [congruence|].
  exists (parse_region (mk_id k)). pose proof (parse_region_or_none (mk_id k)) as RN. destruct (ka_key a) as [b|] eqn:KA.
  - destruct (kv_client ev 0 (parse_region (mk_id k))); cbn [negb] in H; [|congruence].
    set (rq := mk_kms_request (parse_region (mk_id k)) (mk_id k) (OpEncrypt (kb_bytes b)) ctx (mk_grants k)) in *.
    destruct (kv_call ev 0 rq) as [x|]; [|congruence]. destruct (is_valid_kms_key_arn (kx_key x)) eqn:V; cbn [negb] in H; [|congruence].
    apply valid_key_arn_spec in V. unfold append_edk in H. destruct (kv_fail ev 4); [congruence|]. cbn [app] in H. assert (LG : log = [(rq, Some x)]) by congruence.
    match type of H with context [kms_finish ev a ?K ?O ?E ?T KrOk] => assert (F : kms_finish ev a K O E T KrOk = (a', KrOk)) by congruence end.
    apply finish_ok in F. destruct F as (_ & KK & EE & TT). exists x. split; auto. split; auto. split; [exact EE|]. split; [auto|].
    intros R T. rewrite TT by exact T. rewrite R, c_string_name. reflexivity.
  - destruct (alg_lookup alg) as [p|] eqn:AL; [|congruence]. destruct (lookup_len _ _ AL) as (SU & CL & DL). rewrite DL, CL in H.
    destruct (kv_client ev 0 (parse_region (mk_id k))); cbn [negb] in H; [|congruence].
    set (rq := mk_kms_request (parse_region (mk_id k)) (mk_id k) (OpGenerate (suite_key_len alg)) ctx (mk_grants k)) in *.
    destruct (kv_call ev 0 rq) as [x|]; [|congruence]. destruct (Nlen (kx_plain x) =? suite_key_len alg) eqn:LN; cbn [negb] in H; [|congruence]. apply N.eqb_eq in LN.
    destruct (is_valid_kms_key_arn (kx_key x)) eqn:V; cbn [negb] in H; [|congruence]. apply valid_key_arn_spec in V. unfold append_edk in H.
    destruct (kv_fail ev 2); [congruence|]. cbn [app] in H. destruct (kv_fail ev 3); [congruence|]. assert (LG : log = [(rq, Some x)]) by congruence.
    match type of H with context [kms_finish ev a ?K ?O ?E ?T KrOk] => assert (F : kms_finish ev a K O E T KrOk = (a', KrOk)) by congruence end.
    apply finish_ok in F. destruct F as (_ & KK & EE & TT). exists x. split; auto. split; auto. split; [exact EE|]. split.
    + split; auto. split; auto. split; auto. rewrite KK. destruct (kx_plain x); [|reflexivity].
      now destruct (key_len_nz alg).
    + intros R T. rewrite TT by exact T. rewrite R, c_string_name. reflexivity.
Qed.

Lemma C58_failure_lemma : forall k ev ctx alg a log a' e, mrk_on_encrypt k ev ctx alg a = (log, (a', KrErr e)) ->
  (forall n, kv_edks ev n = true) -> a' = a.
Proof.
  intros k ev ctx alg a log a' e H G. unfold mrk_on_encrypt in H. destruct (is_empty (mk_id k)); [congruence|].
  destruct (kv_fail ev 0); [congruence|]. destruct (kv_fail ev 1); [congruence|]. destruct (ka_key a) as [b|] eqn:KA.
  - destruct (kv_client ev 0 (parse_region (mk_id k))); cbn [negb] in H; [|congruence].
    destruct (kv_call ev 0 _) as [x|]; [|congruence]. destruct (is_valid_kms_key_arn (kx_key x)); cbn [negb] in H; [|congruence].
    unfold append_edk in H. destruct (kv_fail ev 4); [congruence|].
    match type of H with context [kms_finish ev a ?K ?O ?E ?T KrOk] => assert (F : kms_finish ev a K O E T KrOk = (a', KrErr e)) by congruence end.
    apply finish_err in F; auto. rewrite F, <- KA. now destruct a.
  - destruct (alg_lookup alg) as [p|] eqn:AL; [|congruence]. destruct (kv_client ev 0 (parse_region (mk_id k))); cbn [negb] in H; [|congruence].
    destruct (kv_call ev 0 _) as [x|]; [|congruence]. destruct (Nlen (kx_plain x) =? _); cbn [negb] in H; [|congruence].
    destruct (is_valid_kms_key_arn (kx_key x)); cbn [negb] in H; [|congruence]. unfold append_edk in H.
    destruct (kv_fail ev 2); [congruence|]. destruct (kv_fail ev 3); [congruence|].
    match type of H with context [kms_finish ev a ?K ?O ?E ?T KrOk] => assert (F : kms_finish ev a K O E T KrOk = (a', KrErr e)) by congruence end.
    apply finish_err in F; auto. rewrite F, <- KA. now destruct a.
Qed.

Lemma C58_no_ub_lemma : forall k ev ctx alg a log a' rc, mrk_on_encrypt k ev ctx alg a = (log, (a', rc)) -> rc <> KrUB.
Proof.
  intros k ev ctx alg a log a' rc H U. subst rc. unfold mrk_on_encrypt in H. destruct (is_empty (mk_id k)); [congruence|].
  destruct (kv_fail ev 0); [congruence|]. destruct (kv_fail ev 1); [congruence|]. destruct (ka_key a) as [b|] eqn:KA.
  - destruct (kv_client ev 0 (parse_region (mk_id k))); cbn [negb] in H; [|congruence].
    destruct (kv_call ev 0 _) as [x|]; [|congruence]. destruct (is_valid_kms_key_arn (kx_key x)); cbn [negb] in H; [|congruence].
    unfold append_edk in H. destruct (kv_fail ev 4); [congruence|].
    match type of H with context [kms_finish ev a ?K ?O ?E ?T KrOk] => assert (F : kms_finish ev a K O E T KrOk = (a', KrUB)) by congruence end.
    apply finish_ub in F; auto. discriminate.
  - destruct (alg_lookup alg) as [p|] eqn:AL; [|congruence]. destruct (kv_client ev 0 (parse_region (mk_id k))); cbn [negb] in H; [|congruence].
    destruct (kv_call ev 0 _) as [x|]; [|congruence]. destruct (Nlen (kx_plain x) =? _); cbn [negb] in H; [|congruence].
    destruct (is_valid_kms_key_arn (kx_key x)); cbn [negb] in H; [|congruence]. unfold append_edk in H.
    destruct (kv_fail ev 2); [congruence|]. destruct (kv_fail ev 3); [congruence|].
    match type of H with context [kms_finish ev a ?K ?O ?E ?T KrOk] => assert (F : kms_finish ev a K O E T KrOk = (a', KrUB)) by congruence end.
    apply finish_ub in F; auto. discriminate.
Qed.

(** ** The builders *)
Lemma contains_spec : forall c s, contains c s = true <-> In c s.
Proof.
  intros c s. unfold contains. destruct (cut c s) as [[a b]|] eqn:C.
  - apply cut_some in C. destruct C as [-> _]. split; auto. intros _. apply in_or_app. right. now left.
  - apply cut_none in C. split; [discriminate|contradiction].
Qed.
Lemma valid_identifier_spec : forall s, is_valid_kms_identifier s = true <-> valid_identifier s.
Proof.
  intros s. unfold is_valid_kms_identifier, valid_identifier. destruct (is_valid_kms_key_arn s) eqn:V.
  - apply valid_key_arn_spec in V. split; auto.
  - assert (NV : ~ valid_key_arn s) by (intros X; apply valid_key_arn_spec in X; congruence).
    destruct (contains COLON s) eqn:C.
    + apply contains_spec in C. split; [discriminate|]. intros [X|[X _]]; contradiction.
    + assert (NC : ~ In 58 s) by (intros X; apply contains_spec in X; unfold COLON in C; congruence). destruct (contains SLASH s) eqn:SL.
      * apply contains_spec in SL. rewrite c_str_text, starts_with_spec. split; [intros X; right; auto|]. intros [X|[_ X]]; [contradiction|auto].
      * assert (NS : ~ In 47 s) by (intros X; apply contains_spec in X; unfold SLASH in SL; congruence). split; auto. intros _. right. split; auto. contradiction.
Qed.

Lemma mrk_build_spec : forall grants id, mrk_build grants id = Some (mk_mrk id [] None grants) /\ id <> [] /\ valid_identifier id \/
  mrk_build grants id = None /\ (id = [] \/ ~ valid_identifier id).
Proof.
  intros grants id. unfold mrk_build. destruct (is_empty id) eqn:E; cbn [orb].
  - apply is_empty_true in E. auto.
  - apply is_empty_spec in E. destruct (is_valid_kms_identifier id) eqn:V; cbn [negb].
    + apply valid_identifier_spec in V. auto.
    + right. split; auto. right. intros X. apply valid_identifier_spec in X. congruence.
Qed.
Lemma C49_built_lemma : forall grants id k, mrk_build grants id = Some k <-> id <> [] /\ valid_identifier id /\ k = mk_mrk id [] None grants.
Proof.
  intros grants id k. destruct (mrk_build_spec grants id) as [(E & A & B)|(E & F)]; rewrite E; split.
  - intros X. injection X as <-. auto.
  - intros (_ & _ & ->). reflexivity.
  - discriminate.
  - intros (A & B & _). destruct F as [F|F]; contradiction.
Qed.
Lemma C49_discovery_built_lemma : forall grants region f k, mrk_build_discovery grants region f = Some k <-> region <> [] /\ k = mk_mrk [] region f grants.
Proof.
  intros grants [|x region] f k; cbn; split.
  - discriminate.
  - intros [X _]. contradiction.
  - intros X. injection X as <-. split; [discriminate|reflexivity].
  - intros [_ ->]. reflexivity.
Qed.

Lemma mrk_children_some : forall client grants ids i ks, mrk_children client grants i ids = Some ks ->
  ks = map (fun id => mk_mrk id [] None grants) ids /\ forall s, In s ids -> s <> [] /\ valid_identifier s /\ exists r, names_region s r.
Proof.
  induction ids as [|id ids IH]; intros i ks H; cbn [mrk_children] in H.
  - injection H as <-. split; auto. intros s [].
  - destruct (is_empty (parse_region id)) eqn:E; cbn [orb] in H; [discriminate|]. apply is_empty_spec in E.
    destruct (client i (parse_region id)); cbn [negb] in H; [|discriminate].
    destruct (mrk_build_spec grants id) as [(B & N & V)|(B & _)]; rewrite B in H; [|discriminate].
    destruct (mrk_children client grants (S i) ids) as [ks'|] eqn:C; [|discriminate]. injection H as <-. apply IH in C. destruct C as [-> C].
    split; auto. intros s [<-|I]; auto. split; auto. split; auto. exists (parse_region id). now apply region_names.
Qed.
Lemma mrk_children_ok : forall client grants ids i, (forall n r, client n r = true) ->
  (forall s, In s ids -> s <> [] /\ valid_identifier s /\ exists r, names_region s r) -> exists ks, mrk_children client grants i ids = Some ks.
Proof.
  induction ids as [|id ids IH]; intros i CL H; cbn [mrk_children]; [eauto|].
  destruct (H id (or_introl eq_refl)) as (N & V & r & R). apply parse_region_spec in R. destruct R as [-> NR]. apply is_empty_spec in NR. rewrite NR, CL. cbn [orb negb].
  destruct (mrk_build_spec grants id) as [(B & _)|(B & X)]; [|exfalso; destruct X; contradiction]. rewrite B.
  destruct (IH (S i) CL) as [ks K]; [intros s I; apply H; now right|]. rewrite K. eauto.
Qed.

Lemma existsb_empty : forall ids, existsb is_empty ids = false <-> ~ In [] ids.
Proof.
  intros ids. rewrite <- not_true_iff_false, existsb_exists. split; intros H X; apply H.
  - exists []. auto.
  - destruct X as (x & I & E). apply is_empty_true in E. now subst.
Qed.

Lemma C50_builder_lemma : forall client grants gen ids, (forall n r, client n r = true) ->
  (forall s, In s (all_ids gen ids) -> ~ In 255 s) ->
  (mrk_multi_build client grants gen ids <> None <->
    all_ids gen ids <> [] /\ (forall s, In s (all_ids gen ids) -> s <> [] /\ valid_identifier s) /\
    (forall s, In s ids -> exists r, names_region s r) /\ ~ exists id, same_mrk_twice (all_ids gen ids) id).
Proof.
  intros client grants gen ids CL NF. rewrite <- (duplicates_exist _ NF). unfold mrk_multi_build. fold (all_ids gen ids).
  assert (DL : Nat.ltb 0 (length (find_duplicate_kms_mrk_ids (all_ids gen ids))) = true <-> find_duplicate_kms_mrk_ids (all_ids gen ids) <> []).
  { rewrite Nat.ltb_lt. destruct (find_duplicate_kms_mrk_ids (all_ids gen ids)); cbn; split; intros X; try lia; try easy. }
  destruct (match gen with Some g => is_empty g | None => false end) eqn:EG.
  { split; [easy|]. intros (_ & V & _). exfalso. destruct gen as [g|]; [|discriminate]. apply is_empty_true in EG. subst g. destruct (V []); [now left|easy]. }
  destruct (existsb is_empty ids) eqn:EI.
  { split; [easy|]. intros (_ & V & _). exfalso. apply existsb_exists in EI. destruct EI as (s & I & E). apply is_empty_true in E. subst s.
    destruct (V []) as [X _]; [|now apply X]. destruct gen; [now right|exact I]. }
  apply existsb_empty in EI.
  destruct (match all_ids gen ids with [] => true | _ :: _ => false end) eqn:EA.
  { split; [easy|]. intros (X & _). destruct (all_ids gen ids); easy. }
  destruct (Nat.ltb 0 _) eqn:D.
  { split; [easy|]. intros (_ & _ & _ & X). exfalso. apply X. now apply DL. }
  assert (ND : ~ find_duplicate_kms_mrk_ids (all_ids gen ids) <> []) by (intros X; apply DL in X; congruence). clear DL D.
  assert (NA : all_ids gen ids <> []) by now destruct (all_ids gen ids).
  destruct gen as [g|]; cbn [all_ids] in *.
  - rewrite CL. cbn [negb]. apply is_empty_spec in EG. destruct (mrk_build_spec grants g) as [(B & _ & V)|(B & [X|X])]; rewrite B; [|contradiction|].
    + destruct (mrk_children client grants 1 ids) as [ks|] eqn:C.
      * split; [|easy]. intros _. apply mrk_children_some in C. destruct C as [_ C]. split; auto. split; [|split; auto].
        -- intros s [<-|I]; auto. destruct (C _ I) as (? & ? & _). auto.
        -- intros s I. now destruct (C _ I) as (_ & _ & R).
      * split; [easy|]. intros (_ & A & R & _). destruct (mrk_children_ok client grants ids 1 CL) as [ks K]; [|congruence].
        intros s I. destruct (A s (or_intror I)). auto.
    + split; [easy|]. intros (_ & A & _). destruct (A g (or_introl eq_refl)). contradiction.
  - destruct (mrk_children client grants 1 ids) as [ks|] eqn:C.
    + split; [|easy]. intros _. apply mrk_children_some in C. destruct C as [_ C]. split; auto. split; [|split; auto].
      * intros s I. destruct (C _ I) as (? & ? & _). auto.
      * intros s I. now destruct (C _ I) as (_ & _ & R).
    + split; [easy|]. intros (_ & A & R & _). destruct (mrk_children_ok client grants ids 1 CL) as [ks K]; [|congruence].
      intros s I. destruct (A s I). auto.
Qed.

Lemma C50_content_lemma : forall client grants gen ids og ks, mrk_multi_build client grants gen ids = Some (og, ks) ->
  og = match gen with Some g => Some (mk_mrk g [] None grants) | None => None end /\ ks = map (fun id => mk_mrk id [] None grants) ids /\
  ((forall s, In s (all_ids gen ids) -> ~ In 255 s) -> ~ exists id, same_mrk_twice (all_ids gen ids) id).
Proof.
  intros client grants gen ids og ks H. unfold mrk_multi_build in H. fold (all_ids gen ids) in H.
  destruct (match gen with Some g => is_empty g | None => false end); [discriminate|]. destruct (existsb is_empty ids); [discriminate|].
  destruct (match all_ids gen ids with [] => true | _ :: _ => false end); [discriminate|]. destruct (Nat.ltb 0 _) eqn:D; [discriminate|].
  assert (ND : (forall s, In s (all_ids gen ids) -> ~ In 255 s) -> ~ exists id, same_mrk_twice (all_ids gen ids) id).
  { intros NF T. apply (duplicates_exist _ NF) in T. apply Nat.ltb_ge in D. destruct (find_duplicate_kms_mrk_ids (all_ids gen ids)); [easy|cbn in D; lia]. }
  destruct gen as [g|].
  - destruct (client 0%nat (parse_region g)); cbn [negb] in H; [|discriminate].
    destruct (mrk_build_spec grants g) as [(B & _)|(B & _)]; rewrite B in H; [|discriminate].
    destruct (mrk_children client grants 1 ids) as [ks'|] eqn:C; [|discriminate]. injection H as <- <-. apply mrk_children_some in C. destruct C as [-> _]. auto.
  - destruct (mrk_children client grants 1 ids) as [ks'|] eqn:C; [|discriminate]. injection H as <- <-. apply mrk_children_some in C. destruct C as [-> _]. auto.
Qed.

Lemma children_perm : forall client grants ids ids' i j, (forall n r, client n r = true) -> Permutation ids ids' ->
  mrk_children client grants i ids <> None -> mrk_children client grants j ids' <> None.
Proof.
  intros client grants ids ids' i j CL P H. destruct (mrk_children client grants i ids) as [ks|] eqn:C; [|easy]. apply mrk_children_some in C. destruct C as [_ C].
  destruct (mrk_children_ok client grants ids' j CL) as [ks' K]; [|congruence]. intros s I. apply C. eapply Permutation_in; [symmetry|]; eauto.
Qed.
Lemma find_dup_perm : forall ids ids', Permutation ids ids' -> find_duplicate_kms_mrk_ids ids = [] -> find_duplicate_kms_mrk_ids ids' = [].
Proof.
  intros ids ids' P E. destruct (find_duplicate_kms_mrk_ids ids') as [|s l] eqn:F; auto.
  assert (I : In s (find_duplicate_kms_mrk_ids ids')) by (rewrite F; now left). apply (duplicates_perm _ _ P) in I. rewrite E in I. destruct I.
Qed.
Lemma C50_order_half : forall client grants gen ids ids', (forall n r, client n r = true) -> Permutation ids ids' ->
  mrk_multi_build client grants gen ids <> None -> mrk_multi_build client grants gen ids' <> None.
Proof.
  intros client grants gen ids ids' CL P H. unfold mrk_multi_build in *.
  destruct (match gen with Some g => is_empty g | None => false end); [easy|].
  destruct (existsb is_empty ids) eqn:E1; [easy|].
  assert (E1' : existsb is_empty ids' = false). { apply existsb_empty. apply existsb_empty in E1. intros I. apply E1. eapply Permutation_in; [symmetry|]; eauto. }
  rewrite E1'. fold (all_ids gen ids) in H. fold (all_ids gen ids').
  assert (PA : Permutation (all_ids gen ids) (all_ids gen ids')) by (destruct gen; cbn; auto).
  destruct (match all_ids gen ids with [] => true | _ :: _ => false end) eqn:E2; [easy|].
  assert (E2' : match all_ids gen ids' with [] => true | _ :: _ => false end = false).
  { destruct (all_ids gen ids'); auto. apply Permutation_sym, Permutation_nil in PA. now rewrite PA in E2. }
  rewrite E2'. destruct (Nat.ltb 0 (length (find_duplicate_kms_mrk_ids (all_ids gen ids)))) eqn:E3; [easy|].
  assert (E3' : find_duplicate_kms_mrk_ids (all_ids gen ids') = []).
  { eapply find_dup_perm; [exact PA|]. apply Nat.ltb_ge in E3. destruct (find_duplicate_kms_mrk_ids (all_ids gen ids)); [auto|cbn in E3; lia]. }
  rewrite E3'. cbn [length Nat.ltb Nat.leb]. pose proof (children_perm client grants _ _ 1 1 CL P) as CP. destruct gen as [g|].
  - destruct (client 0%nat (parse_region g)); cbn [negb] in *; [|easy]. destruct (mrk_build grants g); [|easy].
    destruct (mrk_children client grants 1 ids) as [ks|]; [|easy]. destruct (mrk_children client grants 1 ids') as [ks'|]; [easy|]. exfalso. now apply CP.
  - destruct (mrk_children client grants 1 ids) as [ks|]; [|easy]. destruct (mrk_children client grants 1 ids') as [ks'|]; [easy|]. exfalso. now apply CP.
Qed.
Lemma C50_order_lemma : forall client grants gen ids ids', (forall n r, client n r = true) -> Permutation ids ids' ->
  (mrk_multi_build client grants gen ids = None <-> mrk_multi_build client grants gen ids' = None).
Proof.
  intros client grants gen ids ids' CL P. split; intros H.
  - destruct (mrk_multi_build client grants gen ids') eqn:E; auto. exfalso. eapply (C50_order_half client grants gen ids' ids); eauto; [now symmetry|congruence].
  - destruct (mrk_multi_build client grants gen ids) eqn:E; auto. exfalso. eapply (C50_order_half client grants gen ids ids'); eauto. congruence.
Qed.

(** ** Round trips *)
Lemma kms_loop_finds : forall k ev ctx p edks i, (forall j r, kv_client ev j r = true) ->
  (forall e r j, In e edks -> kms_eligible k e r ->
     exists y, kv_call ev j (decrypt_request (kk_grants k) ctx e r (edk_provider_info e)) = Some y /\ kx_key y = edk_provider_info e /\ kx_plain y = p) ->
  (exists e r, In e edks /\ kms_eligible k e r) ->
  exists log e, kms_dec_loop k ev ctx i edks = (log, DcFound (edk_provider_info e) p) /\ In e edks.
Proof.
  induction edks as [|e edks IH]; intros i CL H X; [destruct X as (e & r & [] & _)|]. cbn [kms_dec_loop].
  destruct (kms_select k e) as [r|] eqn:S1.
  - rewrite CL. cbn [negb]. apply kms_select_spec in S1. destruct (H e r i (or_introl eq_refl) S1) as (y & C & K & P).
    unfold decrypt_request in C. rewrite C, K, bytes_eqb_refl, P. do 2 eexists. split; [reflexivity|now left].
  - destruct X as (e0 & r & [<-|I] & El); [apply kms_select_spec in El; congruence|].
    destruct (IH (S i) CL) as (log & e1 & L & I1); [intros; apply H; [now right|auto]|eauto|]. exists log, e1. split; auto. now right.
Qed.

Lemma calls_in : forall grants ctx plain ids xs log x, encrypt_calls grants ctx plain ids xs log -> In x xs ->
  exists rq id, In (rq, Some x) log /\ In id ids /\ kq_key rq = id /\ kq_op rq = OpEncrypt plain /\ kq_ctx rq = ctx.
Proof.
  intros grants ctx plain ids xs log x [F L] I. revert ids log F L. induction xs as [|y xs IH]; intros ids log F L; [destruct I|].
  destruct ids as [|id ids]; [discriminate|]. cbn in L. injection L as L. cbn [combine] in F. inversion F as [|c q lg rest (A & B & C) F']; subst. cbn in A, B, C.
  destruct I as [<-|I].
  - exists (fst c), id. destruct c as [rq ans]. cbn in *. subst ans. split; [now left|]. split; [now left|]. rewrite B. auto.
  - destruct (IH I _ _ F' L) as (rq & id' & I1 & I2 & R). exists rq, id'. split; [now right|]. split; [now right|exact R].
Qed.
Lemma calls_each : forall grants ctx plain ids xs log id, encrypt_calls grants ctx plain ids xs log -> In id ids ->
  exists rq x, In (rq, Some x) log /\ In x xs /\ kq_key rq = id.
Proof.
  intros grants ctx plain ids xs log id [F L] I. revert xs log F L. induction ids as [|i ids IH]; intros xs log F L; [destruct I|].
  destruct xs as [|x xs]; [discriminate|]. cbn in L. injection L as L. cbn [combine] in F. inversion F as [|c q lg rest (A & B & C) F']; subst. cbn in A, B, C.
  destruct I as [<-|I].
  - exists (fst c), x. destruct c as [rq ans]. cbn in *. subst ans. split; [now left|]. split; [now left|]. now rewrite B.
  - destruct (IH I _ _ F' L) as (rq & x' & I1 & I2 & R). exists rq, x'. split; [now right|]. split; [now right|exact R].
Qed.

(** What a successful encryption leaves: for every key an EDK, each from a call that wrapped the data key. *)
Lemma kms_encrypted : forall k ev ctx alg a log a' b, kms_on_encrypt k ev ctx alg a = (log, (a', KrOk)) -> kms_built k -> kk_ids k <> [] ->
  ka_edks a = [] -> ka_key a' = Some b -> names_key log ->
  (forall e, In e (ka_edks a') -> exists rq x, In (rq, Some x) log /\ e = answer_edk x /\ wrapped_plain rq x = Some (kb_bytes b) /\ kq_ctx rq = ctx /\ In (kx_key x) (kk_ids k)) /\
  (forall id, In id (kk_ids k) -> exists x, In (answer_edk x) (ka_edks a') /\ kx_key x = id).
Proof.
  intros k ev ctx alg a log a' b H B NE E K NK. pose proof (C47_success_lemma _ _ _ _ _ _ _ H B) as P. destruct (kk_ids k) as [|gen others]; [easy|].
  destruct (ka_key a) as [b0|].
  - destruct P as (xs & EC & K' & E'). rewrite K in K'. injection K' as <-. rewrite E, app_nil_l in E'. rewrite E'. split.
    + intros e I. apply in_map_iff in I. destruct I as (x & <- & I). destruct (calls_in _ _ _ _ _ _ _ EC I) as (rq & id & I1 & I2 & KQ & OP & CX).
      exists rq, x. split; auto. split; auto. split; [unfold wrapped_plain; now rewrite OP|]. split; auto. rewrite (NK _ _ I1), KQ. exact I2.
    + intros id I. destruct (calls_each _ _ _ _ _ _ _ EC I) as (rq & x & I1 & I2 & KQ). exists x. split; [now apply in_map|]. now rewrite (NK _ _ I1).
  - destruct P as (reg & x0 & xs & log' & NR & L & EC & K' & E'). rewrite K in K'. assert (KB : kb_bytes b = kx_plain x0) by (destruct (kx_plain x0); [discriminate|injection K' as ->; reflexivity]).
    rewrite E, app_nil_l in E'. rewrite E'. rewrite <- KB in EC.
    assert (KX0 : kx_key x0 = gen) by (match type of L with log = (?q, _) :: _ => apply (NK q) end; rewrite L; now left). split.
    + intros e [<-|I].
      * eexists _, x0. split; [rewrite L; now left|]. split; auto. split; [cbn; now rewrite KB|]. split; auto.
        rewrite KX0. now left.
      * apply in_map_iff in I. destruct I as (x & <- & I). destruct (calls_in _ _ _ _ _ _ _ EC I) as (rq & id & I1 & I2 & KQ & OP & CX).
        assert (I3 : In (rq, Some x) log) by (rewrite L; now right).
        exists rq, x. split; auto. split; auto. split; [unfold wrapped_plain; now rewrite OP|]. split; auto. right. rewrite (NK _ _ I3), KQ. exact I2.
    + intros id [<-|I].
      * exists x0. split; [now left|exact KX0].
      * destruct (calls_each _ _ _ _ _ _ _ EC I) as (rq & x & I1 & I2 & KQ). exists x. split; [right; now apply in_map|].
        rewrite <- KQ. apply NK. rewrite L. now right.
Qed.

Lemma C59_kms_lemma : forall k1 k2 ev1 ev2 ctx alg a log a' b t s, kms_on_encrypt k1 ev1 ctx alg a = (log, (a', KrOk)) ->
  kms_built k1 -> ka_edks a = [] -> ka_key a' = Some b -> kb_bytes b <> [] ->
  In s (kk_ids k1) -> kms_permits k2 s -> names_key log -> honest_kms log ev2 -> calm ev2 ->
  exists log2 d, kms_on_decrypt k2 ev2 (ka_edks a') ctx alg (mk_dargs None t) = (log2, (d, KrOk)) /\ da_key d = Some (mk_kbuf (kv_meta ev2) (kb_bytes b)).
Proof.
  intros k1 k2 ev1 ev2 ctx alg a log a' b t s H B E K NB IS PS NK HK (CL & KF & _).
  assert (NE : kk_ids k1 <> []) by (intros X; rewrite X in IS; destruct IS).
  destruct (kms_encrypted _ _ _ _ _ _ _ _ H B NE E K NK) as [A1 A2].
  destruct (kms_loop_finds k2 ev2 ctx (kb_bytes b) (ka_edks a') 0 CL) as (log2 & e & L & _).
  - intros e r j I El. destruct (A1 _ I) as (rq & x & IL & -> & W & CX & _).
    apply (HK rq x (kb_bytes b) j (decrypt_request (kk_grants k2) ctx (answer_edk x) r (edk_provider_info (answer_edk x))) IL W); auto.
  - destruct (A2 _ IS) as (x & I & KX). destruct (B _ IS) as [r R]. exists (answer_edk x), r. split; auto. split; [reflexivity|]. cbn [answer_edk edk_provider_info].
    rewrite KX. split; auto.
  - exists log2. unfold kms_on_decrypt. rewrite L, KF. eexists. split; [reflexivity|]. cbn [da_key]. unfold dup_key. now destruct (kb_bytes b).
Qed.

Lemma eligible_key : forall k e reg key, mrk_eligible k e reg key -> (mk_id k = [] -> mk_region k <> [] /\ ~ In 58 (mk_region k)) ->
  key = edk_provider_info e \/ related_mrk key (edk_provider_info e).
Proof.
  intros k e reg key H RG. destruct H as [p r ac res N C E|p r ac res p' r' ac' res' N C R K|p r ac res N C E F M|p r ac res key N C M F E]; auto.
  right. destruct (RG N) as [R1 R2]. pose proof M as M2. destruct M2 as [[[_ (A1 & A2 & A3 & A4)] (B1 & B2 & B3)] RS]. exists p, (mk_region k), r, ac, res. split; auto.
  split; [|exact RS]. split; [|auto]. split; [|auto]. rewrite E. reflexivity.
Qed.

Lemma C59_mrk_lemma : forall k1 k2 ev1 ev2 ctx alg a log a' b t e reg key, mrk_on_encrypt k1 ev1 ctx alg a = (log, (a', KrOk)) ->
  suite alg -> ka_key a' = Some b -> Nlen (kb_bytes b) = suite_key_len alg -> ka_edks a' = ka_edks a ++ [e] ->
  mrk_eligible k2 e reg key -> (mk_id k2 = [] -> mk_region k2 <> [] /\ ~ In 58 (mk_region k2)) -> honest_kms log ev2 -> calm ev2 ->
  exists log2 d, mrk_on_decrypt k2 ev2 [e] ctx alg (mk_dargs None t) = (log2, (d, KrOk)) /\ da_key d = Some (mk_kbuf (kv_meta ev2) (kb_bytes b)).
Proof.
  intros k1 k2 ev1 ev2 ctx alg a log a' b t e reg key H SU K LN E El RG HK (CL & KF & _).
  destruct (C58_success_lemma _ _ _ _ _ _ _ H) as (_ & rg & x & RN & _ & EE & P & _). rewrite E in EE. apply app_inv_head in EE. injection EE as ->.
  assert (W : exists rq, log = [(rq, Some x)] /\ wrapped_plain rq x = Some (kb_bytes b) /\ kq_ctx rq = ctx).
  { destruct (ka_key a) as [b0|].
    - destruct P as [-> K']. rewrite K in K'. injection K' as <-. eexists. split; [reflexivity|]. auto.
    - destruct P as (_ & -> & _ & K'). rewrite K in K'. injection K' as ->. eexists. split; [reflexivity|]. auto. }
  destruct W as (rq & -> & W & CX). pose proof (eligible_key _ _ _ _ El RG) as KR.
  destruct (HK rq x (kb_bytes b) 0%nat (decrypt_request (mk_grants k2) ctx (answer_edk x) reg key) (or_introl eq_refl) W) as (y & CALL & KY & PY); auto.
  apply mrk_select_spec in El. unfold mrk_on_decrypt. cbn [da_key key_bytes is_empty negb mrk_dec_loop]. rewrite El, CL. cbn [negb].
  unfold decrypt_request in CALL. rewrite CALL. destruct (lookup_suite _ SU) as [p AL]. rewrite AL. destruct (lookup_len _ _ AL) as (_ & CK & _).
  rewrite CK, PY, LN, N.eqb_refl, KY. cbn [kq_key decrypt_request]. rewrite bytes_eqb_refl. cbn [negb orb]. rewrite KF. do 2 eexists. split; [reflexivity|]. cbn [da_key].
  unfold dup_key. destruct (kb_bytes b) as [|c l]; [|reflexivity]. now destruct (key_len_nz alg).
Qed.

(** ** Trace and lists *)
Lemma names_map : forall n ids, map (fun id => mk_trace_rec (text "aws-kms") (c_string id) n) ids = map (fun id => mk_trace_rec (text "aws-kms") (key_name id) n) ids.
Proof. intros n ids. apply map_ext. intros id. now rewrite c_string_name. Qed.
Lemma C47_trace_lemma : forall k ev ctx alg a log a', kms_on_encrypt k ev ctx alg a = (log, (a', KrOk)) -> kms_built k ->
  (forall n, kv_record ev n = true) -> (forall n, kv_trace ev n = true) ->
  ka_trace a' = ka_trace a ++
    match kk_ids k, ka_key a with
    | gen :: others, None => mk_trace_rec (text "aws-kms") (key_name gen) 11 :: map (fun id => mk_trace_rec (text "aws-kms") (key_name id) 10) others
    | ids, _ => map (fun id => mk_trace_rec (text "aws-kms") (key_name id) 10) ids
    end.
Proof.
  intros k ev ctx alg a log a' H B RC TR. unfold kms_on_encrypt in H. unfold kms_built in B. destruct (kk_ids k) as [|gen others].
  { assert (a' = a) by congruence. subst. cbn [map]. now rewrite app_nil_r. }
  destruct (kv_fail ev 0); [congruence|]. destruct (kv_fail ev 1); [congruence|]. destruct (ka_key a) as [b|] eqn:KA.
  - destruct (kms_enc_loop k ev ctx (kb_bytes b) 0 (gen :: others) [] []) as [lg [[es ts] r]] eqn:L.
    assert (F : kms_finish ev a (Some b) (Some b) es ts r = (a', KrOk)) by congruence. clear H.
    apply finish_ok in F. destruct F as (-> & _ & _ & TT). rewrite (TT TR).
    destruct (enc_loop_spec _ _ _ _ _ _ _ _ _ _ _ _ L B) as [(_ & xs & _ & _ & T)|(e & _ & _ & _ & _ & X & _)]; [|discriminate]. rewrite (T RC), names_map. reflexivity.
  - destruct (alg_lookup alg) as [p|] eqn:AL; [|congruence]. destruct (kv_client ev 0 (parse_region gen)); cbn [negb] in H; [|congruence].
    destruct (kv_call ev 0 _) as [x|]; [|congruence]. unfold append_edk in H. destruct (kv_fail ev 2); [congruence|]. destruct (kv_fail ev 3); [congruence|].
    match type of H with context [kms_enc_loop k ev ctx ?P 1 others ?E ?T] => destruct (kms_enc_loop k ev ctx P 1 others E T) as [lg [[es ts] r]] eqn:L end.
    assert (F : kms_finish ev a (dup_key (kv_meta ev) (kx_plain x)) None es ts r = (a', KrOk)) by congruence. clear H. apply finish_ok in F. destruct F as (-> & _ & _ & TT).
    rewrite (TT TR). destruct (enc_loop_spec _ _ _ _ _ _ _ _ _ _ _ _ L) as [(_ & xs & _ & _ & T)|(e & _ & _ & _ & _ & X & _)]; [intros s I; apply B; now right| |discriminate].
    rewrite (T RC), (RC 0%nat), names_map, c_string_name. reflexivity.
Qed.

Lemma transfer_prefix : forall {A} grow (s d : list A), exists t, fst (transfer_loop grow d s) = d ++ t.
Proof.
  induction s as [|x s IH]; intros d; cbn [transfer_loop]; [exists []; cbn; now rewrite app_nil_r|]. unfold push_back. destruct (grow (length d)).
  - destruct (IH (d ++ [x])) as [t E]. exists (x :: t). rewrite E, <- app_assoc. reflexivity.
  - exists []. cbn. now rewrite app_nil_r.
Qed.
Lemma finish_appends : forall ev a key er edks trace rc a', kms_finish ev a key er edks trace rc = (a', KrOk) ->
  exists es ts, ka_edks a' = ka_edks a ++ es /\ ka_trace a' = ka_trace a ++ ts.
Proof.
  intros ev a key er edks trace rc a' H. pose proof H as F. apply finish_ok in F. destruct F as (-> & _ & E & _). unfold kms_finish in H.
  destruct (transfer_list (kv_edks ev) (ka_edks a) edks) as [[d s] ok]. destruct ok; [|discriminate]. unfold transfer_list in H.
  destruct (transfer_prefix (kv_trace ev) trace (ka_trace a)) as [t T]. destruct (transfer_loop (kv_trace ev) (ka_trace a) trace) as [d2 ok2]. cbn [fst] in T.
  exists edks, t. split; auto. destruct ok2; injection H as <-; exact T.
Qed.
Lemma kms_appends : forall k ev, appends (kms_keyring k ev).
Proof.
  intros k ev ctx alg a a' H. apply on_encrypt_inv in H. destruct H as [_ H]. destruct (H eq_refl) as ((f & E & F) & _). clear H. injection E as <-.
  unfold kms_on_encrypt in F. assert (ID : a' = a -> exists es ts, ka_edks a' = ka_edks a ++ es /\ ka_trace a' = ka_trace a ++ ts).
  { intros ->. exists [], []. rewrite !app_nil_r. auto. }
  destruct (kk_ids k) as [|gen others]; [apply ID; cbn [snd] in F; congruence|].
  destruct (kv_fail ev 0); [discriminate|]. destruct (kv_fail ev 1); [discriminate|]. destruct (ka_key a) as [b|].
  - destruct (kms_enc_loop k ev ctx (kb_bytes b) 0 (gen :: others) [] []) as [lg [[es ts] r]]. cbn [snd] in F; eapply finish_appends; exact F.
  - destruct (alg_lookup alg) as [p|]; [|discriminate]. destruct (kv_client ev 0 (parse_region gen)); cbn [negb] in F; [|discriminate].
    destruct (kv_call ev 0 _) as [x|]; [|discriminate]. unfold append_edk in F. destruct (kv_fail ev 2); [discriminate|]. destruct (kv_fail ev 3); [discriminate|].
    match type of F with context [kms_enc_loop k ev ctx ?P 1 others ?E ?T] => destruct (kms_enc_loop k ev ctx P 1 others E T) as [lg [[es ts] r]] end.
    cbn [snd] in F; eapply finish_appends; exact F.
Qed.
Lemma mrk_appends : forall k ev, appends (mrk_keyring k ev).
Proof.
  intros k ev ctx alg a a' H. apply on_encrypt_inv in H. destruct H as [_ H]. destruct (H eq_refl) as ((f & E & F) & _). clear H. injection E as <-.
  unfold mrk_on_encrypt in F. destruct (is_empty (mk_id k)); [discriminate|]. destruct (kv_fail ev 0); [discriminate|]. destruct (kv_fail ev 1); [discriminate|].
  destruct (ka_key a) as [b|].
  - destruct (kv_client ev 0 (parse_region (mk_id k))); cbn [negb] in F; [|discriminate].
    destruct (kv_call ev 0 _) as [x|]; [|discriminate]. destruct (is_valid_kms_key_arn (kx_key x)); cbn [negb] in F; [|discriminate].
    unfold append_edk in F. destruct (kv_fail ev 4); [discriminate|]. cbn [snd] in F; eapply finish_appends; exact F.
  - destruct (alg_lookup alg) as [p|]; [|discriminate]. destruct (kv_client ev 0 (parse_region (mk_id k))); cbn [negb] in F; [|discriminate].
    destruct (kv_call ev 0 _) as [x|]; [|discriminate]. destruct (Nlen (kx_plain x) =? _); cbn [negb] in F; [|discriminate].
    destruct (is_valid_kms_key_arn (kx_key x)); cbn [negb] in F; [|discriminate]. unfold append_edk in F.
    destruct (kv_fail ev 2); [discriminate|]. destruct (kv_fail ev 3); [discriminate|]. cbn [snd] in F; eapply finish_appends; exact F.
Qed.

Lemma kms_build_lemma : forall grants gen more k, kms_build grants gen more = Some k <->
  k = mk_kms (gen :: more) None grants /\ kms_built k.
Proof.
  intros grants gen more k. unfold kms_build. destruct (existsb _ (gen :: more)) eqn:E.
  - split; [discriminate|]. intros [-> B]. exfalso. apply existsb_exists in E. destruct E as (s & I & E). apply is_empty_true in E.
    destruct (B s I) as [r R]. apply parse_region_spec in R. destruct R as [R N]. congruence.
  - split.
    + intros H. injection H as <-. split; auto. intros s I. exists (parse_region s). apply region_names. intros X.
      assert (T : existsb (fun s => is_empty (parse_region s)) (gen :: more) = true) by (apply existsb_exists; exists s; split; [exact I|now rewrite X]). congruence.
    + intros [-> _]. reflexivity.
Qed.
