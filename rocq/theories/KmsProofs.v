(** The KMS keyring and the MRK-aware keyring. *)
From Verif Require Import Base AlgModel EncCtxModel HdrModel CryptoModel SessionModel KeyringModel KmsModel WireSpec SessionSpec KeyringSpec KmsSpec
  BaseProofs SessionBase KeyringProofs ArnProofs.
From Coq Require Import String Lia ZArith ZifyBool ZifyNat ZifyN Permutation.
Import List.
Open Scope list_scope.
Open Scope N_scope.

Lemma c_string_name : forall s, c_string s = key_name s.
Proof.
  intros s. unfold c_string. induction s as [|x s IH]; cbn [cut key_name]; [reflexivity|]. destruct (x =? 0); [reflexivity|].
  destruct (cut 0 s) as [[a b]|]; now rewrite <- IH.
Qed.
Lemma provider_text : KEY_PROVIDER_STR = text "aws-kms". Proof. reflexivity. Qed.

Lemma kms_select_spec : forall k e r, kms_select k e = Some r <-> kms_eligible k e r.
Proof.
  intros k e r. unfold kms_select, kms_eligible, kms_permits. rewrite provider_text. split.
  - intros H. destruct (bytes_eqb (edk_provider_id e) (text "aws-kms")) eqn:E1; [|discriminate]. apply bytes_eqb_spec in E1. cbn [negb] in H.
    destruct (match kk_ids k with [] => false | _ :: _ => negb (mem_string (edk_provider_info e) (kk_ids k)) end) eqn:E2; [discriminate|].
    destruct (match kk_filter k with Some f => negb (is_authorized f (edk_provider_info e)) | None => false end) eqn:E3; [discriminate|].
    split; [exact E1|]. split.
    + split.
      * intros NE. destruct (kk_ids k) as [|i l]; [easy|]. apply negb_false_iff in E2. now apply mem_string_spec in E2.
      * intros f F. rewrite F in E3. apply negb_false_iff in E3. now apply is_authorized_spec in E3.
    + destruct (parse_region (edk_provider_info e)) as [|x t] eqn:P; [discriminate|]. injection H as <-. rewrite <- P.
      apply region_names. now rewrite P.
  - intros (E1 & (P1 & P2) & R). rewrite E1, bytes_eqb_refl. cbn [negb].
    assert (E2 : match kk_ids k with [] => false | _ :: _ => negb (mem_string (edk_provider_info e) (kk_ids k)) end = false).
    { destruct (kk_ids k) as [|i l] eqn:I; auto. apply negb_false_iff. apply mem_string_spec. apply P1. easy. }
    rewrite E2.
    assert (E3 : match kk_filter k with Some f => negb (is_authorized f (edk_provider_info e)) | None => false end = false).
    { destruct (kk_filter k) as [f|]; auto. apply negb_false_iff. apply is_authorized_spec. auto. }
    rewrite E3. apply parse_region_spec in R. destruct R as [-> N]. now destruct r.
Qed.

(** What the loop does: a prefix of requests that failed, then an end. *)
Lemma kms_loop_spec : forall k ev ctx edks i log r, kms_dec_loop k ev ctx i edks = (log, r) ->
  (Forall (fun c => exists e, In e edks /\ kms_eligible k e (kq_region (fst c)) /\
             fst c = decrypt_request (kk_grants k) ctx e (kq_region (fst c)) (edk_provider_info e)) log) /\
  ((r = DcNone /\ Forall (fun c => snd c = None) log /\
      forall j e reg, nth_error edks j = Some e -> kms_eligible k e reg -> kv_client ev (i + j) reg = true ->
        In (decrypt_request (kk_grants k) ctx e reg (edk_provider_info e), None) log) \/
   exists log' rq x l1 e l2 reg, log = log' ++ [(rq, Some x)] /\ Forall (fun c => snd c = None) log' /\ edks = l1 ++ e :: l2 /\
     kms_eligible k e reg /\ rq = decrypt_request (kk_grants k) ctx e reg (edk_provider_info e) /\
     kv_client ev (i + length l1) reg = true /\ kv_call ev (i + length l1) rq = Some x /\
     (forall j e' reg', nth_error l1 j = Some e' -> kms_eligible k e' reg' -> kv_client ev (i + j) reg' = true ->
        In (decrypt_request (kk_grants k) ctx e' reg' (edk_provider_info e'), None) log') /\
     (r = DcFound (edk_provider_info e) (kx_plain x) /\ kx_key x = edk_provider_info e \/
      r = DcWrong /\ kx_key x <> edk_provider_info e)).
Proof.
  induction edks as [|e edks IH]; intros i log r H; cbn [kms_dec_loop] in H.
  - injection H as <- <-. split; [constructor|]. left. split; auto. split; [constructor|]. intros j e reg J. now destruct j.
  - assert (SKIP : forall (NC : forall reg, kms_eligible k e reg -> kv_client ev i reg = true -> False), kms_dec_loop k ev ctx (S i) edks = (log, r) ->
      (Forall (fun c => exists e0, In e0 (e :: edks) /\ kms_eligible k e0 (kq_region (fst c)) /\
             fst c = decrypt_request (kk_grants k) ctx e0 (kq_region (fst c)) (edk_provider_info e0)) log) /\
      ((r = DcNone /\ Forall (fun c => snd c = None) log /\
      forall j e0 reg, nth_error (e :: edks) j = Some e0 -> kms_eligible k e0 reg -> kv_client ev (i + j) reg = true ->
        In (decrypt_request (kk_grants k) ctx e0 reg (edk_provider_info e0), None) log) \/
      exists log' rq x l1 e0 l2 reg, log = log' ++ [(rq, Some x)] /\ Forall (fun c => snd c = None) log' /\ e :: edks = l1 ++ e0 :: l2 /\
     kms_eligible k e0 reg /\ rq = decrypt_request (kk_grants k) ctx e0 reg (edk_provider_info e0) /\
     kv_client ev (i + length l1) reg = true /\ kv_call ev (i + length l1) rq = Some x /\
     (forall j e' reg', nth_error l1 j = Some e' -> kms_eligible k e' reg' -> kv_client ev (i + j) reg' = true ->
        In (decrypt_request (kk_grants k) ctx e' reg' (edk_provider_info e'), None) log') /\
     (r = DcFound (edk_provider_info e0) (kx_plain x) /\ kx_key x = edk_provider_info e0 \/
      r = DcWrong /\ kx_key x <> edk_provider_info e0))).
    { intros NC L. destruct (IH _ _ _ L) as [A B]. split.
      - eapply Forall_impl; [|exact A]. intros c (e0 & I & X). exists e0. split; [now right|exact X].
      - destruct B as [(R & F & G)|(log' & rq & x & l1 & e0 & l2 & reg & E1 & E2 & E3 & E4 & E5 & E6 & E7 & E8 & E9)].
        + left. split; auto. split; auto. intros j e0 reg J El C. destruct j as [|j].
          * injection J as <-. rewrite Nat.add_0_r in C. destruct (NC _ El C).
          * apply (G j); auto. now rewrite Nat.add_succ_l, <- Nat.add_succ_r.
        + right. exists log', rq, x, (e :: l1), e0, l2, reg. split; auto. split; auto. split; [cbn; now f_equal|]. split; auto. split; auto.
          cbn [length]. rewrite Nat.add_succ_r, <- Nat.add_succ_l. split; auto. split; auto. split; auto.
          intros j e' reg' J El C. destruct j as [|j].
          * injection J as <-. rewrite Nat.add_0_r in C. destruct (NC _ El C).
          * apply (E8 j); auto. now rewrite Nat.add_succ_l, <- Nat.add_succ_r. }
    destruct (kms_select k e) as [reg|] eqn:S1.
    2:{ apply SKIP; [|exact H]. intros reg El _. apply kms_select_spec in El. congruence. }
    destruct (kv_client ev i reg) eqn:C; cbn [negb] in H.
    2:{ apply SKIP; [|exact H]. intros reg' El C'. apply kms_select_spec in El. rewrite S1 in El. injection El as <-. congruence. }
    clear SKIP. pose proof (proj1 (kms_select_spec k e reg) S1) as EL. fold (decrypt_request (kk_grants k) ctx e reg (edk_provider_info e)) in H.
    destruct (kv_call ev i (decrypt_request (kk_grants k) ctx e reg (edk_provider_info e))) as [x|] eqn:CALL.
    + injection H as <- <-. split.
      * constructor; [|constructor]. exists e. split; [now left|]. cbn. split; [exact EL|reflexivity].
      * right. exists [], (decrypt_request (kk_grants k) ctx e reg (edk_provider_info e)), x, [], e, edks, reg.
        cbn [length app]. rewrite Nat.add_0_r. split; auto. split; [constructor|]. split; auto. split; auto. split; auto. split; auto. split; auto.
        split; [intros j e' reg' J; now destruct j|]. destruct (bytes_eqb (kx_key x) (edk_provider_info e)) eqn:B.
        -- left. split; auto. now apply bytes_eqb_spec in B.
        -- right. split; auto. now apply bytes_eqb_false in B.
    + destruct (kms_dec_loop k ev ctx (S i) edks) as [log1 r1] eqn:L. injection H as <- <-. destruct (IH _ _ _ L) as [A B]. split.
      * constructor.
        -- exists e. split; [now left|]. cbn. split; [exact EL|reflexivity].
        -- eapply Forall_impl; [|exact A]. intros c (e0 & I & X). exists e0. split; [now right|exact X].
      * destruct B as [(R & F & G)|(log' & rq & x & l1 & e0 & l2 & reg0 & E1 & E2 & E3 & E4 & E5 & E6 & E7 & E8 & E9)].
        -- left. split; auto. split; [constructor; auto|]. intros j e0 reg0 J El C0. destruct j as [|j].
           ++ injection J as <-. left. f_equal. f_equal. apply kms_select_spec in El. congruence.
           ++ right. apply (G j); auto. now rewrite Nat.add_succ_l, <- Nat.add_succ_r.
        -- right. exists ((decrypt_request (kk_grants k) ctx e reg (edk_provider_info e), None) :: log'), rq, x, (e :: l1), e0, l2, reg0.
           split; [cbn; now f_equal|]. split; [constructor; auto|]. split; [cbn; now f_equal|]. split; auto. split; auto.
           cbn [length]. rewrite Nat.add_succ_r, <- Nat.add_succ_l. split; auto. split; auto. split; auto.
           intros j e' reg' J El C'. destruct j as [|j].
           ++ injection J as <-. left. f_equal. f_equal. apply kms_select_spec in El. congruence.
           ++ right. apply (E8 j); auto. now rewrite Nat.add_succ_l, <- Nat.add_succ_r.
Qed.

Lemma C46_asks_lemma : forall k ev edks ctx alg a log a' rc, kms_on_decrypt k ev edks ctx alg a = (log, (a', rc)) ->
  forall rq ans, In (rq, ans) log -> exists e, In e edks /\ edk_provider_id e = text "aws-kms" /\ kms_permits k (edk_provider_info e) /\
    names_region (edk_provider_info e) (kq_region rq) /\
    rq = mk_kms_request (kq_region rq) (edk_provider_info e) (OpDecrypt (edk_ciphertext e)) ctx (kk_grants k).
Proof.
  intros k ev edks ctx alg a log a' rc H rq ans I. unfold kms_on_decrypt in H. destruct (kms_dec_loop k ev ctx 0 edks) as [lg r] eqn:L.
  assert (lg = log) by congruence. subst lg. destruct (kms_loop_spec _ _ _ _ _ _ _ L) as [A _]. rewrite Forall_forall in A.
  destruct (A _ I) as (e & IE & (P1 & P2 & P3) & E). cbn [fst] in *. exists e. unfold decrypt_request in E. auto 10.
Qed.

Lemma dup_key_some : forall m p b, dup_key m p = Some b -> kb_bytes b = p.
Proof. intros m [|x p] b H; [discriminate|]. cbn in H. injection H as <-. reflexivity. Qed.

Lemma C46_answer_lemma : forall k ev edks ctx alg a log a' rc, kms_on_decrypt k ev edks ctx alg a = (log, (a', rc)) -> da_key a = None ->
  match da_key a' with
  | Some b => rc = KrOk /\ exists log' rq x, log = log' ++ [(rq, Some x)] /\ kx_key x = kq_key rq /\ kx_plain x = kb_bytes b
  | None => (exists log' rq x, log = log' ++ [(rq, Some x)] /\ kx_key x <> kq_key rq /\ rc = KrErr E_INVALID_STATE /\ a' = a)
            \/ (exists log' rq x, log = log' ++ [(rq, Some x)] /\ kx_key x = kq_key rq /\
                  (kx_plain x = [] /\ rc = KrOk \/ exists e, kv_fail ev 0 = Some e /\ rc = KrErr e))
            \/ (rc = KrOk /\ a' = a /\ forall rq ans, In (rq, ans) log -> ans = None)
  end.
Proof.
  intros k ev edks ctx alg a log a' rc H KN. unfold kms_on_decrypt in H. destruct (kms_dec_loop k ev ctx 0 edks) as [lg r] eqn:L.
  assert (lg = log) by congruence. subst lg. destruct (kms_loop_spec _ _ _ _ _ _ _ L) as [_ [(R & F & _)|B]].
  - subst r. assert (a' = a) by congruence. assert (rc = KrOk) by congruence. subst. rewrite KN. right. right. split; auto. split; auto.
    rewrite Forall_forall in F. intros rq ans I. apply F in I. exact I.
  - destruct B as (log' & rq & x & l1 & e & l2 & reg & E1 & E2 & E3 & E4 & E5 & E6 & E7 & E8 & [[-> K]|[-> K]]).
    + assert (KQ : kx_key x = kq_key rq) by (subst rq; exact K). clear E5. destruct (kv_fail ev 0) as [er|] eqn:KF.
      * injection H as <- <-. cbn [da_key]. right. left. exists log', rq, x. split; auto. split; auto. right. eauto.
      * injection H as <- <-. cbn [da_key]. destruct (dup_key (kv_meta ev) (kx_plain x)) as [b|] eqn:D.
        -- split; auto. exists log', rq, x. split; auto. split; auto. symmetry. now apply dup_key_some in D.
        -- right. left. exists log', rq, x. split; auto. split; auto. left. split; auto. destruct (kx_plain x); [auto|discriminate].
    + assert (KQ : kx_key x <> kq_key rq) by (subst rq; exact K). injection H as <- <-. rewrite KN. left. exists log', rq, x. auto.
Qed.


Lemma C46_complete_lemma : forall k ev edks ctx alg a log a' rc, kms_on_decrypt k ev edks ctx alg a = (log, (a', rc)) ->
  exists tried rest, edks = tried ++ rest /\
    (forall j e reg, nth_error tried j = Some e -> kms_eligible k e reg -> kv_client ev j reg = true ->
       In (decrypt_request (kk_grants k) ctx e reg (edk_provider_info e), None) log) /\
    match rest with
    | [] => forall rq ans, In (rq, ans) log -> ans = None
    | e :: _ => exists reg x log', log = log' ++ [(decrypt_request (kk_grants k) ctx e reg (edk_provider_info e), Some x)] /\ kms_eligible k e reg /\
         forall rq ans, In (rq, ans) log' -> ans = None
    end.
Proof.
  intros k ev edks ctx alg a log a' rc H. unfold kms_on_decrypt in H. destruct (kms_dec_loop k ev ctx 0 edks) as [lg r] eqn:L.
  assert (lg = log) by congruence. subst lg. destruct (kms_loop_spec _ _ _ _ _ _ _ L) as [_ [(R & F & G)|B]].
  - exists edks, []. split; [now rewrite app_nil_r|]. split; [exact G|]. rewrite Forall_forall in F. intros rq ans I. now apply F in I.
  - destruct B as (log' & rq & x & l1 & e & l2 & reg & E1 & E2 & E3 & E4 & E5 & E6 & E7 & E8 & _). exists l1, (e :: l2).
    split; auto. split.
    + intros j e' reg' J El C. rewrite E1. apply in_or_app. left. apply (E8 j); auto.
    + exists reg, x, log'. split; [now rewrite <- E5|]. split; auto. rewrite Forall_forall in E2. intros rq' ans I. now apply E2 in I.
Qed.

(** ** Encryption *)
Lemma enc_loop_spec : forall k ev ctx plain ids i edks trace log edks' trace' rc,
  kms_enc_loop k ev ctx plain i ids edks trace = (log, (edks', trace', rc)) -> (forall s, In s ids -> exists r, names_region s r) ->
  (rc = KrOk /\ exists xs, encrypt_calls (kk_grants k) ctx plain ids xs log /\ edks' = edks ++ map answer_edk xs /\
     ((forall j, kv_record ev j = true) -> trace' = trace ++ map (fun id => mk_trace_rec (text "aws-kms") (c_string id) 10) ids))
  \/ (exists e used more xs log', rc = KrErr e /\ ids = used ++ more /\ more <> [] /\ encrypt_calls (kk_grants k) ctx plain used xs log' /\
        (log = log' \/ exists rq ans, log = log' ++ [(rq, ans)] /\ kq_op rq = OpEncrypt plain /\ (ans = None -> e = E_KMS_FAILURE))).
Proof.
  induction ids as [|id ids IH]; intros i edks trace log edks' trace' rc H B; cbn [kms_enc_loop] in H.
  - injection H as <- <- <- <-. left. split; auto. exists []. split; [split; [constructor|reflexivity]|]. cbn. rewrite !app_nil_r. auto.
  - assert (NR : names_region id (parse_region id)). { destruct (B id (or_introl eq_refl)) as [r R]. pose proof R as R'. apply parse_region_spec in R. destruct R as [-> _]. exact R'. }
    destruct (kv_client ev i (parse_region id)) eqn:C; cbn [negb] in H.
    2:{ injection H as <- <- <- <-. right. exists E_BAD_STATE, [], (id :: ids), [], []. split; auto. split; auto. split; [easy|]. split; [split; [constructor|reflexivity]|auto]. }
    set (rq := mk_kms_request (parse_region id) id (OpEncrypt plain) ctx (kk_grants k)) in *.
    destruct (kv_call ev i rq) as [x|] eqn:CALL.
    2:{ injection H as <- <- <- <-. right. exists E_KMS_FAILURE, [], (id :: ids), [], []. split; auto. split; auto. split; [easy|]. split; [split; [constructor|reflexivity]|].
        right. exists rq, None. split; auto. }
    unfold append_edk in H. destruct (kv_fail ev (4 + i)%nat) as [e|] eqn:KF.
    + injection H as <- <- <- <-. right. exists e, [], (id :: ids), [], []. split; auto. split; auto. split; [easy|]. split; [split; [constructor|reflexivity]|].
      right. exists rq, (Some x). split; auto. split; auto. discriminate.
    + match type of H with context [kms_enc_loop k ev ctx plain (S i) ids ?E ?T] => destruct (kms_enc_loop k ev ctx plain (S i) ids E T) as [log1 [[e1 t1] r1]] eqn:L end.
      injection H as <- <- <- <-. destruct (IH _ _ _ _ _ _ _ L) as [(R & xs & (F & LEN) & E & T)|(e & used & more & xs & log' & R & U & NE & (F & LEN) & G)].
      { intros s I. apply B. now right. }
      * left. split; auto. exists (x :: xs). split; [split|split].
        -- constructor; [|exact F]. cbn. auto.
        -- cbn. now rewrite LEN.
        -- rewrite E, <- app_assoc. reflexivity.
        -- intros RC. rewrite (T RC). unfold add_record. rewrite RC, <- app_assoc. reflexivity.
      * right. exists e, (id :: used), more, (x :: xs), ((rq, Some x) :: log'). split; auto. split; [now rewrite U|]. split; auto. split; [split|].
        -- constructor; [|exact F]. cbn. auto.
        -- cbn. now rewrite LEN.
        -- destruct G as [->|(rq1 & ans & -> & G1 & G2)]; auto. right. exists rq1, ans. split; auto.
Qed.

Lemma transfer_ok : forall {A} (grow : nat -> bool) (d s d' s' : list A), transfer_list grow d s = (d', s', true) -> d' = d ++ s.
Proof. intros A grow d s d' s' H. destruct (C51_transfer_lemma A grow d s d' s' true H) as [X _]. now destruct (X eq_refl). Qed.
Lemma transfer_fail : forall A (grow : nat -> bool) (d s d' s' : list A), (forall n, grow n = true) -> transfer_list grow d s = (d', s', false) -> False.
Proof.
  intros A grow d s d' s' G H. destruct (C51_transfer_lemma A grow d s d' s' false H) as [_ X].
  assert (C : can_append grow (length d) s) by (intros i _; apply G). specialize (X C). discriminate.
Qed.

Lemma finish_ok : forall ev a key err edks trace rc a', kms_finish ev a key err edks trace rc = (a', KrOk) ->
  rc = KrOk /\ ka_key a' = key /\ ka_edks a' = ka_edks a ++ edks /\ ((forall n, kv_trace ev n = true) -> ka_trace a' = ka_trace a ++ trace).
Proof.
  intros ev a key er edks trace rc a' H. unfold kms_finish in H. destruct rc; try discriminate.
  destruct (transfer_list (kv_edks ev) (ka_edks a) edks) as [[d s] ok] eqn:T. destruct ok; [|discriminate].
  destruct (transfer_list (kv_trace ev) (ka_trace a) trace) as [[d2 s2] ok2] eqn:T2. injection H as <-. cbn. apply transfer_ok in T. subst d.
  split; auto. split; auto. split; auto. intros G. destruct ok2; [now apply transfer_ok in T2|]. now apply transfer_fail in T2.
Qed.
Lemma finish_err : forall ev a key er edks trace rc a' e, kms_finish ev a key er edks trace rc = (a', KrErr e) -> (forall n, kv_edks ev n = true) ->
  a' = mk_kargs er (ka_trace a) (ka_edks a).
Proof.
  intros ev a key er edks trace rc a' e H G. unfold kms_finish in H. destruct rc; try (injection H as <-; reflexivity); try discriminate.
  - destruct (transfer_list (kv_edks ev) (ka_edks a) edks) as [[d s] ok] eqn:T. destruct ok; [|now apply transfer_fail in T].
    now destruct (transfer_list (kv_trace ev) (ka_trace a) trace) as [[d2 s2] ok2] eqn:T2.
Qed.
Lemma finish_ub : forall ev a key er edks trace rc a' rc', kms_finish ev a key er edks trace rc = (a', rc') -> rc' = KrUB -> rc = KrUB.
Proof.
  intros ev a key er edks trace rc a' rc' H U. unfold kms_finish in H. destruct rc; auto; try congruence.
  destruct (transfer_list (kv_edks ev) (ka_edks a) edks) as [[d s] ok]. destruct ok; [|congruence].
  destruct (transfer_list (kv_trace ev) (ka_trace a) trace) as [[d2 s2] ok2]. congruence.
Qed.

Lemma C47_success_lemma : forall k ev ctx alg a log a', kms_on_encrypt k ev ctx alg a = (log, (a', KrOk)) -> kms_built k ->
  match kk_ids k, ka_key a with
  | [], _ => log = [] /\ a' = a
  | ids, Some b => exists xs, encrypt_calls (kk_grants k) ctx (kb_bytes b) ids xs log /\
      ka_key a' = Some b /\ ka_edks a' = ka_edks a ++ map answer_edk xs
  | gen :: others, None => exists reg x xs log', names_region gen reg /\
      log = (mk_kms_request reg gen (OpGenerate (suite_key_len alg)) ctx (kk_grants k), Some x) :: log' /\
      encrypt_calls (kk_grants k) ctx (kx_plain x) others xs log' /\
      ka_key a' = match kx_plain x with [] => None | p => Some (mk_kbuf (kv_meta ev) p) end /\
      ka_edks a' = ka_edks a ++ answer_edk x :: map answer_edk xs
  end.
Proof.
  intros k ev ctx alg a log a' H B. unfold kms_on_encrypt in H. unfold kms_built in B. destruct (kk_ids k) as [|gen others]; [split; congruence|].
  destruct (kv_fail ev 0); [congruence|]. destruct (kv_fail ev 1); [congruence|]. destruct (ka_key a) as [b|] eqn:KA.
  - destruct (kms_enc_loop k ev ctx (kb_bytes b) 0 (gen :: others) [] []) as [lg [[es ts] r]] eqn:L.
    assert (lg = log) by congruence. subst lg. assert (F : kms_finish ev a (Some b) (Some b) es ts r = (a', KrOk)) by congruence. clear H.
    apply finish_ok in F. destruct F as (-> & KK & EE & _). destruct (enc_loop_spec _ _ _ _ _ _ _ _ _ _ _ _ L B) as [(_ & xs & EC & E & _)|(e & _ & _ & _ & _ & X & _)]; [|discriminate].
    exists xs. cbn in E. subst es. auto.
  - destruct (alg_lookup alg) as [p|] eqn:AL; [|congruence]. destruct (kv_client ev 0 (parse_region gen)); cbn [negb] in H; [|congruence].
    destruct (suite_lookup _ _ AL) as (_ & DK & _). rewrite DK in H.
    set (rq := mk_kms_request (parse_region gen) gen (OpGenerate (suite_key_len alg)) ctx (kk_grants k)) in *.
    destruct (kv_call ev 0 rq) as [x|]; [|congruence]. unfold append_edk in H. destruct (kv_fail ev 2); [congruence|]. destruct (kv_fail ev 3); [congruence|].
    match type of H with context [kms_enc_loop k ev ctx ?P 1 others ?E ?T] => destruct (kms_enc_loop k ev ctx P 1 others E T) as [lg [[es ts] r]] eqn:L end.
    assert (LG : log = (rq, Some x) :: lg) by congruence.
    assert (F : kms_finish ev a (dup_key (kv_meta ev) (kx_plain x)) None es ts r = (a', KrOk)) by congruence. clear H. apply finish_ok in F. destruct F as (-> & KK & EE & _).
    destruct (enc_loop_spec _ _ _ _ _ _ _ _ _ _ _ _ L) as [(_ & xs & EC & E & _)|(e & _ & _ & _ & _ & X & _)]; [intros s I; apply B; now right| |discriminate].
    assert (KP : key_bytes (dup_key (kv_meta ev) (kx_plain x)) = kx_plain x) by now destruct (kx_plain x). rewrite KP in EC.
    exists (parse_region gen), x, xs, lg. split.
    { destruct (B gen (or_introl eq_refl)) as [r R]. pose proof R as R'. apply parse_region_spec in R. destruct R as [-> _]. exact R'. }
    split; [exact LG|]. split; [exact EC|]. split; [rewrite KK; now destruct (kx_plain x)|]. rewrite EE, E. reflexivity.
Qed.

Lemma C47_failure_lemma : forall k ev ctx alg a log a' e, kms_on_encrypt k ev ctx alg a = (log, (a', KrErr e)) ->
  (forall n, kv_edks ev n = true) -> a' = a.
Proof.
  intros k ev ctx alg a log a' e H G. unfold kms_on_encrypt in H. destruct (kk_ids k) as [|gen others]; [congruence|].
  destruct (kv_fail ev 0); [congruence|]. destruct (kv_fail ev 1); [congruence|]. destruct (ka_key a) as [b|] eqn:KA.
  - destruct (kms_enc_loop k ev ctx (kb_bytes b) 0 (gen :: others) [] []) as [lg [[es ts] r]] eqn:L.
    assert (F : kms_finish ev a (Some b) (Some b) es ts r = (a', KrErr e)) by congruence. apply finish_err in F; auto. rewrite F, <- KA. now destruct a.
  - destruct (alg_lookup alg) as [p|] eqn:AL; [|congruence]. destruct (kv_client ev 0 (parse_region gen)); cbn [negb] in H; [|congruence].
    set (rq := mk_kms_request (parse_region gen) gen (OpGenerate (ap_data_key_len p)) ctx (kk_grants k)) in *.
    destruct (kv_call ev 0 rq) as [x|]; [|congruence]. unfold append_edk in H. destruct (kv_fail ev 2); [congruence|]. destruct (kv_fail ev 3); [congruence|].
    match type of H with context [kms_enc_loop k ev ctx ?P 1 others ?E ?T] => destruct (kms_enc_loop k ev ctx P 1 others E T) as [lg [[es ts] r]] eqn:L end.
    assert (F : kms_finish ev a (dup_key (kv_meta ev) (kx_plain x)) None es ts r = (a', KrErr e)) by congruence.
    apply finish_err in F; auto. rewrite F, <- KA. now destruct a.
Qed.

Lemma enc_loop_ub : forall k ev ctx plain ids i edks trace log edks' trace' rc,
  kms_enc_loop k ev ctx plain i ids edks trace = (log, (edks', trace', rc)) -> rc <> KrUB.
Proof.
  induction ids as [|id ids IH]; intros i edks trace log edks' trace' rc H; cbn [kms_enc_loop] in H; [congruence|].
  destruct (kv_client ev i (parse_region id)); cbn [negb] in H; [|congruence]. destruct (kv_call ev i _) as [x|]; [|congruence].
  unfold append_edk in H. destruct (kv_fail ev (4 + i)%nat); [congruence|].
  match type of H with context [kms_enc_loop k ev ctx plain (S i) ids ?E ?T] => destruct (kms_enc_loop k ev ctx plain (S i) ids E T) as [log1 [[e1 t1] r1]] eqn:L end.
  apply IH in L. congruence.
Qed.
Lemma C47_no_ub_lemma : forall k ev ctx alg a log a' rc, kms_on_encrypt k ev ctx alg a = (log, (a', rc)) -> rc <> KrUB.
Proof.
  intros k ev ctx alg a log a' rc H U. subst rc. unfold kms_on_encrypt in H. destruct (kk_ids k) as [|gen others]; [congruence|].
  destruct (kv_fail ev 0); [congruence|]. destruct (kv_fail ev 1); [congruence|]. destruct (ka_key a) as [b|].
  - destruct (kms_enc_loop k ev ctx (kb_bytes b) 0 (gen :: others) [] []) as [lg [[es ts] r]] eqn:L. apply enc_loop_ub in L.
    assert (F : kms_finish ev a (Some b) (Some b) es ts r = (a', KrUB)) by congruence. apply finish_ub in F; auto.
  - destruct (alg_lookup alg) as [p|]; [|congruence]. destruct (kv_client ev 0 (parse_region gen)); cbn [negb] in H; [|congruence].
    destruct (kv_call ev 0 _) as [x|]; [|congruence]. unfold append_edk in H. destruct (kv_fail ev 2); [congruence|]. destruct (kv_fail ev 3); [congruence|].
    match type of H with context [kms_enc_loop k ev ctx ?P 1 others ?E ?T] => destruct (kms_enc_loop k ev ctx P 1 others E T) as [lg [[es ts] r]] eqn:L end.
    apply enc_loop_ub in L.
    assert (F : kms_finish ev a (dup_key (kv_meta ev) (kx_plain x)) None es ts r = (a', KrUB)) by congruence. apply finish_ub in F; auto.
Qed.

Lemma C46_filter_lemma : forall partition accounts f, filter_build partition accounts = Some f <->
  partition <> [] /\ accounts <> [] /\ ~ In [] accounts /\ f = mk_filter partition accounts.
Proof.
  intros p l f. unfold filter_build. assert (M : mem_string [] l = true <-> In [] l).
  { unfold mem_string. rewrite existsb_exists. split; [intros (x & I & E); apply bytes_eqb_spec in E; now subst|]. intros I. exists []. split; [exact I|reflexivity]. }
  destruct l as [|a l]; [split; [discriminate|intros (_ & X & _); congruence]|].
  destruct p as [|c p]; cbn [is_empty]; [split; [discriminate|intros (X & _); congruence]|].
  destruct (mem_string [] (a :: l)).
  - split; [discriminate|]. intros (_ & _ & X & _). exfalso. apply X, M. reflexivity.
  - split; [intros E; injection E as <-|intros (_ & _ & _ & ->); reflexivity]. split; [discriminate|]. split; [discriminate|]. split; [|reflexivity].
    intros I. apply M in I. discriminate.
Qed.
