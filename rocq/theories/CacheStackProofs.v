(** Sessions on top of the caching CMM: proofs. *)
From Verif Require Import Base AlgModel EncCtxModel HdrModel CryptoModel KeyringModel WireSpec KeyringSpec BaseProofs
  CacheModel CacheSpec CachingModel CachingSpec CacheProofs CachingProofs CachingOrigin CachingHash CachingAnswers.
From Verif Require Import SessionModel SessionSpec StreamSpec LiveSpec ReportSpec SuiteSpec StackSpec CacheStackSpec
  EncCtxProofs HdrProofs FrameProofs SessionBase SessionInv SessionStep SessionStepD
  SessionRun SessionTheorems SessionStream SessionForward SessionRoundTrip SessionReport SessionLive CodecTheorems
  KeyringProofs RawKeyringProofs StackProofs StackTheorems.
From Coq Require Import Permutation ZArith ZifyBool ZifyNat ZifyN.
Import List.
Open Scope list_scope.
Open Scope N_scope.

(** ** One upstream answer *)

(** Materials of a default CMM over [ke]. *)
Record origin (W : ecdsa -> keyring -> Prop) (alg : N) (ctx : enc_ctx) (em : enc_mat) (ec : ecdsa) (ke : keyring) (a : kargs) : Prop := mk_origin {
  og_w : W ec ke;
  og_suite : suite alg;
  og_enc : keyring_on_encrypt ke ctx alg fresh_args = (a, KrOk);
  og_edks : em_edks em = ka_edks a;
  og_key : forall b, ka_key a = Some b -> em_key em = kb_bytes b;
  og_signed : In alg signed_suites -> exists sc pub, ec_keygen ec alg = Ok (sc, pub) /\ em_sig em = Some sc /\ ctx_find reserved_key ctx = Some pub;
  og_unsigned : ~ In alg signed_suites -> em_sig em = None /\ ctx_find reserved_key ctx = None;
  og_ctx : distinct_keys ctx;
  og_bytes : (forall sc pub, ec_keygen ec alg = Ok (sc, pub) -> In alg signed_suites -> bytes_ok pub) -> ctx_bytes ctx;
}.

Lemma upstream_origin : forall W h j rq ctx em alg, default_generates W h -> In (XUpEnc rq, REnc ctx (Ok em)) (trace j h) -> em_alg em = alg ->
  exists ec ke a, origin W alg ctx em ec ke a.
Proof.
  intros W h j rq ctx em alg DG J EA. destruct (DG _ _ _ _ J) as (DK & CB & ec & ke & da & WW & G1 & G2).
  destruct (default_cmm_generate ec None None (mk_default_cmm ke da) rq) as [ctx' [m|x|]] eqn:G; cbn [fst snd answer] in G1, G2; try discriminate; try contradiction.
  subst ctx'. assert (EM : em = session_enc_mat m) by congruence. clear G2.
  pose proof (choice_spec (mk_default_cmm ke da) rq) as CH. set (alg' := default_alg_choice _ _ _) in *.
  destruct (C42_generate_lemma ec None None _ rq _ CH) as [_ GEN]. destruct (GEN _ _ G) as [SU [KA [[a [KE [KK [KT KD]]]] [SIG UNS]]]].
  cbn [dc_keyring] in KE. clear GEN CH.
  assert (AA : alg' = alg) by (rewrite <- EA, EM; cbn [session_enc_mat em_alg]; congruence). rewrite AA in *.
  assert (DC : distinct_keys ctx).
  { destruct (in_dec N.eq_dec alg signed_suites) as [S|S].
    - destruct (SIG S) as [sc [pub [K [_ [-> NR]]]]]. unfold distinct_keys in *. rewrite map_app. cbn [map fst]. apply NoDup_app_split. split; auto.
      split; [repeat constructor; intros []|]. intros x J0 [<-|[]]. contradiction.
    - destruct (UNS S) as [_ [-> _]]. exact DK. }
  exists ec, ke, a. constructor; auto.
  - rewrite EM. exact KD.
  - intros b KB. rewrite EM. cbn [session_enc_mat em_key]. rewrite KK, KB. reflexivity.
  - intros S. destruct (SIG S) as [sc [pub [K [KS [EC NR]]]]]. exists sc, pub. split; auto. split; [rewrite EM; exact KS|].
    apply ctx_find_in; auto. rewrite EC. apply in_or_app. right. now left.
  - intros S. destruct (UNS S) as [KS [EC NR]]. split; [rewrite EM; exact KS|]. now apply ctx_find_none.
  - intros PB. destruct (in_dec N.eq_dec alg signed_suites) as [S|S].
    + destruct (SIG S) as [sc [pub [K [_ [-> NR]]]]]. unfold ctx_bytes. apply Forall_app. split; auto. apply Forall_cons; [|constructor].
      cbn [fst snd]. split; [apply reserved_bytes|eauto].
    + destruct (UNS S) as [_ [-> _]]. exact CB.
Qed.

Lemma find_perm : forall c ctx k, distinct_keys ctx -> Permutation c ctx -> ctx_find k c = ctx_find k ctx.
Proof.
  intros c ctx k DC P. assert (DC' : distinct_keys c) by (eapply distinct_perm; [symmetry; exact P|exact DC]).
  destruct (ctx_find k ctx) as [v|] eqn:F.
  - apply ctx_find_in in F; auto. apply ctx_find_in; auto. eapply Permutation_in; [symmetry; exact P|exact F].
  - apply ctx_find_none in F. apply ctx_find_none. intros J. apply F. eapply Permutation_in; [apply Permutation_map; exact P|exact J].
Qed.

(** What a call of the caching CMM returns has the origin of an upstream answer. *)
Lemma cached_origin : forall io sha W e rq ctx em alg, same_keys io -> generates_cached io sha W e -> e_gen e rq = (ctx, Ok em) -> em_alg em = alg ->
  (forall ec ke, W ec ke -> forall sc pub, ec_keygen ec alg = Ok (sc, pub) -> sc_data sc = []) ->
  distinct_keys ctx /\ exists ctx0 ec ke a, Permutation ctx ctx0 /\ origin W alg ctx0 em ec ke a.
Proof.
  intros io sha W e rq ctx em alg [SK _] GC EG EA ND.
  destruct (GC _ _ _ EG) as (cap & jobs & h & j & m & ((P & c & EX) & T & TY & NC) & DG & JJ & RT).
  destruct (enc_transparent io sha P cap jobs h c j ctx em EX T TY NC RT) as (m1 & rq1 & J1 & [(rq' & JU & _)|(j0 & m0 & rq0 & rq0' & ctx0 & mat0 & J0 & _ & JU & _ & SM & DC & MM)]).
  - destruct (upstream_origin _ _ _ _ _ _ _ DG JU EA) as (ec & ke & a & OG). split; [apply (og_ctx _ _ _ _ _ _ _ OG)|].
    exists ctx, ec, ke, a. split; auto.
  - split; [exact DC|]. destruct SM as (M1 & M2 & M3 & M4 & M5).
    assert (EA0 : em_alg mat0 = alg) by congruence.
    destruct (upstream_origin _ _ _ _ _ _ _ DG JU EA0) as (ec & ke & a & OG).
    exists ctx0, ec, ke, a. split; [apply same_map_perm; auto; apply (og_ctx _ _ _ _ _ _ _ OG)|].
    destruct OG as [O1 O2 O3 O4 O5 O6 O7 O8 O9]. constructor; auto.
    + congruence.
    + intros b KB. rewrite M1. auto.
    + intros S. destruct (O6 S) as (sc & pub & K & ES & F). exists sc, pub. split; auto. split; auto.
      rewrite ES in M5. destruct M5 as (k & PR & SS). rewrite (SK _ _ _ _ PR SS). pose proof (ND _ _ O1 _ _ K) as Z. destruct sc as [kk dd]. cbn in *. congruence.
    + intros S. destruct (O7 S) as (ES & F). rewrite ES in M5. auto.
Qed.

(** ** The reader *)

(** What a default CMM over [kd] answers to a request for the materials [em], in any order. *)
Lemma default_opens : forall W alg ctx em ec ke a ec2 kd da c edks vk, origin W alg ctx em ec ke a -> ctx_bytes ctx -> recovers_any_order ke kd alg ->
  (In alg signed_suites -> exists pub v, ctx_find reserved_key ctx = Some pub /\ ec_verify_start ec2 alg pub = Ok v /\ vk = Some v) ->
  (~ In alg signed_suites -> vk = None) ->
  Permutation c ctx -> Permutation edks (em_edks em) ->
  exists m, default_cmm_decrypt ec2 None (mk_default_cmm kd da) (mk_dec_request alg edks c) = COk m /\
    dm_key (session_dec_mat m) = em_key em /\ dm_alg (session_dec_mat m) = alg /\ dm_sig (session_dec_mat m) = vk.
Proof.
  intros W alg ctx em ec ke a ec2 kd da c edks vk [O1 O2 O3 O4 O5 O6 O7 O8 O9] CB RA VS VU P PE.
  destruct (RA ctx a O8 CB O3) as [b [KB UN]]. rewrite O4 in PE.
  destruct (UN c edks (mk_dargs None []) P PE eq_refl) as [d' [b' [KDD [DB BB]]]].
  unfold default_cmm_decrypt. cbn [dc_keyring dq_edks dq_ctx dq_alg]. rewrite KDD, DB.
  destruct (lookup_suite _ O2) as [p L]. rewrite L, reserved_eq, (find_perm _ _ _ O8 P). destruct (suite_lookup _ _ L) as (_ & _ & SG).
  destruct (in_dec N.eq_dec alg signed_suites) as [S|S].
  - destruct (VS S) as [pub [v [F [V ->]]]]. rewrite F.
    destruct (N.eqb_spec (ap_sig_len p) 0) as [Z|Z]; [apply SG in Z; contradiction|]. rewrite V.
    eexists. split; [reflexivity|]. cbn [session_dec_mat dm_key dm_alg dm_sig kd_mat_key kd_mat_alg kd_mat_sig].
    split; [rewrite (O5 _ KB); congruence|]. auto.
  - destruct (O7 S) as [_ F]. rewrite F, (VU S). assert (Z : ap_sig_len p = 0) by now apply SG. rewrite Z. cbn [N.eqb].
    eexists. split; [reflexivity|]. cbn [session_dec_mat dm_key dm_alg dm_sig kd_mat_key kd_mat_alg kd_mat_sig].
    split; [rewrite (O5 _ KB); congruence|]. auto.
Qed.

Lemma field_fits : forall f, fits16 f -> exists x, edk_field f = Ok x.
Proof. intros f F. unfold edk_field, fits16 in *. destruct (N.ltb_spec UINT16_MAX (Nlen f)) as [H|H]; [unfold UINT16_MAX in H; lia|eauto]. Qed.
Lemma hashes_fit : forall sha es, Forall edk_fits es -> exists l, edk_hashes sha es = Ok l.
Proof.
  intros sha es F. induction F as [|e es (F1 & F2 & F3) F [l IH]]; cbn [edk_hashes]; [eauto|].
  destruct (field_fits _ F1) as [x1 E1], (field_fits _ F2) as [x2 E2], (field_fits _ F3) as [x3 E3].
  unfold edk_hash_input. rewrite E1, E2, E3. cbn [bind]. rewrite IH. cbn [bind]. eauto.
Qed.
Lemma id_exists : forall sha m rq, ctx_fits (dq_ctx rq) -> Forall edk_fits (dq_edks rq) -> exists id, dec_cache_id sha m rq = Ok id.
Proof.
  intros sha m rq FC FE. unfold dec_cache_id. rewrite enc_ctx_size_spec. unfold ctx_fits, fits16 in FC.
  destruct (N.leb_spec (Nlen (wire_ctx (dq_ctx rq))) 65535) as [H|H]; [|lia]. cbn [bind].
  destruct (hashes_fit sha _ FE) as [l E]. rewrite E.
  rewrite serialize_spec. destruct (N.ltb_spec 65535 (Nlen (wire_ctx (dq_ctx rq)))); [lia|].
  destruct (N.leb_spec (0 + Nlen (wire_ctx (dq_ctx rq))) (Nlen (wire_ctx (dq_ctx rq)))); [|lia]. rewrite Bool.orb_true_r. cbn [bind]. eauto.
Qed.

(** A call of a caching CMM over keyrings that open the message answers, with materials that do. *)
Lemma cached_opens : forall io sha ec2 (R : keyring -> Prop) A e alg ctx edks c key vk, same_keys io -> decrypts_cached io sha ec2 R A e ->
  suite alg -> distinct_keys ctx -> ctx_fits ctx -> Forall edk_fits edks ->
  (forall v, vk = Some v -> sc_data v = []) ->
  (forall kd da c' edks', R kd -> Permutation c' ctx -> Permutation edks' edks ->
    exists m, default_cmm_decrypt ec2 None (mk_default_cmm kd da) (mk_dec_request alg edks' c') = COk m /\
      dm_key (session_dec_mat m) = key /\ dm_alg (session_dec_mat m) = alg /\ dm_sig (session_dec_mat m) = vk) ->
  Permutation c ctx -> A (mk_dec_request alg edks c) ->
  exists dm, e_dec e (mk_dec_request alg edks c) = Ok dm /\ dm_key dm = key /\ dm_alg dm = alg /\ dm_sig dm = vk.
Proof.
  intros io sha ec2 R A e alg ctx edks c key vk [_ SK] DW SU DC FC FE VD OP P AR.
  destruct (DW _ AR) as (cap & jobs & h & j & m & r & ((PP & cc & EX) & T & TY & NC) & DD & NM & JJ & RT & AN).
  assert (UP : forall j0 rq' r', In (XUpDec rq', RDec r') (trace j0 h) -> dq_alg rq' = alg -> Permutation (dq_ctx rq') ctx -> Permutation (dq_edks rq') edks ->
    exists dm, r' = Ok dm /\ dm_key dm = key /\ dm_alg dm = alg /\ dm_sig dm = vk).
  { intros j0 [alg' edks' c'] r' J EA PC PE. cbn [dq_alg dq_ctx dq_edks] in *. subst alg'. destruct (DD _ _ _ J) as (kd & da & RK & AW).
    destruct (OP kd da c' edks' RK PC PE) as (x & E & Q). rewrite E in AW. cbn [answer] in AW. eauto. }
  destruct r as [dm|x|].
  - destruct (dec_transparent io sha PP cap jobs h cc j dm EX T TY NC RT) as (m1 & rq1 & J1 & CASES).
    assert (EQ : rq1 = mk_dec_request alg edks c) by congruence. subst rq1. destruct CASES as [JU|(j0 & m0 & rq0 & mat0 & J0 & SR & JU & SM)].
    + destruct (UP _ _ _ JU eq_refl P (Permutation_refl _)) as (dm' & E & Q). injection E as <-. eauto.
    + destruct SR as (_ & SA & SC & SE). cbn [dq_alg dq_ctx dq_edks] in SA, SC, SE.
      assert (D0 : distinct_keys (dq_ctx rq0)) by (destruct T as (_ & T & _); eapply T; eauto).
      assert (D1 : distinct_keys c) by (eapply distinct_perm; [symmetry; exact P|exact DC]).
      apply same_map_perm in SC; auto.
      destruct (UP _ _ _ JU (eq_sym SA)) as (dm' & E & Q1 & Q2 & Q3).
      { etransitivity; [symmetry; exact SC|exact P]. } { symmetry. exact SE. }
      injection E as <-. destruct SM as (M1 & M2 & M3 & M4). exists dm. split; [exact AN|]. split; [congruence|]. split; [congruence|].
      rewrite Q3 in M4. destruct vk as [v|]; [|exact M4]. destruct M4 as (k & PR & SS). rewrite (SK _ _ _ _ PR SS).
      specialize (VD _ eq_refl). destruct v as [kk dd]. cbn in *. congruence.
  - exfalso. destruct (dec_failure io sha PP cap jobs h cc j x EX RT) as (m1 & rq1 & J1 & [JU|[JM|ID]]).
    + assert (EQ : rq1 = mk_dec_request alg edks c) by congruence. subst rq1.
      destruct (UP _ _ _ JU eq_refl P (Permutation_refl _)) as (dm' & E & Q). discriminate.
    + exact (NM _ JM).
    + assert (EQ : rq1 = mk_dec_request alg edks c) by congruence. subst rq1.
      destruct (id_exists sha m1 (mk_dec_request alg edks c)) as [id E]; [|exact FE|congruence].
      cbn [dq_ctx]. unfold ctx_fits in *. now rewrite (Nlen_wire_ctx_perm _ _ P).
  - exfalso. pose proof (exec_obeys _ _ _ _ _ _ _ _ _ _ EX (job_origin sha (jobs j)) _ RT) as OB. cbn [obeys origin_end] in OB.
    destruct OB as (m1 & rq1 & J1 & L). assert (EQ : rq1 = mk_dec_request alg edks c) by congruence. subst rq1.
    destruct (lookup_suite _ SU) as [p L']. cbn [dq_alg] in L. congruence.
Qed.

(** ** The round trip *)
Lemma cached_usable : forall cr io sha io2 sha2 W R ec2 alg n w mode e rq ctx em,
  same_keys io -> same_keys io2 -> keyrings_match W R ec2 alg n -> generates_cached io sha W e -> e_gen e rq = (ctx, Ok em) -> em_alg em = alg ->
  (forall ev, In ev (w_log w) -> exists e, cached_env cr io sha W ec2 alg e /\ ev_from e ev) ->
  cached_env cr io sha W ec2 alg e -> ctx_fits ctx -> (mode = M_DECRYPT_UNSIGNED -> ~ In alg signed_suites) ->
  In (EvGen rq ctx em) (w_log w) ->
  exists vk, usable cr alg n (w_log w) mode (decrypts_cached io2 sha2 ec2 R (asks w)) ctx em vk.
Proof.
  intros cr io sha io2 sha2 W R ec2 alg n w mode e rq ctx em SK SK2 KM GC EG EA EVS [_ [_ SW]] FC MU GEN.
  destruct (cached_origin io sha W e rq ctx em alg SK GC EG EA) as (DC & ctx0 & ec & ke & a & PC & OG).
  { intros ec ke WW sc pub K. destruct (KM _ _ WW) as ([N1 _] & _). eauto. }
  pose proof (og_w _ _ _ _ _ _ _ OG) as WW. destruct (KM _ _ WW) as ([N1 N2] & [N65 TI] & RE). pose proof (SW _ _ WW) as SIG.
  assert (CB0 : ctx_bytes ctx0).
  { apply (og_bytes _ _ _ _ _ _ _ OG). intros sc pub K S. destruct (SIG S _ _ K) as [B _]. exact B. }
  pose proof (og_ctx _ _ _ _ _ _ _ OG) as D0.
  destruct (TI _ _ D0 CB0 (og_enc _ _ _ _ _ _ _ OG)) as [T1 [T2 T3]]. rewrite <- (og_edks _ _ _ _ _ _ _ OG) in T1, T2, T3.
  assert (VK : exists vk, (In alg signed_suites -> exists pub v, ctx_find reserved_key ctx0 = Some pub /\ ec_verify_start ec2 alg pub = Ok v /\ vk = Some v) /\
    (~ In alg signed_suites -> vk = None)).
  { destruct (in_dec N.eq_dec alg signed_suites) as [S|S]; [|exists None; split; [contradiction|auto]].
    destruct (og_signed _ _ _ _ _ _ _ OG S) as (sc & pub & K & ES & F). destruct (SIG S _ _ K) as [_ [v [V _]]]. exists (Some v). split; [eauto 6|contradiction]. }
  destruct VK as [vk [VS VU]]. exists vk. constructor; auto.
  - eapply ctx_bytes_perm; [symmetry; exact PC|exact CB0].
  - intros sc0 ES S. destruct (og_signed _ _ _ _ _ _ _ OG S) as (sc & pub & K & ES' & F). assert (sc0 = sc) by congruence. subst sc0.
    destruct (VS S) as (pub' & v & F' & V & ->). assert (pub' = pub) by congruence. subst pub'. exists v. split; auto.
    destruct (SIG S _ _ K) as [_ [v1 [V1 [VD _]]]]. assert (v1 = v) by congruence. subst v1. split; auto.
    intros data sg J. destruct (EVS _ J) as [e1 [[_ [_ SW1]] En]]. cbn [ev_from] in En.
    destruct (SW1 _ _ WW S _ _ K) as [_ [v' [V' [_ X]]]]. assert (v' = v) by congruence. subst v'. exact (X _ _ En).
  - intros e2 DW c P. rewrite EA. assert (SU := og_suite _ _ _ _ _ _ _ OG).
    assert (P0 : Permutation c ctx0) by (etransitivity; eauto).
    assert (VD : forall v, vk = Some v -> sc_data v = []).
    { intros v ->. destruct (in_dec N.eq_dec alg signed_suites) as [S|S]; [|specialize (VU S); discriminate].
      destruct (VS S) as (pub & v' & _ & V & E). injection E as ->. eauto. }
    assert (F0 : ctx_fits ctx0) by (unfold ctx_fits in *; now rewrite <- (Nlen_wire_ctx_perm _ _ PC)).
    assert (OP : forall kd da c' edks', R kd -> Permutation c' ctx0 -> Permutation edks' (em_edks em) ->
      exists m, default_cmm_decrypt ec2 None (mk_default_cmm kd da) (mk_dec_request alg edks' c') = COk m /\
        dm_key (session_dec_mat m) = em_key em /\ dm_alg (session_dec_mat m) = alg /\ dm_sig (session_dec_mat m) = vk).
    { intros kd da c' edks' RK PC' PE'. eapply default_opens; eauto. }
    assert (AS : asks w (mk_dec_request alg (em_edks em) c)) by (exists rq, ctx, em, c; rewrite EA; auto).
    destruct (cached_opens io2 sha2 ec2 R (asks w) e2 alg ctx0 (em_edks em) c (em_key em) vk SK2 DW SU D0 F0 T2 VD OP P0 AS) as (dm & E & Q1 & Q2 & Q3).
    exists dm. split; [exact E|]. split; [exact Q1|]. rewrite Q2. split; [exact SU|]. split; [exact MU|]. auto.
Qed.

Lemma C76_lemma : forall cr m ops w io sha io2 sha2 W R ec2 alg n md opsd wd rs wd',
  crypto_sizes cr -> dec_inverts cr -> updates_ok cr -> crypto_bytes cr -> same_keys io -> same_keys io2 ->
  history cr m ops w -> Forall (stack_op (cached_env cr io sha W ec2 alg)) ops ->
  s_mode (w_s w) = M_ENCRYPT -> is_done (w_s w) = true -> get_alg_id (w_s w) = Some alg ->
  keyrings_match W R ec2 alg n ->
  history cr md opsd wd -> is_decrypt_mode (s_mode (w_s wd)) = true -> s_state (w_s wd) = ST_CONFIG ->
  policy_permits_decrypt (s_policy (w_s wd)) alg -> (s_max (w_s wd) = 0 \/ n <= s_max (w_s wd)) ->
  (s_mode (w_s wd) = M_DECRYPT_UNSIGNED -> ~ In alg signed_suites) ->
  feed cr (decrypts_cached io2 sha2 ec2 R (asks w)) (w_out w) wd rs wd' ->
  bytes_ok (w_out w) /\
  Forall (fun r => o_rc r = POk) rs /\ prefix (w_out wd') (w_in w) /\
  (is_done (w_s wd') = true -> w_in wd' = w_out w /\ w_out wd' = w_in w /\ get_alg_id (w_s wd') = Some alg /\
     exists c c', visible_ctx (w_s w) = Some c /\ visible_ctx (w_s wd') = Some c' /\ Permutation c' c) /\
  (forall e cap input, decrypts_cached io2 sha2 ec2 R (asks w) e -> w_in wd' ++ input = w_out w ->
     Nlen (w_in w) <= Nlen (w_out wd') + cap ->
     let w2 := fst (exec cr wd' (OProcess e cap input)) in is_done (w_s w2) = true /\ w_out w2 = w_in w).
Proof.
  intros cr m ops w io sha io2 sha2 W R ec2 alg n md opsd wd rs wd' CS DI UP CB SK SK2 H SO EM D GA KM HD DM CONF POL MAX UNS FEED.
  pose proof H as [V [OB [rsw [RN F]]]].
  assert (EVS : forall ev, In ev (w_log w) -> exists e, cached_env cr io sha W ec2 alg e /\ ev_from e ev).
  { eapply run_from; eauto. intros ev []. }
  destruct (core_mats cr m ops w alg md opsd n wd rs wd' (decrypts_cached io2 sha2 ec2 R (asks w)) CS DI UP CB H EM D GA) as [R1 [R2 [R3 [R4 R5]]]]; auto.
  { intros mid J. destruct (EVS _ J) as [e1 [[_ [RB1 _]] [n0 En]]]. eapply RB1; eauto. }
  { intros rq ctx em GEN EA FC. destruct (EVS _ GEN) as [e [CE EV]]. cbn [ev_from] in EV. destruct CE as [GC CE].
    eapply (cached_usable cr io sha io2 sha2 W R ec2 alg n w _ e rq ctx em); auto. split; auto. }
  split; auto. split; auto. split; auto. split; auto.
  intros DD. destruct (R4 DD) as [Q1 [Q2 [Q3 [rq [c [em [c' [GEN [_ [VC PC]]]]]]]]]]. split; auto. split; auto. split; auto.
  exists c, c'. split; [|auto].
  pose proof (history_inv _ _ _ _ CS H) as I. unfold winv in I.
  destruct (enc_shape _ _ _ _ _ I (done_live _ D) EM (or_intror D)) as [i [l [tr [trlog [EO [SE [CF [E1 [E2 [E3 [BS [FIN _]]]]]]]]]]]].
  destruct (FIN D) as [_ [ET _]].
  assert (GE : c = ei_ctx i).
  { rewrite E3 in GEN. unfold elog, enc_log in GEN. cbn [app In] in GEN.
    destruct GEN as [G|[G|[G|G]]]; try discriminate; [injection G as _ <- <-; auto|].
    exfalso. apply in_app_or in G. destruct G as [G|G].
    - apply in_map_iff in G. destruct G as [[f p] [G _]]. discriminate.
    - destruct ET; [destruct G|destruct G as [G|[]]; discriminate]. }
  unfold visible_ctx. rewrite EM. cbn [is_decrypt_mode andb]. subst c. f_equal.
  pose proof (eo_hdr _ _ _ EO) as EH. rewrite EH. reflexivity.
Qed.
