(** Sessions on top of the default CMM and keyrings: the theorems. *)
From Verif Require Import Base AlgModel EncCtxModel HdrModel FrameModel CryptoModel SessionModel KeyringModel
  BaseProofs WireSpec SessionSpec StreamSpec LiveSpec KeyringSpec ReportSpec SuiteSpec StackSpec
  EncCtxProofs HdrProofs FrameProofs SessionBase SessionInv SessionStep SessionStepD
  SessionRun SessionTheorems SessionStream SessionForward SessionRoundTrip SessionReport SessionLive CodecTheorems
  KeyringProofs RawKeyringProofs StackProofs.
From Coq Require Import Permutation ZArith ZifyBool ZifyNat ZifyN.
Import List.
Open Scope list_scope.
Open Scope N_scope.

(** ** Requests ask for contexts the caller has set *)
Lemma run_split : forall cr ops w o w' rs, run cr w (ops ++ [o]) = (w', rs) -> Forall (fun r => stuck (o_rc r) = false) rs ->
  exists w1 rs1 r, run cr w ops = (w1, rs1) /\ rs = rs1 ++ [r] /\ exec cr w1 o = (w', r) /\ Forall (fun r => stuck (o_rc r) = false) rs1.
Proof.
  induction ops as [|p ops IH]; intros w o w' rs R F; cbn [run app] in *.
  - destruct (exec cr w o) as [w2 r2] eqn:E. exists w, [], r2. destruct (stuck (o_rc r2)); injection R as <- <-; cbn [app]; auto.
  - destruct (exec cr w p) as [w2 r]. destruct (stuck (o_rc r)) eqn:S.
    + injection R as <- <-. inversion F; congruence.
    + destruct (run cr w2 (ops ++ [o])) as [w3 rs3] eqn:R3. injection R as <- <-. inversion F; subst.
      destruct (IH _ _ _ _ R3 ltac:(assumption)) as [w1 [rs1 [r1 [Q1 [-> [Q3 Q4]]]]]]. rewrite Q1. exists w1, (r :: rs1), r1. auto.
Qed.

Definition good_ctx (c : enc_ctx) : Prop := distinct_keys c /\ ctx_bytes c.
Lemma good_nil : good_ctx [].
Proof. split; [constructor|constructor]. Qed.
Lemma chosen_good : forall P ops rs, Forall (stack_op P) ops -> good_ctx (chosen_ctx (combine ops rs)).
Proof.
  intros P ops rs F. unfold chosen_ctx. assert (G := good_nil). revert G. generalize (@nil (list N * list N)). revert rs.
  induction F as [|o ops F1 F IH]; intros [|r rs] d G; cbn [combine fold_left]; auto. apply IH.
  unfold ctx_after. cbn [fst snd]. destruct o; auto; try apply good_nil. destruct (o_rc r); auto.
Qed.

Lemma asked_good : forall cr m P ops w rs, crypto_sizes cr -> is_valid_mode m = true -> Forall op_bytes ops -> Forall (stack_op P) ops ->
  run cr (new_world m) ops = (w, rs) -> Forall (fun r => stuck (o_rc r) = false) rs ->
  forall rq c em, In (EvGen rq c em) (w_log w) -> good_ctx (rq_ctx rq).
Proof.
  intros cr m P ops. induction ops as [|o ops IH] using rev_ind; intros w rs CS V OB SO R F rq c em J.
  - cbn [run] in R. injection R as <- <-. destruct J.
  - destruct (run_split _ _ _ _ _ _ R F) as [w1 [rs1 [r [R1 [-> [E F1]]]]]].
    apply Forall_app in OB as [OB OB1]. apply Forall_app in SO as [SO SO1]. inversion OB1 as [|? ? OBo _]; subst.
    assert (L : (exists new, w_log w = w_log w1 ++ new) \/ w_log w = []).
    { clear - E. destruct o; cbn [exec] in E; unfold with_session, after_process in E;
        assert (L := f_equal (fun x => w_log (fst x)) E); clear E; cbn [fst] in L; rewrite <- L; cbn [w_log];
        first [left; exists []; symmetry; apply app_nil_r | now right | idtac];
        match goal with |- context [match pr_rc ?x with _ => _ end] => destruct (pr_rc x) end; left; eexists; reflexivity. }
    destruct L as [[new L]|L]; [|rewrite L in J; destruct J].
    rewrite L in J. apply in_app_or in J. destruct J as [J|J]; [eapply IH; eauto|].
    pose proof (C64_lemma cr m ops w1 rs1 o w r new rq c em CS V OB OBo R1 F1 E L J) as Q. cbv zeta in Q.
    rewrite Q. cbn [rq_ctx]. eapply chosen_good; eauto.
Qed.

(** ** Any way of buffering *)
Lemma C70_lemma : forall cr m ops w ec ec2 ke kd da da2 alg n md opsd wd rs wd',
  crypto_sizes cr -> dec_inverts cr -> updates_ok cr -> crypto_bytes cr ->
  history cr m ops w -> Forall (stack_op (stack_env cr ec ec2 (mk_default_cmm ke da) alg)) ops ->
  s_mode (w_s w) = M_ENCRYPT -> is_done (w_s w) = true -> get_alg_id (w_s w) = Some alg ->
  tidy ke alg n -> recovers ke kd alg ->
  history cr md opsd wd -> is_decrypt_mode (s_mode (w_s wd)) = true -> s_state (w_s wd) = ST_CONFIG ->
  policy_permits_decrypt (s_policy (w_s wd)) alg -> (s_max (w_s wd) = 0 \/ n <= s_max (w_s wd)) ->
  (s_mode (w_s wd) = M_DECRYPT_UNSIGNED -> ~ In alg signed_suites) ->
  feed cr (decrypts_with ec2 (mk_default_cmm kd da2)) (w_out w) wd rs wd' ->
  bytes_ok (w_out w) /\
  Forall (fun r => o_rc r = POk) rs /\ prefix (w_out wd') (w_in w) /\
  (is_done (w_s wd') = true -> w_in wd' = w_out w /\ w_out wd' = w_in w /\ get_alg_id (w_s wd') = Some alg /\
     exists c c', visible_ctx (w_s w) = Some c /\ visible_ctx (w_s wd') = Some c' /\ Permutation c' c) /\
  (forall e cap input, decrypts_with ec2 (mk_default_cmm kd da2) e -> w_in wd' ++ input = w_out w ->
     Nlen (w_in w) <= Nlen (w_out wd') + cap ->
     let w2 := fst (exec cr wd' (OProcess e cap input)) in is_done (w_s w2) = true /\ w_out w2 = w_in w).
Proof.
  intros cr m ops w ec ec2 ke kd da da2 alg n md opsd wd rs wd' CS DI UP CB H SO EM D GA TI RE HD DM CONF POL MAX UNS FEED.
  pose proof H as [V [OB [rsw [R F]]]].
  assert (EVS : forall ev, In ev (w_log w) -> exists e, stack_env cr ec ec2 (mk_default_cmm ke da) alg e /\ ev_from e ev).
  { eapply run_from; eauto. intros ev []. }
  assert (RQ : forall rq c em, In (EvGen rq c em) (w_log w) -> distinct_keys (rq_ctx rq) /\ ctx_bytes (rq_ctx rq)).
  { eapply asked_good; eauto. }
  destruct (core_roundtrip cr m ops w ec ec2 ke kd da da2 alg md opsd n wd rs wd' CS DI UP CB H EM D GA EVS RQ TI RE HD DM CONF POL MAX UNS FEED)
    as [R1 [R2 [R3 [R4 R5]]]].
  split; auto. split; auto. split; auto. split; auto.
  intros DD. destruct (R4 DD) as [Q1 [Q2 [Q3 [rq [c [em [c' [GEN [_ [VC PC]]]]]]]]]]. split; auto. split; auto. split; auto.
  exists c, c'. split; [|auto].
  pose proof (history_inv _ _ _ _ CS H) as I. unfold winv in I.
  destruct (enc_shape _ _ _ _ _ I (done_live _ D) EM (or_intror D)) as [i [l [tr [trlog [EO [SE [CF [E1 [E2 [E3 [BS [FIN _]]]]]]]]]]]].
  destruct (FIN D) as [_ [ET _]].
  assert (GE : c = ei_ctx i).
  { rewrite E3 in GEN. unfold elog, enc_log in GEN. cbn [app In] in GEN.
    destruct GEN as [G|[G|[G|G]]]; try discriminate; [injection G as _ <- <-; auto|].
    exfalso. apply in_app_or in G. destruct G as [G|G].
    - apply in_map_iff in G. destruct G as [[f p] [G _]]. discriminate.
    - destruct ET; [destruct G|destruct G as [G|[]]; discriminate]. }
  unfold visible_ctx. rewrite EM. cbn [is_decrypt_mode andb]. subst c. f_equal.
  pose proof (eo_hdr _ _ _ EO) as EH.
  rewrite EH. reflexivity.
Qed.

(** ** One call *)
Lemma config_empty : forall cr s win wout log, inv cr s win wout log -> s_state s = ST_CONFIG -> win = [] /\ wout = [] /\ log = [].
Proof.
  intros cr s win wout log I ST.
  destruct I as [s CONF PR MD ST'|s CONF PR MD ST'|s CONF PR MD ST'|s i CONF EO ST' EB|s i l CONF EO ST' R L EB
    |s i l CONF EO ST' W EB K' PE|s i l tr trlog CONF EO ST' W F K' PE ET|s i l CONF DO ST' R L DB SG|s i l CONF DO ST' W DB SG
    |s i l tr trlog CONF DO ST' W DB DT|s s0 win wout log more ST' FS NE' MD I NON]; try congruence; auto.
  destruct ST' as [|[]]; congruence.
Qed.

Lemma process_read_le : forall cr e s cap input, pr_read (process cr e s cap input) <= Nlen input.
Proof.
  intros. unfold process. cbv zeta. match goal with |- context [lr_rc ?x] => destruct (lr_rc x) end; cbn [pr_read]; lia.
Qed.

Lemma edks_total : forall l, Forall edk_fits l -> Nlen (concat (map wire_edk l)) <= 196611 * Nlen l.
Proof.
  induction 1 as [|e l (F1 & F2 & F3) F IH]; cbn [map concat]; [unfold Nlen; cbn; lia|]. rewrite Nlen_app, Nlen_cons.
  unfold wire_edk, field16, fits16 in *. rewrite !Nlen_app, !Nlen_u16. lia.
Qed.

(** What the default CMM answers when nothing fails. *)
Lemma stack_gen : forall ec ke da e rq alg n mx, generates_with ec (mk_default_cmm ke da) e ->
  helpers_work ec alg e -> suite alg -> policy_permits_encrypt (rq_policy rq) alg -> stack_suite da (rq_policy rq) alg -> rq_alg rq = 0 ->
  distinct_keys (rq_ctx rq) -> ctx_bytes (rq_ctx rq) -> ~ In reserved_key (map fst (rq_ctx rq)) ->
  (In alg signed_suites -> forall sc pub, ec_keygen ec alg = Ok (sc, pub) -> bytes_ok pub) ->
  (forall c, message_ctx ec alg (rq_ctx rq) c -> ctx_fits c) ->
  tidy ke alg n -> (mx = 0 \/ n <= mx) -> wraps ke alg -> n <= 10922 ->
  (forall ctx a, distinct_keys ctx -> ctx_bytes ctx -> keyring_on_encrypt ke ctx alg fresh_args = (a, KrOk) -> ka_key a <> None) ->
  exists ctx em, e_gen e rq = (ctx, Ok em) /\ fit (rq_policy rq) mx alg ctx em.
Proof.
  intros ec ke da e rq alg n mx GW HW SU POL SS AZ DK CB NR KB FITS [N65 TI] MX WR N1 KEY.
  destruct (GW rq) as [G1 G2].
  assert (CHO : default_alg_choice (mk_default_cmm ke da) (rq_alg rq) (rq_policy rq) = alg).
  { unfold default_alg_choice. rewrite AZ. cbn [N.eqb dc_alg]. unfold stack_suite in SS. destruct da as [x|]; [auto|].
    destruct (rq_policy rq); cbn [must_include_commitment]; try (symmetry; exact SS). }
  unfold default_cmm_generate in G1, G2. rewrite CHO, reserved_eq in G1, G2.
  assert (FN : ctx_find reserved_key (rq_ctx rq) = None) by now apply ctx_find_none. rewrite FN in G1, G2.
  destruct (lookup_suite _ SU) as [p L]. destruct (suite_lookup _ _ L) as (_ & DL & SG). rewrite L in G1, G2. cbv zeta in G1, G2. cbn [dc_keyring] in G1, G2.
  assert (FIN : forall sc ctx, message_ctx ec alg (rq_ctx rq) ctx -> distinct_keys ctx -> ctx_bytes ctx -> (sc <> None <-> In alg signed_suites) ->
    fst (e_gen e rq) = ctx -> (forall a, keyring_on_encrypt ke ctx alg fresh_args = (a, KrOk) ->
      snd (e_gen e rq) = Ok (session_enc_mat (mk_kr_enc_mat (ka_key a) (ka_trace a) (ka_edks a) sc alg))) ->
    exists ctx em, e_gen e rq = (ctx, Ok em) /\ fit (rq_policy rq) mx alg ctx em).
  { intros sc ctx MC DC CBC SC E1 E2. destruct (WR ctx DC CBC (FITS _ MC)) as [a KE]. specialize (E2 a KE).
    exists ctx, (session_enc_mat (mk_kr_enc_mat (ka_key a) (ka_trace a) (ka_edks a) sc alg)).
    split; [rewrite <- E1, <- E2; apply surjective_pairing|].
    destruct (TI ctx a DC CBC KE) as [T1 [T2 T3]]. pose proof (edks_total _ T2) as TL.
    pose proof (on_encrypt_inv _ _ _ _ _ _ KE) as [_ OI]. destruct (OI eq_refl) as (_ & _ & KL & _).
    destruct (ka_key a) as [b|] eqn:KA; [|exfalso; exact (KEY _ _ DC CBC KE KA)].
    destruct (KL b eq_refl eq_refl) as [_ BL].
    constructor; cbn [session_enc_mat em_alg em_key em_edks em_sig km_key km_alg km_edks km_sig]; auto; try lia. }
  destruct (in_dec N.eq_dec alg signed_suites) as [S|S].
  - destruct (N.eqb_spec (ap_sig_len p) 0) as [Z|Z]; [apply SG in Z; contradiction|].
    destruct (hw_keygen _ _ _ HW S) as [sc [pub K]]. rewrite K in G1, G2.
    destruct (ctx_put_created reserved_key pub (rq_ctx rq)) as [[P _]|[_ X]]; [|contradiction]. rewrite P in G1, G2. cbn [fst] in G1, G2.
    assert (MC : message_ctx ec alg (rq_ctx rq) (rq_ctx rq ++ [(reserved_key, pub)])) by (split; [eauto|contradiction]).
    apply (FIN (Some sc) (rq_ctx rq ++ [(reserved_key, pub)])); auto.
    + unfold distinct_keys in *. rewrite map_app. cbn [map fst]. apply NoDup_app_split. split; auto.
      split; [repeat constructor; intros []|]. intros x J [<-|[]]. contradiction.
    + unfold ctx_bytes. apply Forall_app. split; auto. apply Forall_cons; [|constructor]. cbn [fst snd]. split; [apply reserved_bytes|eauto].
    + split; [auto|discriminate].
    + match type of G1 with context [keyring_on_encrypt ?a ?b ?c ?d] => destruct (keyring_on_encrypt a b c d) as [x rc] end. exact G1.
    + intros a KE. unfold fresh_args in KE. rewrite KE in G2. exact G2.
  - assert (Z : ap_sig_len p = 0) by now apply SG. rewrite Z in G1, G2. change (0 =? 0) with true in G1, G2. cbv iota in G1, G2.
    apply (FIN None (rq_ctx rq)); auto.
    + split; [contradiction|auto].
    + split; [congruence|contradiction].
    + match type of G1 with context [keyring_on_encrypt ?a ?b ?c ?d] => destruct (keyring_on_encrypt a b c d) as [x rc] end. exact G1.
    + intros a KE. unfold fresh_args in KE. rewrite KE in G2. exact G2.
Qed.

Lemma decrypt_full : forall cr wd e cap msg, s_state (w_s wd) = ST_CONFIG -> is_decrypt_mode (s_mode (w_s wd)) = true ->
  w_in wd = [] -> w_out wd = [] -> 
  (o_rc (snd (exec cr wd (OProcess e cap msg))) = POk /\ is_done (w_s (fst (exec cr wd (OProcess e cap msg)))) = true /\
   w_in (fst (exec cr wd (OProcess e cap msg))) = msg) ->
  exec cr wd (OProcessFull e cap msg) = exec cr wd (OProcess e cap msg).
Proof.
  intros cr wd e cap msg ST DM WI WO [A [B C]]. cbn [exec] in *. unfold after_process in *. cbn [snd o_rc] in A. rewrite A in B, C |- *.
  cbn [fst w_s w_in] in B, C. rewrite WI in C. cbn [app] in C.
  assert (RD : pr_read (process cr e (w_s wd) cap msg) = Nlen msg).
  { pose proof (process_read_le cr e (w_s wd) cap msg) as LE. set (k := pr_read _) in *. clearbody k. clear - C LE.
    assert (length (firstn (N.to_nat k) msg) = length msg) by now rewrite C. rewrite firstn_length in H. unfold Nlen in *. lia. }
  unfold process_full. rewrite ST. change (sstate_eqb ST_CONFIG ST_CONFIG) with true. cbn [negb].
  replace (is_encrypt_mode (s_mode (w_s wd))) with false by (destruct (s_mode (w_s wd)); try discriminate DM; reflexivity).
  cbv iota zeta. rewrite A, B, RD, N.eqb_refl. cbn [andb]. cbv iota. rewrite A. rewrite A. rewrite RD. reflexivity.
Qed.

Lemma set_message_size_mode : forall cr g n s, s_state s = ST_CONFIG -> s_mode (fst (set_message_size cr g n s)) = s_mode s.
Proof.
  intros cr g n s ST. unfold set_message_size, compute_body_estimate, fail_session. sproj. rewrite ST.
  repeat (match goal with |- context [if ?c then _ else _] => destruct c | |- context [match ?c with _ => _ end] => destruct c end;
    cbn [fst snd]; sproj); reflexivity.
Qed.
Lemma process_full_mode : forall cr e s cap input, s_state s = ST_CONFIG -> s_mode (pr_sess (process_full cr e s cap input)) = s_mode s.
Proof.
  intros cr e s cap input ST. unfold process_full. destruct (negb _); [reflexivity|].
  assert (M : s_mode (fst (if is_encrypt_mode (s_mode s) then set_message_size cr (e_garbage e) (Nlen input) s else (s, POk))) = s_mode s).
  { destruct (is_encrypt_mode _); [now apply set_message_size_mode|reflexivity]. }
  destruct (if is_encrypt_mode (s_mode s) then _ else _) as [s1 rc]. cbn [fst] in M. rewrite <- M.
  destruct rc; try reflexivity. rewrite <- (process_mode cr e s1 cap input). set (r := process _ _ _ _ _). clearbody r. cbv zeta.
  destruct (pr_rc r) eqn:RC; try (rewrite RC); try reflexivity. destruct (_ && _); [rewrite RC; reflexivity|]. reflexivity.
Qed.

Lemma C70_one_call_lemma : forall cr m ops w e cap input ctx w' r ec ec2 ke kd da da2 alg n md opsd wd e2 cap2 wd' rd,
  crypto_sizes cr -> dec_inverts cr -> crypto_works cr -> crypto_bytes cr ->
  history cr m ops w -> s_mode (w_s w) = M_ENCRYPT -> s_state (w_s w) = ST_CONFIG -> visible_ctx (w_s w) = Some ctx ->
  distinct_keys ctx -> ctx_bytes ctx -> ~ In reserved_key (map fst ctx) ->
  (forall c, message_ctx ec alg ctx c -> ctx_fits c) ->
  suite alg -> stack_suite da (s_policy (w_s w)) alg -> policy_permits_encrypt (s_policy (w_s w)) alg ->
  stack_env cr ec ec2 (mk_default_cmm ke da) alg e -> helpers_work ec alg e -> e_in_null e = false ->
  tidy ke alg n -> wraps ke alg -> n <= 10922 -> recovers ke kd alg -> (s_max (w_s w) = 0 \/ n <= s_max (w_s w)) ->
  bytes_ok input -> size_fits (s_fsize (w_s w)) (Nlen input) -> s_known (w_s w) = false -> Nlen input <= s_bound (w_s w) ->
  2147483648 + 41 * Nlen input + 145 <= cap -> exec cr w (OProcessFull e cap input) = (w', r) ->
  history cr md opsd wd -> is_decrypt_mode (s_mode (w_s wd)) = true -> s_state (w_s wd) = ST_CONFIG ->
  policy_permits_decrypt (s_policy (w_s wd)) alg -> (s_max (w_s wd) = 0 \/ n <= s_max (w_s wd)) ->
  (s_mode (w_s wd) = M_DECRYPT_UNSIGNED -> ~ In alg signed_suites) ->
  decrypts_with ec2 (mk_default_cmm kd da2) e2 -> Nlen input <= cap2 ->
  exec cr wd (OProcessFull e2 cap2 (o_mem r)) = (wd', rd) ->
  o_rc r = POk /\ o_read r = Nlen input /\ is_done (w_s w') = true /\
  o_rc rd = POk /\ o_mem rd = input /\ is_done (w_s wd') = true /\ get_alg_id (w_s wd') = Some alg /\
  exists c c', message_ctx ec alg ctx c /\ visible_ctx (w_s wd') = Some c' /\ Permutation c' c.
Proof.
  intros cr m ops w e cap input ctx w' r ec ec2 ke kd da da2 alg n md opsd wd e2 cap2 wd' rd
    CS DI CW CB H EM ST VC DK CTB NR FITS SU SS POLE SE HW NN TI WR N1 RE MXE BI SF KN BD CAP E HD DM STD POLD MXD UNS DW CAP2 ED.
  pose proof H as [V [OB [rsw [R F]]]].
  destruct SE as [GW [RB SW]].
  assert (KEY : forall ctx a, distinct_keys ctx -> ctx_bytes ctx -> keyring_on_encrypt ke ctx alg fresh_args = (a, KrOk) -> ka_key a <> None).
  { intros c a D1 B1 K. destruct (RE c a D1 B1 K) as [b [Q _]]. congruence. }
  assert (KB : In alg signed_suites -> forall sc pub, ec_keygen ec alg = Ok (sc, pub) -> bytes_ok pub).
  { intros S sc pub K. apply (SW S sc pub K). }
  assert (GWK : gen_works e (w_s w) alg).
  { intros rq Q1 Q2 Q3. assert (EC : rq_ctx rq = ctx) by congruence. rewrite <- Q3. rewrite <- EC in *.
    eapply (stack_gen ec ke da e rq alg n); eauto; rewrite Q3; auto. }
  pose proof (history_inv _ _ _ _ CS H) as I. unfold winv in I.
  destruct (config_empty _ _ _ _ _ I ST) as [WI [WO WL]].
  assert (NA : get_alg_id (w_s w) = None).
  { clear - I ST. destruct I as [s CONF PR MD ST'|s CONF PR MD ST'|s CONF PR MD ST'|s i CONF EO ST' EB|s i l CONF EO ST' R L EB
    |s i l CONF EO ST' W EB K' PE|s i l tr trlog CONF EO ST' W F K' PE ET|s i l CONF DO ST' R L DB SG|s i l CONF DO ST' W DB SG
    |s i l tr trlog CONF DO ST' W DB DT|s s0 win wout log more ST' FS NE' MD I NON]; try congruence.
    - unfold get_alg_id. destruct PR. rewrite pr_alg. reflexivity.
    - destruct ST' as [|[]]; congruence. }
  assert (EW : env_works e (w_s w) alg).
  { constructor; [auto|congruence|apply HW|apply HW]. }
  destruct (C67_full_lemma cr m ops w e cap input w' r alg CS CW H EM ST BI EW SF NN KN BD CAP E) as [P1 [P2 P3]].
  split; auto. split; auto. split; auto.
  assert (H' : history cr m (ops ++ [OProcessFull e cap input]) w') by (eapply history_snoc; eauto; rewrite P1; reflexivity).
  assert (EX : w_in w' = input /\ w_out w' = o_mem r /\ s_mode (w_s w') = M_ENCRYPT /\
               forall ev, In ev (w_log w') -> ev_from e ev).
  { assert (MD := process_full_mode cr e (w_s w) cap input ST). assert (PF := process_full_from cr e (w_s w) cap input).
    cbn [exec] in E. unfold after_process in E. set (p := process_full _ _ _ _ _) in *. clearbody p.
    assert (E1 := f_equal fst E). assert (E2 := f_equal snd E). cbn [fst snd] in E1, E2.
    rewrite <- E2 in P1, P2 |- *. cbn [o_rc o_read o_mem] in *. rewrite P1 in E1. rewrite <- E1. cbn [w_in w_out w_s w_log].
    rewrite WI, WO, WL. cbn [app]. split; [|split; [reflexivity|split; [congruence|]]].
    - rewrite P2. unfold Nlen. rewrite Nnat.Nat2N.id. apply firstn_all.
    - intros ev J. eapply Forall_forall in PF; eauto. }
  destruct EX as [WI' [WO' [EM' EVS0]]].
  assert (EVS : forall ev, In ev (w_log w') -> exists e, stack_env cr ec ec2 (mk_default_cmm ke da) alg e /\ ev_from e ev).
  { intros ev J. exists e. split; [split; auto|auto]. }
  assert (RQ : forall rq c em, In (EvGen rq c em) (w_log w') -> rq_ctx rq = ctx /\ rq_alg rq = 0 /\ rq_policy rq = s_policy (w_s w)).
  { intros rq c em J. assert (L : w_log w' = w_log w ++ w_log w') by now rewrite WL.
    pose proof (C64_lemma cr m ops w rsw (OProcessFull e cap input) w' r _ rq c em CS V OB BI R F E L J) as Q. cbv zeta in Q. rewrite Q. cbn [rq_ctx rq_alg rq_policy].
    pose proof (C65_initial_lemma cr m ops w rsw CS V OB R F EM ST) as VI.
    split; [congruence|]. split; [reflexivity|].
    assert (I0 : winv cr (new_world m)) by exact (new_session_inv cr m V). rewrite (run_policy cr ops _ _ _ CS OB I0 R F). unfold policy_in_force. f_equal.
    destruct m; try discriminate V; reflexivity. }
  assert (GA : get_alg_id (w_s w') = Some alg).
  { pose proof (history_inv _ _ _ _ CS H') as I'. unfold winv in I'.
    destruct (enc_shape _ _ _ _ _ I' (done_live _ P3) EM' (or_intror P3)) as [i [l [tr [trlog [EO [SE' [CF [E1 [E2 [E3 _]]]]]]]]]].
    assert (J : In (EvGen (ei_rq i) (ei_ctx i) (ei_m i)) (w_log w')) by (rewrite E3; unfold elog, enc_log; cbn [app]; now left).
    destruct (RQ _ _ _ J) as [Q1 [Q2 Q3]]. destruct (GWK (ei_rq i) ltac:(congruence) Q2 Q3) as [c0 [em0 [G0 FT]]].
    pose proof (EVS0 _ J) as EV. cbn [ev_from] in EV. assert (em0 = ei_m i) by congruence. subst em0.
    unfold get_alg_id. rewrite (eo_alg _ _ _ EO). destruct (suite_facts _ _ (eo_lookup _ _ _ EO)) as [-> _].
    f_equal. exact (ft_alg _ _ _ _ _ FT). }
  assert (RQ' : forall rq c em, In (EvGen rq c em) (w_log w') -> distinct_keys (rq_ctx rq) /\ ctx_bytes (rq_ctx rq)).
  { intros rq c em J. destruct (RQ _ _ _ J) as [-> _]. auto. }
  pose proof (history_inv _ _ _ _ CS HD) as ID. unfold winv in ID. destruct (config_empty _ _ _ _ _ ID STD) as [WID [WOD _]].
  pose proof (core_roundtrip cr m (ops ++ [OProcessFull e cap input]) w' ec ec2 ke kd da da2 alg md opsd n wd) as CORE.
  destruct (CORE [] wd CS DI (cw_upd _ CW) CB H' EM' P3 GA EVS RQ' TI RE HD DM STD POLD MXD UNS (feed_nil _ _ _ _)) as [_ [_ [_ [_ K1]]]].
  specialize (K1 e2 cap2 (o_mem r) DW). rewrite WID, WOD, WO', WI' in K1. specialize (K1 eq_refl ltac:(rewrite Nlen_nil; lia)). cbv zeta in K1.
  destruct (exec cr wd (OProcess e2 cap2 (o_mem r))) as [wx rx] eqn:EX. cbn [fst] in K1. destruct K1 as [K1 K2].
  assert (FD : feed cr (decrypts_with ec2 (mk_default_cmm kd da2)) (w_out w') wd [rx] wx).
  { apply (feed_call _ _ _ wd e2 cap2 (o_mem r) wx rx [] wx); auto; [|constructor]. rewrite WID, WO'. exists []. symmetry. apply app_nil_r. }
  destruct (CORE [rx] wx CS DI (cw_upd _ CW) CB H' EM' P3 GA EVS RQ' TI RE HD DM STD POLD MXD UNS FD) as [_ [A1 [_ [A2 _]]]].
  inversion A1 as [|? ? A1' _]; subst. destruct (A2 K1) as [A3 [A4 [A5 [rq [c [em [c' [A6 [A7 [A8 A9]]]]]]]]]].
  assert (EQ : exec cr wd (OProcessFull e2 cap2 (o_mem r)) = exec cr wd (OProcess e2 cap2 (o_mem r))).
  { apply decrypt_full; auto. rewrite EX. cbn [fst snd]. rewrite <- WO'. auto. }
  rewrite EQ, EX in ED. assert (wx = wd') by congruence. assert (rx = rd) by congruence. subst wx rx.
  split; auto. split.
  { clear - EX A1' K2 WOD. cbn [exec] in EX. unfold after_process in EX. assert (Q1 := f_equal fst EX). assert (Q2 := f_equal snd EX).
    cbn [fst snd] in Q1, Q2. rewrite <- Q2 in A1' |- *. cbn [o_rc o_mem] in *. rewrite A1' in Q1. rewrite <- Q1 in K2. cbn [w_out] in K2.
    rewrite WOD in K2. exact K2. }
  split; auto. split; auto. exists c, c'. destruct (RQ _ _ _ A6) as [<- _]. auto.
Qed.
