(** What a session tells the materials manager and the caller: requests, contexts, traces. *)
From Verif Require Import Base AlgModel EncCtxModel HdrModel FrameModel CryptoModel SessionModel
  BaseProofs WireSpec SessionSpec ReportSpec EncCtxProofs HdrProofs FrameProofs SessionBase SessionInv SessionStep SessionStepD
  SessionRun SessionTheorems.
From Coq Require Import ZArith ZifyBool ZifyNat ZifyN.
Import List.
Open Scope list_scope.
Open Scope N_scope.

(** ** Steps that do not call the materials manager *)

Definition quiet (ev : event) : Prop := match ev with EvGen _ _ _ | EvUnwrap _ _ => False | _ => True end.
Definition early (s : session) : Prop := s_state s = ST_CONFIG \/ s_state s = ST_GEN_KEY.

Definition kept (s s' : session) : Prop :=
  s_hdr s' = s_hdr s /\ s_cmm_ok s' = s_cmm_ok s /\ s_trace s' = s_trace s /\ (early s' -> early s).
Definition calm (s : session) (r : stepres) : Prop := kept s (sr_sess r) /\ Forall quiet (sr_log r).

Lemma kept_refl : forall s, kept s s.
Proof. intros s. repeat split. auto. Qed.

Ltac stay := solve [repeat split; auto; repeat constructor; auto].

Lemma calm_finish : forall s s1 st i o l, s_hdr s1 = s_hdr s -> s_cmm_ok s1 = s_cmm_ok s -> s_trace s1 = s_trace s ->
  (st <> ST_GEN_KEY /\ st <> ST_CONFIG \/ early s) -> (early s1 -> early s) -> Forall quiet l ->
  calm s (finish (change_state s1 st) i o l s1).
Proof.
  intros s s1 st i o l H C T ST E Q. unfold finish. destruct (change_state s1 st) eqn:CS; unfold calm, kept; sproj.
  - apply change_state_some in CS. subst. sproj. repeat split; auto. destruct ST as [[A B]|ST]; auto.
    unfold early. sproj. intros [|]; contradiction.
  - repeat split; auto.
Qed.

Lemma try_encrypt_body_calm : forall cr b g s room input, calm s (try_encrypt_body cr b g s room input).
Proof.
  intros. unfold try_encrypt_body. cbn zeta.
  assert (ST : forall a b, early (set_iest a (set_oest b s)) -> early s) by auto.
  destruct (next_frame s) as [[ty n]|]; [|stay].
  destruct (s_alg s); [|stay].
  destruct (_ <? _); [stay|].
  destruct (sr_res (serialize_frame _ _ _ _ _)) as [l|[]]; try stay.
  destruct (_ || _); [stay|]. destruct (encrypt_body _ _ _ _ _ _ _ _); [|stay|stay].
  destruct (sig_update_opt _ _ _); [|stay].
  destruct ty; try (apply calm_finish; try reflexivity; [left; split; congruence|auto|repeat constructor]).
  stay.
Qed.

Lemma step_calm : forall cr e s room input,
  s_state s <> ST_GEN_KEY -> s_state s <> ST_READ_HEADER -> s_state s <> ST_UNWRAP_KEY ->
  calm s (step cr e s room input).
Proof.
  intros cr e s room input N1 N2 N3. unfold step. destruct (s_state s) eqn:ST; try congruence.
  - destruct (negb _); [stay|].
    destruct (is_encrypt_mode _); apply calm_finish; try reflexivity; try (right; left; exact ST); auto; constructor.
  - stay.
  - stay.
  - unfold try_decrypt_body. cbn zeta. destruct (s_alg s); [|stay].
    destruct (ds_res _) as [[f rest]|[]]; try stay.
    destruct (negb _); [stay|]. destruct (_ <? _); [stay|].
    destruct (decrypt_body _ _ _ _ _ _ _ _ _ _); [|stay|stay].
    destruct (sig_update_opt _ _ _); [|stay].
    destruct (fr_type f); try (apply calm_finish; try reflexivity; [left; split; congruence|auto|repeat constructor]).
    stay.
  - unfold check_trailer. cbn zeta. sproj. destruct (s_sig s).
    + destruct (read_be _ _) as [[]|]; [|stay]. destruct (read_bytes _ _) as [[]|]; [|stay].
      destruct (cr_verify _ _ _); stay.
    + apply calm_finish; try reflexivity; [left; split; congruence|auto|repeat constructor].
  - unfold try_write_header. sproj. destruct (s_hcopy s); [|stay]. destruct (_ <=? _); [|stay].
    apply calm_finish; try reflexivity; [left; split; congruence|auto|repeat constructor].
  - apply try_encrypt_body_calm.
  - unfold write_trailer. cbn zeta. sproj. destruct (s_alg s); [|stay].
    destruct (_ =? _); [apply calm_finish; try reflexivity; [left; split; congruence|auto|repeat constructor]|].
    destruct (_ <? _); [stay|]. destruct (s_sig s); [|stay].
    destruct (e_sign e _); [|stay]. destruct (_ <? _); [stay|].
    apply calm_finish; try reflexivity; [left; split; congruence|auto|repeat constructor].
Qed.

(** ** The invariant *)

Definition told (s : session) (rq : enc_request) : Prop :=
  s_bound s <= rq_psize rq \/ (s_known s = true /\ s_precise s <= rq_psize rq).

(** [d] is the context chosen by the caller. *)
Record rep (d : enc_ctx) (s : session) (lg : list event) : Prop := mk_rep {
  rp_dec : is_decrypt_mode (s_mode s) = true -> s_cmm_ok s = true ->
    exists dm, In (EvUnwrap (mk_dec_request (h_alg_id (s_hdr s)) (h_edks (s_hdr s)) (h_enc_ctx (s_hdr s))) dm) lg /\ s_trace s = dm_trace dm;
  rp_enc : s_mode s = M_ENCRYPT -> s_cmm_ok s = true ->
    exists rq em, In (EvGen rq (h_enc_ctx (s_hdr s)) em) lg /\ s_trace s = em_trace em;
  rp_gen : s_mode s = M_ENCRYPT -> forall rq ctx em, In (EvGen rq ctx em) lg ->
    rq_ctx rq = d /\ rq_alg rq = 0 /\ h_enc_ctx (s_hdr s) = ctx /\ told s rq;
  rp_early : s_mode s = M_ENCRYPT -> early s -> h_enc_ctx (s_hdr s) = d;
}.

Lemma In_quiet : forall lg more ev, Forall quiet more -> ~ quiet ev -> In ev (lg ++ more) -> In ev lg.
Proof.
  intros lg more ev Q NQ I. apply in_app_iff in I. destruct I as [I|I]; auto.
  rewrite Forall_forall in Q. destruct (NQ (Q _ I)).
Qed.

Lemma rep_calm : forall d s s' lg more, rep d s lg -> kept s s' -> same_conf s s' -> Forall quiet more -> rep d s' (lg ++ more).
Proof.
  intros d s s' lg more [R1 R2 R3 R4] [K1 [K2 [K3 K4]]] [C1 [C2 [C3 [C4 [C5 C6]]]]] Q. constructor.
  - intros M CM. rewrite C1 in M. rewrite K2 in CM. destruct (R1 M CM) as [dm [I T]]. exists dm. rewrite K1, K3.
    split; auto. apply in_app_iff. auto.
  - intros M CM. rewrite C1 in M. rewrite K2 in CM. destruct (R2 M CM) as [rq [em [I T]]]. exists rq, em. rewrite K1, K3.
    split; auto. apply in_app_iff. auto.
  - intros M rq ctx em I. rewrite C1 in M. apply In_quiet in I; auto. destruct (R3 M rq ctx em I) as [A [B [C D]]].
    rewrite K1. repeat split; auto. unfold told in *. rewrite C3, C4, C5. exact D.
  - intros M E. rewrite C1 in M. rewrite K1. auto.
Qed.

(** ** The two steps that call it *)

Lemma sign_header_log : forall cr s p input log,
  h_enc_ctx (s_hdr (sr_sess (sign_header cr s p input log))) = h_enc_ctx (s_hdr s) /\
  s_cmm_ok (sr_sess (sign_header cr s p input log)) = s_cmm_ok s /\
  s_trace (sr_sess (sign_header cr s p input log)) = s_trace s /\
  (sr_rc (sign_header cr s p input log) = RGo -> ~ early (sr_sess (sign_header cr s p input log))) /\
  exists more, sr_log (sign_header cr s p input log) = log ++ more /\ Forall quiet more.
Proof.
  intros. unfold sign_header. cbn zeta.
  repeat match goal with
  | |- context [finish (change_state ?a ?b) _ _ _ _] =>
      let E := fresh in unfold finish; destruct (change_state a b) eqn:E; [apply change_state_some in E; subst|]
  | |- context [match ?x with _ => _ end] => destruct x
  | |- context [if ?x then _ else _] => destruct x
  end; sproj; (split; [reflexivity|]; split; [reflexivity|]; split; [reflexivity|]; split; [try discriminate|]);
  try (intros _ [E|E]; discriminate); try (exists []; split; [symmetry; apply app_nil_r|constructor]);
  eexists; (split; [reflexivity|repeat constructor]).
Qed.

(** The request a session makes. *)
Definition asked (s : session) : enc_request :=
  mk_enc_request (h_enc_ctx (s_hdr s)) 0 (if s_known s then s_precise s else s_bound s) (s_policy s).

Definition gen_report (s : session) (r : stepres) : Prop :=
  (sr_rc r = RGo -> ~ early (sr_sess r)) /\
  (sr_log r = [] /\ s_cmm_ok (sr_sess r) = false \/
   exists em more, sr_log r = EvGen (asked s) (h_enc_ctx (s_hdr (sr_sess r))) em :: more /\ Forall quiet more /\
     (s_cmm_ok (sr_sess r) = true -> s_trace (sr_sess r) = em_trace em)).

Lemma try_gen_key_log : forall cr e s input, s_cmm_ok s = false -> s_trace s = [] -> gen_report s (try_gen_key cr e s input).
Proof.
  intros cr e s input CM TR. unfold try_gen_key. cbn zeta. fold (asked s).
  destruct (e_gen e _) as [c [m|x]]; [|split; [discriminate|left; auto]].
  assert (STOP : forall s' i o rc more, rc <> RGo -> h_enc_ctx (s_hdr s') = c -> s_cmm_ok s' = false \/ s_trace s' = em_trace m ->
    Forall quiet more -> gen_report s (mk_step s' i o rc (EvGen (asked s) c m :: more))).
  { intros s' i o rc more RC H T Q. split; [sproj; congruence|]. right. exists m, more. sproj. rewrite H. split; auto. split; auto.
    destruct T as [T|T]; auto. congruence. }
  destruct (alg_lookup (em_alg m)) as [p|]; [|apply STOP; auto; try discriminate; constructor].
  destruct (negb _); [apply STOP; auto; try discriminate; constructor|].
  destruct (_ =? _); [apply STOP; auto; try discriminate; constructor|].
  destruct (_ && _); [apply STOP; auto; try discriminate; constructor|].
  destruct (negb _); [apply STOP; auto; try discriminate; constructor|].
  destruct (_ && _); [apply STOP; auto; try discriminate; constructor|].
  destruct (negb _); [apply STOP; auto; try discriminate; constructor|].
  destruct (e_rand e _) as [mid|]; [|apply STOP; sproj; rewrite ?TR; auto; try discriminate; constructor].
  match goal with |- context [kd_rc ?k] => destruct (kd_rc k) end.
  2,3: unfold must_include_commitment; sproj; destruct (s_policy s); (apply STOP; sproj; rewrite ?TR; auto; try discriminate; repeat constructor).
  unfold build_header.
  match goal with |- context [UINT32_MAX <? ?n] => destruct (UINT32_MAX <? n) end.
  { unfold must_include_commitment; sproj; destruct (s_policy s); (apply STOP; sproj; rewrite ?TR; auto; try discriminate; repeat constructor). }
  match goal with |- context [match h_edks ?h with _ => _ end] => destruct (h_edks h) end.
  2:{ unfold must_include_commitment; sproj; destruct (s_policy s); (apply STOP; sproj; rewrite ?TR; auto; try discriminate; repeat constructor). }
  match goal with |- context [sign_header cr ?a ?b ?c ?d] => destruct (sign_header_log cr a b c d) as [A [B [C [D [more [L Q]]]]]] end.
  split; [exact D|]. right. exists m, (EvRand mid :: more). rewrite L, A, C.
  split; [|split; [repeat constructor; auto|]].
  - cbn [app]. unfold must_include_commitment; sproj; destruct (s_policy s); reflexivity.
  - intros _. unfold must_include_commitment; sproj; destruct (s_policy s); sproj; now rewrite TR.
Qed.

Definition unwrap_report (r : stepres) : Prop :=
  sr_log r = [] /\ s_cmm_ok (sr_sess r) = false \/
  exists dm more, sr_log r = EvUnwrap (mk_dec_request (h_alg_id (s_hdr (sr_sess r))) (h_edks (s_hdr (sr_sess r))) (h_enc_ctx (s_hdr (sr_sess r)))) dm :: more /\
    Forall quiet more /\ s_trace (sr_sess r) = dm_trace dm.

Lemma unwrap_keys_log : forall cr e s input, s_cmm_ok s = false -> s_trace s = [] -> unwrap_report (unwrap_keys cr e s input).
Proof.
  intros cr e s input CM TR. unfold unwrap_keys. cbn zeta. sproj. destruct (alg_lookup _) as [p|] eqn:L; [|left; auto].
  destruct (e_dec e _) as [m|]; [|left; auto].
  destruct (alg_lookup_lens _ _ L) as [_ [_ [_ ID]]]. rewrite ID.
  set (ev := EvUnwrap _ _).
  assert (STOP : forall s' i o rc more, s_hdr s' = s_hdr s -> s_trace s' = dm_trace m -> Forall quiet more ->
    unwrap_report (mk_step s' i o rc (ev :: more))).
  { intros s' i o rc more H T Q. right. exists m, more. sproj. rewrite H, T. auto. }
  destruct (alg_lookup (dm_alg m)); [|apply STOP; sproj; rewrite ?TR; auto; constructor].
  match goal with |- context [if ?c then _ else _] => destruct c end; [apply STOP; sproj; rewrite ?TR; auto; constructor|].
  match goal with |- context [derive_data_key cr e ?a p m] => set (s1 := a);
    assert (H1 : s_hdr s1 = s_hdr s /\ s_trace s1 = dm_trace m) by (unfold s1; sproj; rewrite ?TR; auto) end.
  assert (H2 : s_hdr (fst (derive_data_key cr e s1 p m)) = s_hdr s1 /\ s_trace (fst (derive_data_key cr e s1 p m)) = s_trace s1).
  { unfold derive_data_key. cbn zeta. repeat match goal with
      | |- context [if ?x then _ else _] => destruct x
      | |- context [match ?x with _ => _ end] => destruct x end; cbn [fst]; auto. }
  destruct (derive_data_key cr e s1 p m) as [s2 rc]. cbn [fst] in H2. destruct H1 as [H1 T1], H2 as [H2 T2].
  rewrite H1 in H2. rewrite T1 in T2. clear H1 T1. clearbody s1.
  destruct rc; try (apply STOP; auto; constructor).
  assert (VQ : Forall quiet (snd (validate_header cr e s2 p))).
  { unfold validate_header. cbn zeta. repeat match goal with
      | |- context [if ?x then _ else _] => destruct x
      | |- context [match ?x with _ => _ end] => destruct x end; cbn [snd]; repeat constructor. }
  destruct (validate_header cr e s2 p) as [[] vlog]; cbn [snd] in VQ; cbn [app]; try (apply STOP; auto; fail).
  assert (FIN : forall s' i o st, s_hdr s' = s_hdr s -> s_trace s' = dm_trace m ->
    unwrap_report (finish (change_state s' st) i o (ev :: vlog) s')).
  { intros s' i o st H T. unfold finish. destruct (change_state s' st) eqn:E; [apply change_state_some in E; subst|]; apply STOP; auto. }
  match goal with |- context [if ?c then _ else _] => destruct c end.
  - destruct (dm_sig m) as [sc|]; [|apply STOP; auto].
    match goal with |- context [sig_update ?a ?b ?c] => destruct (sig_update a b c) end; [|apply STOP; auto].
    apply FIN; auto.
  - apply FIN; auto.
Qed.

(** ** Steps, loop, calls *)

(** The session after a step, in the error state if the step failed. *)
Definition settle (r : stepres) : session := match sr_rc r with RGo => sr_sess r | _ => set_state ST_ERROR (sr_sess r) end.

Lemma rep_settle : forall d r lg, rep d (sr_sess r) lg -> rep d (settle r) lg.
Proof.
  intros d r lg [R1 R2 R3 R4]. unfold settle. destruct (sr_rc r); constructor; sproj; auto; intros _ [E|E]; discriminate.
Qed.

Lemma step_rep : forall cr e d s room input win wout log, inv cr s win wout log -> rep d s log ->
  rep d (settle (step cr e s room input)) (log ++ sr_log (step cr e s room input)).
Proof.
  intros cr e d s room input win wout log I R. pose proof (step_conf cr e s room input) as C.
  assert (N3 : s_state s <> ST_UNWRAP_KEY).
  { intros E. destruct I; try congruence; match goal with H : _ \/ _ |- _ => destruct H as [|[]]; congruence end. }
  destruct (sstate_eqb_spec (s_state s) ST_GEN_KEY) as [G|G]; [|destruct (sstate_eqb_spec (s_state s) ST_READ_HEADER) as [H|H]].
  3:{ destruct (step_calm cr e s room input G H N3) as [K Q]. apply rep_settle. eapply rep_calm; eauto. }
  - assert (P : pristine s /\ s_mode s = M_ENCRYPT /\ log = []).
    { destruct I; try congruence; auto; match goal with H : _ \/ _ |- _ => destruct H as [|[]]; congruence end. }
    destruct P as [P [M ->]]. pose proof (rp_early _ _ _ R M (or_intror G)) as D.
    destruct (try_gen_key_log cr e s input (pr_cmm _ P) (pr_trace _ P)) as [NE L].
    assert (ES : step cr e s room input = try_gen_key cr e s input) by (unfold step; now rewrite G).
    rewrite ES in *. set (r := try_gen_key cr e s input) in *. clearbody r. clear R I ES.
    destruct C as [C1 [C2 [C3 [C4 [C5 C6]]]]]. cbn [app].
    assert (FIELDS : s_mode (settle r) = M_ENCRYPT /\ s_cmm_ok (settle r) = s_cmm_ok (sr_sess r) /\ s_hdr (settle r) = s_hdr (sr_sess r) /\
      s_trace (settle r) = s_trace (sr_sess r) /\ s_bound (settle r) = s_bound s /\ s_known (settle r) = s_known s /\
      s_precise (settle r) = s_precise s /\ ~ early (settle r)).
    { rewrite <- M, <- C1, <- C3, <- C4, <- C5. unfold settle. destruct (sr_rc r); sproj; repeat split; auto; intros [E|E]; discriminate. }
    destruct FIELDS as [F1 [F2 [F3 [F4 [F5 [F6 [F7 F8]]]]]]].
    constructor; rewrite ?F1, ?F2, ?F3, ?F4; try discriminate; try contradiction.
    + intros _ OK. destruct L as [[L1 L2]|[em [more [L1 [L2 L3]]]]]; [congruence|].
      exists (asked s), em. rewrite L1. split; [now left|auto].
    + intros _ rq ctx em I. destruct L as [[L1 L2]|[em' [more [L1 [L2 L3]]]]]; [rewrite L1 in I; destruct I|].
      rewrite L1 in I. destruct I as [I|I].
      * assert (E1 : asked s = rq) by congruence. assert (E2 : h_enc_ctx (s_hdr (sr_sess r)) = ctx) by congruence.
        subst rq ctx. split; [exact D|]. split; [reflexivity|]. split; [reflexivity|].
        unfold told, asked. rewrite F5, F6, F7. cbn [rq_psize]. destruct (s_known s); [right|left]; lia.
      * rewrite Forall_forall in L2. destruct (L2 _ I).
  - assert (P : pristine s /\ is_decrypt_mode (s_mode s) = true /\ log = []).
    { destruct I; try congruence; auto; match goal with H : _ \/ _ |- _ => destruct H as [|[]]; congruence end. }
    destruct P as [P [M ->]]. apply rep_settle. cbn [app].
    assert (ES : step cr e s room input = try_parse_header cr e s input) by (unfold step; now rewrite H).
    rewrite ES in *.
    assert (U : unwrap_report (try_parse_header cr e s input)).
    { unfold try_parse_header. cbn zeta. pose proof (pr_cmm _ P) as CM.
      destruct (hdr_parse _ _) as [[h rest]|[]]; try (left; split; [reflexivity|exact CM]).
      destruct (_ =? 0); [left; auto|]. destruct (negb _); [left; auto|].
      match goal with |- context [change_state ?a ?b] => destruct (change_state a b) eqn:E end; [|left; auto].
      apply change_state_some in E. subst. apply unwrap_keys_log; [exact CM|exact (pr_trace _ P)]. }
    set (r := try_parse_header cr e s input) in *. clearbody r. clear ES R I. destruct C as [C1 _].
    constructor; rewrite C1.
    + intros _ OK. destruct U as [[L1 L2]|[dm [more [L1 [L2 L3]]]]]; [congruence|].
      exists dm. rewrite L1. split; [now left|auto].
    + intros E. rewrite E in M. discriminate.
    + intros E. rewrite E in M. discriminate.
    + intros E. rewrite E in M. discriminate.
Qed.

Lemma loop_rep : forall fuel cr e d s room input out lg win wout log,
  crypto_sizes cr -> bytes_ok input -> inv cr s win (wout ++ out) (log ++ lg) -> rep d s (log ++ lg) ->
  let r := process_loop fuel cr e s room input out lg in
  rep d (match lr_rc r with POk => lr_sess r | _ => set_state ST_ERROR (lr_sess r) end) (log ++ lr_log r).
Proof.
  induction fuel as [|fuel IH]; intros cr e d s room input out lg win wout log CS BO I R; cbn zeta.
  { cbn [process_loop lr_sess lr_rc lr_log]. destruct R; constructor; sproj; auto; intros _ [E|E]; discriminate. }
  cbn [process_loop].
  pose proof (step_inv cr e s room input _ _ _ CS BO I) as G.
  pose proof (step_rep cr e d s room input _ _ _ I R) as S. unfold settle in S.
  set (r := step cr e s room input) in *. clearbody r.
  destruct G as [used [E [OUT G]]]. rewrite <- app_assoc in S.
  destruct (sr_rc r) eqn:RC; cbn [lr_sess lr_rc lr_log]; auto.
  match goal with |- context [if ?c then _ else _] => destruct c end; cbn [lr_sess lr_rc lr_log]; auto.
  rewrite <- !app_assoc in G.
  apply (IH cr e d (sr_sess r) _ (sr_in r) (out ++ sr_out r) (lg ++ sr_log r) (win ++ used) wout log); auto.
  rewrite E in BO. apply Forall_app in BO. tauto.
Qed.

Lemma rep_error : forall d s lg x, rep d s lg -> rep d (set_state ST_ERROR (set_error x s)) lg.
Proof. intros d s lg x [R1 R2 R3 R4]. constructor; sproj; auto. intros _ [E|E]; discriminate. Qed.
Lemma rep_fail_session : forall d s lg x, rep d s lg -> rep d (fail_session s x) lg.
Proof. intros d s lg x R. unfold fail_session. destruct (sstate_eqb _ _); auto using rep_error. Qed.

Lemma process_rep : forall cr e d s cap input win wout log, crypto_sizes cr -> bytes_ok input -> inv cr s win wout log -> rep d s log ->
  stuck (pr_rc (process cr e s cap input)) = false ->
  rep d (pr_sess (process cr e s cap input)) (log ++ pr_log (process cr e s cap input)).
Proof.
  intros cr e d s cap input win wout log CS BO I R.
  assert (I' : inv cr s win (wout ++ []) (log ++ [])) by now rewrite !app_nil_r.
  assert (R' : rep d s (log ++ [])) by now rewrite app_nil_r.
  pose proof (loop_rep (loop_fuel input) cr e d s cap input [] [] win wout log CS BO I' R') as L. cbn zeta in L.
  unfold process. set (l := process_loop _ _ _ _ _ _ _ _) in *. clearbody l.
  destruct (lr_rc l) eqn:RC; cbn [pr_sess pr_rc pr_log stuck]; auto; try discriminate. intros _.
  destruct (sstate_eqb_spec (s_state (lr_sess l)) ST_ERROR) as [E|E].
  - rewrite <- E, set_state_id in L. exact L.
  - destruct L as [L1 L2 L3 L4]. constructor; sproj; auto.
Qed.

Lemma told_size : forall s n rq, s_known s = false -> told s rq -> told (set_known true (set_precise n s)) rq.
Proof. unfold told. sproj. intros s n rq K [T|[T _]]; [left; auto|congruence]. Qed.

Lemma rep_set_size : forall cr g n d s log, rep d s log -> rep d (fst (set_message_size cr g n s)) log.
Proof.
  intros cr g n d s log R. unfold set_message_size. destruct (negb _); [exact R|].
  destruct (s_known s) eqn:K; [apply rep_fail_session; exact R|].
  destruct (N.ltb_spec (s_bound s) (n mod two64)) as [B|B]; [apply rep_fail_session; exact R|]. cbn [fst].
  set (s1 := set_known true (set_precise (n mod two64) s)).
  assert (R1 : rep d s1 log).
  { destruct R as [R1 R2 R3 R4]. constructor; unfold s1; sproj; auto. intros M rq ctx em I.
    destruct (R3 M rq ctx em I) as [A [B1 [C D]]]. repeat split; auto. apply told_size; auto. }
  unfold compute_body_estimate. destruct (s_state s1) eqn:ST; auto.
  rewrite <- (app_nil_r log).
  assert (SC : same_conf s1 (sr_sess (try_encrypt_body cr false g s1 0 []))).
  { pose proof (step_conf cr (mk_env false false (fun rq => ([], Err E_OOM)) (fun rq => Err E_OOM) (fun _ => None) (fun _ => Err E_OOM) g) s1 0 []) as C.
    unfold step in C. rewrite ST in C. exact C. }
  eapply rep_calm; [exact R1|apply (try_encrypt_body_calm cr false g s1 0 [])|exact SC|constructor].
Qed.

Lemma rep_start : forall s, s_cmm_ok s = false -> h_enc_ctx (s_hdr s) = [] -> rep [] s [].
Proof. intros s C H. constructor; auto; try congruence. intros _ rq ctx em []. Qed.

Lemma exec_rep : forall cr d w o w' r, crypto_sizes cr -> op_bytes o -> winv cr w -> rep d (w_s w) (w_log w) ->
  exec cr w o = (w', r) -> stuck (o_rc r) = false -> rep (ctx_after d (o, r)) (w_s w') (w_log w').
Proof.
  intros cr d w o w' r CS OB I R E ST. unfold winv in I.
  destruct o as [m|n|g n|n|c|n|c|e cap input|e cap input]; cbn [exec] in E; unfold with_session, after_process in E.
  - injection E as <- <-. cbn [w_s w_log ctx_after fst snd o_rc]. apply rep_start; unfold reset; destruct (is_valid_mode m); reflexivity.
  - injection E as <- <-. cbn [w_s w_log ctx_after fst snd o_rc]. unfold set_frame_size.
    destruct (_ || _); [exact R|]. destruct R; constructor; sproj; auto.
  - injection E as <- <-. cbn [w_s w_log ctx_after fst snd o_rc]. now apply rep_set_size.
  - injection E as <- <-. cbn [w_s w_log ctx_after fst snd o_rc]. unfold set_message_bound.
    destruct (negb _); [exact R|]. destruct (_ && _) eqn:K; [apply rep_fail_session; exact R|]. cbn [fst].
    destruct (N.ltb_spec (n mod two64) (s_bound (w_s w))); [|exact R].
    destruct R as [R1 R2 R3 R4]. constructor; sproj; auto. intros M rq ctx em J. destruct (R3 M rq ctx em J) as [A [B [C D]]].
    repeat split; auto. unfold told in *. sproj. destruct D as [D|D]; [left; lia|right; exact D].
  - injection E as <- <-. cbn [w_s w_log ctx_after fst snd o_rc]. unfold set_commitment_policy.
    assert (R' : rep d (set_policy c (w_s w)) (w_log w)) by (destruct R; constructor; sproj; auto).
    destruct (negb _); [exact R'|]. destruct (negb _); [apply rep_fail_session|]; exact R'.
  - injection E as <- <-. cbn [w_s w_log ctx_after fst snd o_rc]. unfold set_max_edks.
    destruct (negb _); [apply rep_fail_session; exact R|]. destruct (_ =? _); [exact R|]. destruct R; constructor; sproj; auto.
  - injection E as <- <-. cbn [w_s w_log ctx_after fst snd o_rc]. unfold mutate_ctx.
    destruct (is_encrypt_mode (s_mode (w_s w)) && sstate_eqb (s_state (w_s w)) ST_CONFIG) eqn:C; [|exact R]. cbn [fst snd].
    apply andb_prop in C. destruct C as [EM C]. destruct (sstate_eqb_spec (s_state (w_s w)) ST_CONFIG) as [C'|]; [|discriminate].
    assert (P : s_cmm_ok (w_s w) = false /\ w_log w = []).
    { destruct I; try congruence.
      - split; auto. match goal with H : pristine _ |- _ => apply H end.
      - match goal with H : _ \/ _ |- _ => destruct H as [|[]]; congruence end. }
    destruct P as [P1 ->]. constructor; sproj; try congruence; auto. intros _ rq ctx em [].
  - pose proof (process_rep cr e d (w_s w) cap input _ _ _ CS OB I R) as P.
    set (q := process _ _ _ _ _) in *. clearbody q. injection E as <- <-. cbn [o_rc] in ST. specialize (P ST).
    replace (ctx_after d (OProcess e cap input, _)) with d by reflexivity. destruct (pr_rc q); exact P.
  - assert (P : stuck (pr_rc (process_full cr e (w_s w) cap input)) = false ->
      rep d (pr_sess (process_full cr e (w_s w) cap input)) (w_log w ++ pr_log (process_full cr e (w_s w) cap input))).
    { unfold process_full. destruct (negb _); [cbn [pr_sess pr_log]; rewrite app_nil_r; auto|].
      assert (SZ : exists s1 rc, (if is_encrypt_mode (s_mode (w_s w)) then set_message_size cr (e_garbage e) (Nlen input) (w_s w) else (w_s w, POk)) = (s1, rc) /\
        rep d s1 (w_log w) /\ inv cr s1 (w_in w) (w_out w) (w_log w)).
      { destruct (is_encrypt_mode _).
        - eexists _, _. split; [apply surjective_pairing|]. split; [now apply rep_set_size|now apply set_message_size_inv].
        - eexists _, _. split; [reflexivity|]. auto. }
      destruct SZ as [s1 [rc [-> [R1 I1]]]].
      destruct rc; try (cbn [pr_sess pr_log]; rewrite app_nil_r; auto; fail).
      pose proof (process_rep cr e d s1 cap input _ _ _ CS OB I1 R1) as P.
      set (q := process _ _ _ _ _) in *. clearbody q.
      destruct (pr_rc q) eqn:RC; try (rewrite !RC; cbn [pr_sess pr_log pr_rc stuck]; auto; fail).
      destruct (_ && _); [rewrite !RC; auto|]. cbn [pr_sess pr_log pr_rc]. intros _. apply rep_error. auto. }
    set (q := process_full _ _ _ _ _) in *. clearbody q. injection E as <- <-. cbn [o_rc] in ST. specialize (P ST).
    replace (ctx_after d (OProcessFull e cap input, _)) with d by reflexivity. destruct (pr_rc q); exact P.
Qed.

Lemma run_rep : forall cr ops d w w' rs, crypto_sizes cr -> Forall op_bytes ops -> winv cr w -> rep d (w_s w) (w_log w) ->
  run cr w ops = (w', rs) -> Forall (fun r => stuck (o_rc r) = false) rs ->
  rep (fold_left ctx_after (combine ops rs) d) (w_s w') (w_log w').
Proof.
  intros cr ops. induction ops as [|o ops IH]; intros d w w' rs CS OB I RP R F; cbn [run] in R.
  { injection R as <- <-. exact RP. }
  inversion OB as [|? ? OB1 OB2]; subst. pose proof (exec_good cr w o CS OB1 I) as X.
  destruct (exec cr w o) as [w1 r] eqn:E. destruct (stuck (o_rc r)) eqn:SR.
  { injection R as <- <-. inversion F. congruence. }
  destruct (run cr w1 ops) as [w2 rs2] eqn:R2. injection R as <- <-. inversion F; subst.
  cbn [combine fold_left]. eapply IH; [auto|auto|apply X; auto|eapply exec_rep; eauto|exact R2|auto].
Qed.

Lemma run_report : forall cr m ops w rs, crypto_sizes cr -> is_valid_mode m = true -> Forall op_bytes ops ->
  run cr (new_world m) ops = (w, rs) -> Forall (fun r => stuck (o_rc r) = false) rs ->
  rep (chosen_ctx (combine ops rs)) (w_s w) (w_log w).
Proof.
  intros cr m ops w rs CS V OB R F. eapply run_rep; eauto; [apply new_session_inv; exact V|].
  apply rep_start; destruct m; try discriminate V; reflexivity.
Qed.

(** ** Requests *)

Lemma step_asked : forall cr e s room input win wout log, crypto_sizes cr -> bytes_ok input -> inv cr s win wout log ->
  (forall rq c em, In (EvGen rq c em) (sr_log (step cr e s room input)) -> early s /\ s_mode s = M_ENCRYPT /\ rq = asked s) /\
  (sr_rc (step cr e s room input) = RGo -> early (sr_sess (step cr e s room input)) ->
   early s /\ s_mode (sr_sess (step cr e s room input)) = s_mode s /\ asked (sr_sess (step cr e s room input)) = asked s).
Proof.
  intros cr e s room input win wout log CS BO I. pose proof (step_conf cr e s room input) as C.
  assert (N3 : s_state s <> ST_UNWRAP_KEY).
  { intros E. destruct I; try congruence; match goal with H : _ \/ _ |- _ => destruct H as [|[]]; congruence end. }
  destruct (sstate_eqb_spec (s_state s) ST_GEN_KEY) as [G|G]; [|destruct (sstate_eqb_spec (s_state s) ST_READ_HEADER) as [H|H]].
  3:{ destruct (step_calm cr e s room input G H N3) as [[K1 [K2 [K3 K4]]] Q]. split.
      - intros rq c em J. rewrite Forall_forall in Q. destruct (Q _ J).
      - intros _ E. split; auto. destruct C as [C1 [C2 [C3 [C4 [C5 C6]]]]]. split; auto. unfold asked. now rewrite K1, C2, C3, C4, C5. }
  - assert (P : pristine s /\ s_mode s = M_ENCRYPT) by (destruct I; try congruence; auto; match goal with H : _ \/ _ |- _ => destruct H as [|[]]; congruence end).
    destruct P as [P M]. destruct (try_gen_key_log cr e s input (pr_cmm _ P) (pr_trace _ P)) as [NE L].
    assert (ES : step cr e s room input = try_gen_key cr e s input) by (unfold step; now rewrite G).
    rewrite ES in *. split; [|intros RG E; destruct (NE RG E)]. intros rq c em J. split; [right; exact G|]. split; [exact M|].
    destruct L as [[L1 L2]|[em' [more [L1 [L2 L3]]]]]; [rewrite L1 in J; destruct J|].
    rewrite L1 in J. destruct J as [J|J]; [congruence|]. rewrite Forall_forall in L2. destruct (L2 _ J).
  - assert (P : pristine s) by (destruct I; try congruence; auto; match goal with H : _ \/ _ |- _ => destruct H as [|[]]; congruence end).
    assert (ES : step cr e s room input = try_parse_header cr e s input) by (unfold step; now rewrite H).
    rewrite ES in *.
    assert (U : unwrap_report (try_parse_header cr e s input)).
    { unfold try_parse_header. cbn zeta. pose proof (pr_cmm _ P) as CM.
      destruct (hdr_parse _ _) as [[h rest]|[]]; try (left; split; [reflexivity|exact CM]).
      destruct (_ =? 0); [left; auto|]. destruct (negb _); [left; auto|].
      match goal with |- context [change_state ?a ?b] => destruct (change_state a b) eqn:E end; [|left; auto].
      apply change_state_some in E. subst. apply unwrap_keys_log; [exact CM|exact (pr_trace _ P)]. }
    split.
    + intros rq c em J. destruct U as [[L1 L2]|[dm [more [L1 [L2 L3]]]]]; [rewrite L1 in J; destruct J|].
      rewrite L1 in J. destruct J as [J|J]; [discriminate|]. rewrite Forall_forall in L2. destruct (L2 _ J).
    + intros RG E. pose proof (step_adv cr e s room input _ _ _ CS BO I) as A. rewrite ES in A.
      destruct (A RG) as [_ [_ A']]. rewrite H in A'. exfalso.
      destruct E as [E|E]; rewrite E in A'; destruct A' as [A'|[A' _]]; try discriminate; cbn in A'; lia.
Qed.

Lemma loop_asked : forall fuel cr e s room input out lg win wout log,
  crypto_sizes cr -> bytes_ok input -> inv cr s win (wout ++ out) (log ++ lg) ->
  exists new, lr_log (process_loop fuel cr e s room input out lg) = lg ++ new /\
    forall rq c em, In (EvGen rq c em) new -> early s /\ s_mode s = M_ENCRYPT /\ rq = asked s.
Proof.
  induction fuel as [|fuel IH]; intros cr e s room input out lg win wout log CS BO I.
  { exists []. cbn [process_loop lr_log]. rewrite app_nil_r. split; auto. intros rq c em []. }
  cbn [process_loop].
  pose proof (step_inv cr e s room input _ _ _ CS BO I) as G.
  pose proof (step_asked cr e s room input _ _ _ CS BO I) as [A1 A2].
  set (r := step cr e s room input) in *. clearbody r.
  destruct G as [used [E [OUT G]]].
  destruct (sr_rc r) eqn:RC; cbn [lr_log]; try (exists (sr_log r); auto; fail).
  match goal with |- context [if ?c then _ else _] => destruct c end; cbn [lr_log]; [|exists (sr_log r); auto].
  rewrite <- !app_assoc in G.
  destruct (IH cr e (sr_sess r) (room - Nlen (sr_out r)) (sr_in r) (out ++ sr_out r) (lg ++ sr_log r) (win ++ used) wout log) as [new [N1 N2]]; auto.
  { rewrite E in BO. apply Forall_app in BO. tauto. }
  exists (sr_log r ++ new). rewrite N1, app_assoc. split; auto. intros rq c em J.
  apply in_app_iff in J. destruct J as [J|J]; [eauto|]. destruct (N2 _ _ _ J) as [B1 [B0 B2]]. destruct (A2 eq_refl B1) as [B3 [B5 B4]].
  split; auto. split; congruence.
Qed.

Lemma process_asked : forall cr e s cap input win wout log rq c em, crypto_sizes cr -> bytes_ok input -> inv cr s win wout log ->
  In (EvGen rq c em) (pr_log (process cr e s cap input)) -> early s /\ s_mode s = M_ENCRYPT /\ rq = asked s.
Proof.
  intros cr e s cap input win wout log rq c em CS BO I.
  assert (I' : inv cr s win (wout ++ []) (log ++ [])) by now rewrite !app_nil_r.
  destruct (loop_asked (loop_fuel input) cr e s cap input [] [] _ _ _ CS BO I') as [new [N1 N2]].
  intros J.
  assert (J' : In (EvGen rq c em) new).
  { unfold process in J. cbn [app] in N1. rewrite <- N1. set (l := process_loop _ _ _ _ _ _ _ _) in *. clearbody l.
    destruct (lr_rc l); exact J. }
  eauto.
Qed.

(** The size is declared exactly when the session knows it. *)
Definition undeclared (w : world) (d : option N) : Prop :=
  s_state (w_s w) <> ST_ERROR -> s_mode (w_s w) = M_ENCRYPT -> s_known (w_s w) = false -> d = None.

Lemma exec_undeclared : forall cr w o d w' r, crypto_sizes cr -> op_bytes o -> winv cr w -> undeclared w d ->
  exec cr w o = (w', r) -> stuck (o_rc r) = false -> undeclared w' (size_after d (o, r)).
Proof.
  intros cr [s win wout log] o d w' r CS OB I SO. unfold winv, undeclared in *. cbn [w_s w_in w_out w_log] in *.
  destruct o as [m|n|g n|n|c|n|c|e cap input|e cap input]; cbn [exec w_s]; unfold with_session, size_after;
    intros E; (assert (E1 := f_equal (fun x => w_s (fst x)) E)); (assert (E2 := f_equal (fun x => o_rc (snd x)) E));
    cbn [fst snd w_s o_rc] in E1, E2 |- *; rewrite <- E1, <- E2; clear E E1 E2; cbn [fst snd].
  - auto.
  - intros _. unfold set_frame_size. destruct (_ || _); cbn [fst snd]; sproj; auto.
  - intros _. unfold set_message_size.
    destruct (negb _); [cbn [fst snd]; auto|].
    destruct (s_known s) eqn:K; [cbn [fst snd]; intros NE; exfalso; apply NE, fail_session_error|].
    destruct (_ <? _); [cbn [fst snd]; intros NE; exfalso; apply NE, fail_session_error|]. cbn [fst snd].
    set (s' := set_known true (set_precise (n mod two64) s)).
    pose proof (estimate_conf cr g s') as [C1 [C2 [C3 [C4 [C5 C6]]]]].
    rewrite C5. unfold s'. sproj. discriminate.
  - intros _. unfold set_message_bound.
    destruct (negb _); [cbn [fst snd]; auto|].
    destruct (_ && _); [cbn [fst snd]; intros NE; exfalso; apply NE, fail_session_error|]. cbn [fst snd].
    destruct (_ <? _); sproj; auto.
  - intros _. unfold set_commitment_policy. destruct (negb _); [cbn [fst snd]; sproj; auto|]. sproj.
    destruct (negb _); cbn [fst snd]; sproj; auto. intros NE; exfalso; apply NE, fail_session_error.
  - intros _. unfold set_max_edks. destruct (negb _); [cbn [fst snd]; intros NE; exfalso; apply NE, fail_session_error|].
    destruct (n =? 0); cbn [fst snd]; sproj; auto.
  - intros _. unfold mutate_ctx. destruct (_ && _); cbn [fst snd]; sproj; auto.
  - pose proof (process_good cr e s cap input _ _ _ CS OB I) as G. unfold call_good in G. unfold after_process. cbn [fst snd o_rc].
    destruct G as [[C1 [C2 [C3 [C4 [C5 C6]]]]] [_ [_ G]]].
    destruct (pr_rc (process cr e s cap input)); cbn [stuck w_s]; intros NS; try discriminate.
    + rewrite C1, C5. intros _. apply SO. tauto.
    + intros NE. exfalso. apply NE. tauto.
  - pose proof (process_full_good cr e s cap input _ _ _ CS OB I) as G. cbn zeta in G. unfold after_process. cbn [fst snd o_rc].
    destruct G as [_ [_ G]].
    destruct (pr_rc (process_full cr e s cap input)) as [|x| | |] eqn:RC; cbn [stuck w_s]; intros NS; try contradiction.
    + intros _ EM KN. exfalso. destruct G as [_ [_ [_ [_ ST]]]]. unfold process_full in *. rewrite ST in *.
      change (negb (sstate_eqb ST_CONFIG ST_CONFIG)) with false in *. cbv iota in *.
      pose proof (set_message_size_inv cr (e_garbage e) (Nlen input) s _ _ _ I) as Q.
      assert (EM0 : is_encrypt_mode (s_mode s) = true).
      { destruct (is_encrypt_mode (s_mode s)) eqn:E0; auto.
        pose proof (proj1 (process_good cr e s cap input _ _ _ CS OB I)) as [C1 _].
        destruct (pr_rc (process cr e s cap input)) eqn:RP; rewrite ?RP in RC; cbn [pr_rc] in RC; try (rewrite ?RP in RC; congruence).
        destruct (_ && _) in *; cbn [pr_rc] in *; [|discriminate]. rewrite RP in EM. rewrite C1 in EM. rewrite EM in E0. discriminate. }
      rewrite EM0 in *. unfold set_message_size in *. rewrite EM0 in *. cbn [negb] in *.
      destruct (s_known s) eqn:K; [discriminate|]. destruct (_ <? _) eqn:B; [discriminate|]. cbn [fst] in Q.
      set (s' := compute_body_estimate _ _ _) in *.
      pose proof (proj1 (process_good cr e s' cap input _ _ _ CS OB Q)) as [_ [_ [_ [_ [C5 _]]]]].
      destruct (estimate_conf cr (e_garbage e) (set_known true (set_precise (Nlen input mod two64) s))) as [_ [_ [_ [_ [D5 _]]]]].
      fold s' in D5. sproj. rewrite D5 in C5.
      destruct (pr_rc (process cr e s' cap input)) eqn:RP; rewrite ?RP in RC; cbn [pr_rc] in RC; try (rewrite ?RP in RC; congruence).
      destruct (_ && _) in *; cbn [pr_rc] in *; [|discriminate]. rewrite RP in KN. congruence.
    + destruct G as [_ [_ [G1 [G2 _]]]]. intros NE.
      destruct (sstate_eqb_spec (s_state s) ST_CONFIG) as [ST|ST]; [exfalso; auto|]. rewrite (G2 ST) in *. auto.
Qed.

Lemma run_undeclared : forall cr ops w w' rs d, crypto_sizes cr -> Forall op_bytes ops -> winv cr w -> undeclared w d ->
  run cr w ops = (w', rs) -> Forall (fun r => stuck (o_rc r) = false) rs -> undeclared w' (fold_left size_after (combine ops rs) d).
Proof.
  intros cr ops. induction ops as [|o ops IH]; intros w w' rs d CS OB I U R F; cbn [run] in R.
  { injection R as <- <-. exact U. }
  inversion OB as [|? ? OB1 OB2]; subst. pose proof (exec_good cr w o CS OB1 I) as X.
  destruct (exec cr w o) as [w1 r] eqn:E. destruct (stuck (o_rc r)) eqn:SR.
  { injection R as <- <-. inversion F. congruence. }
  destruct (run cr w1 ops) as [w2 rs2] eqn:R2. injection R as <- <-. inversion F; subst.
  cbn [combine fold_left]. eapply IH; [auto|auto|apply X; auto|eapply exec_undeclared; eauto|exact R2|auto].
Qed.

(** ** The policy *)

Lemma exec_policy : forall cr w o w' r, crypto_sizes cr -> op_bytes o -> winv cr w -> exec cr w o = (w', r) -> stuck (o_rc r) = false ->
  s_policy (w_s w') = policy_after (s_policy (w_s w)) (o, r).
Proof.
  intros cr [s win wout log] o w' r CS OB I E. unfold winv in *. cbn [w_s w_in w_out w_log] in *.
  assert (FS : forall s x, s_policy (fail_session s x) = s_policy s) by (intros s0 x; unfold fail_session; destruct (sstate_eqb _ _); reflexivity).
  assert (E1 := f_equal (fun x => w_s (fst x)) E). assert (E2 := f_equal (fun x => o_rc (snd x)) E). cbn [fst snd] in E1, E2.
  rewrite <- E1, <- E2. clear E E1 E2. unfold policy_after. cbn [fst].
  destruct o as [m|n|g n|n|c|n|c|e cap input|e cap input]; cbn [exec w_s]; unfold with_session; cbn [fst snd w_s o_rc]; intros ST.
  - unfold reset. destruct (is_valid_mode m); cbn [fst]; rewrite ?FS; reflexivity.
  - unfold set_frame_size. destruct (_ || _); reflexivity.
  - unfold set_message_size. destruct (negb _); [reflexivity|]. destruct (s_known s); [apply FS|].
    destruct (_ <? _); [apply FS|]. cbn [fst].
    match goal with |- context [compute_body_estimate cr g ?x] => destruct (estimate_conf cr g x) as [_ [-> _]] end. reflexivity.
  - unfold set_message_bound. destruct (negb _); [reflexivity|]. destruct (_ && _); [apply FS|]. cbn [fst]. destruct (_ <? _); reflexivity.
  - unfold set_commitment_policy. destruct (negb _); [reflexivity|]. destruct (negb _); [apply (FS (set_policy c s))|]; reflexivity.
  - unfold set_max_edks. destruct (negb _); [apply FS|]. destruct (_ =? _); reflexivity.
  - unfold mutate_ctx. destruct (_ && _); reflexivity.
  - unfold after_process. cbn [fst].
    pose proof (proj1 (process_good cr e s cap input _ _ _ CS OB I)) as [_ [C _]]. destruct (pr_rc _); exact C.
  - assert (P : s_policy (pr_sess (process_full cr e s cap input)) = s_policy s).
    { unfold process_full. destruct (negb _); [reflexivity|].
      assert (SZ : exists s1 rc, (if is_encrypt_mode (s_mode s) then set_message_size cr (e_garbage e) (Nlen input) s else (s, POk)) = (s1, rc) /\
        s_policy s1 = s_policy s /\ inv cr s1 win wout log).
      { destruct (is_encrypt_mode _).
        - eexists _, _. split; [apply surjective_pairing|]. split; [|now apply set_message_size_inv].
          unfold set_message_size. destruct (negb _); [reflexivity|]. destruct (s_known s); [apply FS|].
          destruct (_ <? _); [apply FS|]. cbn [fst].
          match goal with |- context [compute_body_estimate cr ?g ?x] => destruct (estimate_conf cr g x) as [_ [-> _]] end. reflexivity.
        - eexists _, _. split; [reflexivity|]. auto. }
      destruct SZ as [s1 [rc [-> [P1 I1]]]].
      pose proof (proj1 (process_good cr e s1 cap input _ _ _ CS OB I1)) as [_ [C _]].
      destruct rc; try exact P1.
      set (q := process _ _ _ _ _) in *. clearbody q.
      destruct (pr_rc q) eqn:RC; cbn [pr_rc]; rewrite ?RC; try (cbn [pr_sess]; congruence).
      destruct (_ && _); rewrite ?RC; cbn [pr_sess pr_rc]; sproj; congruence. }
    unfold after_process. cbn [fst]. destruct (pr_rc _); exact P.
Qed.

Lemma run_policy : forall cr ops w w' rs, crypto_sizes cr -> Forall op_bytes ops -> winv cr w ->
  run cr w ops = (w', rs) -> Forall (fun r => stuck (o_rc r) = false) rs ->
  s_policy (w_s w') = fold_left policy_after (combine ops rs) (s_policy (w_s w)).
Proof.
  intros cr ops. induction ops as [|o ops IH]; intros w w' rs CS OB I R F; cbn [run] in R.
  { injection R as <- <-. reflexivity. }
  inversion OB as [|? ? OB1 OB2]; subst. pose proof (exec_good cr w o CS OB1 I) as X.
  destruct (exec cr w o) as [w1 r] eqn:E. destruct (stuck (o_rc r)) eqn:SR.
  { injection R as <- <-. inversion F. congruence. }
  destruct (run cr w1 ops) as [w2 rs2] eqn:R2. injection R as <- <-. inversion F; subst.
  cbn [combine fold_left]. rewrite <- (exec_policy _ _ _ _ _ CS OB1 I E SR). eapply IH; eauto. apply X; auto.
Qed.

(** ** C63 *)
Lemma C63_encrypt_lemma : forall cr m ops w, crypto_sizes cr -> history cr m ops w ->
  s_mode (w_s w) = M_ENCRYPT -> w_out w <> [] \/ is_done (w_s w) = true ->
  exists rq ctx em more, w_log w = EvGen rq ctx em :: more /\
    Nlen (em_key em) = suite_key_len (em_alg em) /\ em_edks em <> [] /\ (em_sig em <> None <-> In (em_alg em) signed_suites) /\
    In (em_alg em) (v1_suites ++ v2_suites).
Proof.
  intros cr m ops w CS H EM OUT. pose proof (history_inv _ _ _ _ CS H) as I. unfold winv in I.
  destruct (inv_live _ _ _ _ _ I) as [s0 [log0 [more [EL [I0 [NE [MD LIVE]]]]]]].
  assert (EM0 : s_mode s0 = M_ENCRYPT) by (rewrite MD; rewrite EM; reflexivity).
  assert (OUT0 : w_out w <> [] \/ is_done s0 = true).
  { destruct OUT as [O|D]; auto. right. destruct (LIVE (done_live _ D)) as [-> _]. exact D. }
  destruct (enc_shape _ _ _ _ _ I0 NE EM0 OUT0) as [i [l [tr [trlog [EO [SE [CONF [E1 [E2 [E3 _]]]]]]]]]].
  exists (ei_rq i), (ei_ctx i), (ei_m i). eexists. split; [rewrite EL, E3; reflexivity|].
  destruct EO. unfold ei_alg in *. destruct (suite_facts _ _ eo_lookup) as [_ [_ [KL _]]].
  split; [congruence|]. split; [intros E; rewrite E in eo_edks; exact (eo_edks eq_refl)|]. split.
  - rewrite <- (sig_len_spec _ _ eo_lookup). destruct (em_sig (ei_m i)); cbn [has_sig] in eo_sig;
      destruct (ap_sig_len (ei_p i) =? 0); cbn [negb] in eo_sig; try discriminate; intuition congruence.
  - apply in_app_iff. eapply alg_lookup_cases; eauto.
Qed.

Lemma C63_decrypt_lemma : forall cr m ops w, crypto_sizes cr -> history cr m ops w ->
  is_decrypt_mode (s_mode (w_s w)) = true -> w_out w <> [] \/ is_done (w_s w) = true ->
  exists rq dm more, w_log w = EvUnwrap rq dm :: more /\
    Nlen (dm_key dm) = suite_key_len (dq_alg rq) /\ (In (dq_alg rq) signed_suites -> dm_sig dm <> None) /\
    In (dq_alg rq) (v1_suites ++ v2_suites) /\ In (dm_alg dm) (v1_suites ++ v2_suites).
Proof.
  intros cr m ops w CS H DM OUT. pose proof (history_inv _ _ _ _ CS H) as I. unfold winv in I.
  destruct (inv_live _ _ _ _ _ I) as [s0 [log0 [more [EL [I0 [NE [MD LIVE]]]]]]].
  assert (DM0 : is_decrypt_mode (s_mode s0) = true) by (rewrite MD; auto using decrypt_mode_valid).
  assert (OUT0 : w_out w <> [] \/ is_done s0 = true).
  { destruct OUT as [O|D]; auto. right. destruct (LIVE (done_live _ D)) as [-> _]. exact D. }
  destruct (dec_shape _ _ _ _ _ I0 NE DM0 OUT0) as [i [l [tr [trlog [DO [DB [CONF [E1 [E2 [E3 _]]]]]]]]]].
  exists (di_rq i), (di_m i). eexists. split; [rewrite EL, E3; reflexivity|].
  destruct DO. rewrite do_rq. cbn [dq_alg]. destruct (suite_facts _ _ do_lookup) as [_ [_ [KL _]]].
  split; [congruence|]. split.
  - intros S. apply do_sig. apply (sig_len_spec _ _ do_lookup) in S. intros E. rewrite E in S. discriminate.
  - split; apply in_app_iff; eapply alg_lookup_cases; eauto.
Qed.

(** ** C64 *)
Lemma C64_lemma : forall cr m ops w rs o w' r new rq ctx em, crypto_sizes cr -> is_valid_mode m = true -> Forall op_bytes ops -> op_bytes o ->
  run cr (new_world m) ops = (w, rs) -> Forall (fun r => stuck (o_rc r) = false) rs ->
  exec cr w o = (w', r) -> w_log w' = w_log w ++ new -> In (EvGen rq ctx em) new ->
  let calls := combine ops rs in
  rq = mk_enc_request (chosen_ctx calls) 0 (size_told calls o) (policy_in_force calls).
Proof.
  intros cr m ops w rs o w' r new rq ctx em CS V OB OB1 R F E L J calls.
  assert (I0 : winv cr (new_world m)) by exact (new_session_inv cr m V).
  assert (I : winv cr w) by (pose proof (run_good cr ops (new_world m) CS OB I0) as G; rewrite R in G; now apply G).
  pose proof (run_report cr m ops w rs CS V OB R F) as RP.
  pose proof (run_policy cr ops _ _ _ CS OB I0 R F) as PL.
  replace (s_policy (w_s (new_world m))) with CP_REQUIRE_REQUIRE in PL by (destruct m; try discriminate V; reflexivity).
  fold calls in RP, PL. fold (policy_in_force calls) in PL.
  assert (S0 : sizes_ok (new_world m) None 18446744073709551615) 
    by (clear -V; destruct m; try discriminate V; intros _ _; (split; [intros K'; discriminate K'|reflexivity])).
  pose proof (run_sizes cr ops (new_world m) _ _ _ _ CS OB I0 S0 R F) as SZ.
  assert (U0 : undeclared (new_world m) None) by (intros ? ? ?; reflexivity).
  pose proof (run_undeclared cr ops (new_world m) _ _ _ CS OB I0 U0 R F) as UN.
  fold calls in SZ, UN. fold (declared_size calls) in SZ, UN. fold (bound_in_force calls) in SZ.
  unfold winv, sizes_ok, undeclared in *.
  assert (NIL : forall lg : list event, lg = lg ++ new -> False).
  { intros lg X. rewrite <- (app_nil_r lg) in X at 1. apply app_inv_head in X. subst new. destruct J. }
  destruct o as [m'|n|g n|n|c|n|c|e cap input|e cap input]; cbn [exec] in E; unfold with_session in E;
    try (injection E as <- <-; cbn [w_log] in L; destruct (NIL _ L)).
  - injection E as <- <-. cbn [w_log] in L. destruct (w_log w); [destruct (NIL [] L)|discriminate].
  - assert (J' : In (EvGen rq ctx em) (pr_log (process cr e (w_s w) cap input))).
    { unfold after_process in E. assert (X := f_equal (fun x => w_log (fst x)) E). cbn [fst] in X.
      rewrite L in X. assert (w_log w ++ pr_log (process cr e (w_s w) cap input) = w_log w ++ new)
        by (destruct (pr_rc _) in X; exact X). apply app_inv_head in H. now rewrite H. }
    destruct (process_asked _ _ _ _ _ _ _ _ _ _ _ CS OB1 I J') as [EA [EM ->]].
    assert (NE : s_state (w_s w) <> ST_ERROR) by (destruct EA as [A|A]; rewrite A; discriminate).
    specialize (SZ NE EM). specialize (UN NE EM). destruct SZ as [SZ1 SZ2]. unfold asked, size_told. rewrite (rp_early _ _ _ RP EM EA), PL.
    f_equal. destruct (s_known (w_s w)); [rewrite SZ1|rewrite UN]; auto.
  - assert (J' : In (EvGen rq ctx em) (pr_log (process_full cr e (w_s w) cap input))).
    { unfold after_process in E. assert (X := f_equal (fun x => w_log (fst x)) E). cbn [fst] in X.
      rewrite L in X. assert (w_log w ++ pr_log (process_full cr e (w_s w) cap input) = w_log w ++ new)
        by (destruct (pr_rc _) in X; exact X). apply app_inv_head in H. now rewrite H. }
    clear E L. unfold process_full in J'. destruct (negb _) eqn:ST; [destruct J'|].
    destruct (sstate_eqb_spec (s_state (w_s w)) ST_CONFIG) as [ST'|]; [clear ST|discriminate].
    pose proof (set_message_size_inv cr (e_garbage e) (Nlen input) _ _ _ _ I) as Q.
    destruct (is_encrypt_mode (s_mode (w_s w))) eqn:EM0.
    + unfold set_message_size in *. rewrite EM0 in *. cbn [negb] in *.
      destruct (s_known (w_s w)); [destruct J'|]. destruct (_ <? _) in *; [destruct J'|]. cbn [fst] in Q.
      assert (E1 : compute_body_estimate cr (e_garbage e) (set_known true (set_precise (Nlen input mod two64) (w_s w))) =
        set_known true (set_precise (Nlen input mod two64) (w_s w))) by (unfold compute_body_estimate; sproj; now rewrite ST').
      rewrite E1 in *. set (s' := set_known true _) in *.
      assert (J2 : In (EvGen rq ctx em) (pr_log (process cr e s' cap input))).
      { set (q := process _ _ _ _ _) in *. clearbody q. clear -J'. destruct (pr_rc q) eqn:RC; cbn [pr_rc] in J'; rewrite ?RC in J'; try exact J'.
        destruct (_ && _) in J'; [rewrite RC in J'|]; exact J'. }
      destruct (process_asked _ _ _ _ _ _ _ _ _ _ _ CS OB1 Q J2) as [EA [EM ->]].
      unfold asked, s', size_told. sproj. unfold s' in EM. sproj. rewrite (rp_early _ _ _ RP EM (or_introl ST')), PL. reflexivity.
    + exfalso.
      assert (J2 : In (EvGen rq ctx em) (pr_log (process cr e (w_s w) cap input))).
      { set (q := process _ _ _ _ _) in *. clearbody q. clear -J'. destruct (pr_rc q) eqn:RC; cbn [pr_rc] in J'; rewrite ?RC in J'; try exact J'.
        destruct (_ && _) in J'; [rewrite RC in J'|]; exact J'. }
      destruct (process_asked _ _ _ _ _ _ _ _ _ _ _ CS OB1 I J2) as [EA [EM _]]. rewrite EM in EM0. discriminate.
Qed.

Lemma C64_bound_lemma : forall cr m ops w rq ctx em, crypto_sizes cr -> history cr m ops w ->
  s_mode (w_s w) = M_ENCRYPT -> is_done (w_s w) = true -> In (EvGen rq ctx em) (w_log w) -> Nlen (w_in w) <= rq_psize rq.
Proof.
  intros cr m ops w rq ctx em CS H EM D J. pose proof (history_inv _ _ _ _ CS H) as I. unfold winv in I.
  destruct H as [V [OB [rs [R F]]]]. pose proof (run_report cr m ops w rs CS V OB R F) as RP.
  destruct (enc_shape _ _ _ _ _ I (done_live _ D) EM (or_intror D)) as [i [l [tr [trlog [EO [SE [CONF [E1 [E2 [E3 [BS [FIN _]]]]]]]]]]]].
  destruct (FIN D) as [_ [_ [K P]]]. destruct CONF as [_ [_ [_ C]]]. specialize (C K).
  destruct (rp_gen _ _ _ RP EM _ _ _ J) as [_ [_ [_ [T|[_ T]]]]]; lia.
Qed.

(** ** C65 *)
Lemma C65_decrypt_lemma : forall cr m ops w ctx, crypto_sizes cr -> history cr m ops w ->
  is_decrypt_mode (s_mode (w_s w)) = true -> visible_ctx (w_s w) = Some ctx ->
  exists rq dm, In (EvUnwrap rq dm) (w_log w) /\ dq_ctx rq = ctx /\ visible_trace (w_s w) = Some (dm_trace dm).
Proof.
  intros cr m ops w ctx CS [V [OB [rs [R F]]]] DM VC. pose proof (run_report cr m ops w rs CS V OB R F) as RP.
  unfold visible_ctx in VC. rewrite DM in VC. destruct (s_cmm_ok (w_s w)) eqn:OK; [|discriminate]. cbn [negb andb] in VC.
  destruct (rp_dec _ _ _ RP DM OK) as [dm [J T]]. eexists _, dm. split; [exact J|]. cbn [dq_ctx].
  split; [congruence|]. unfold visible_trace. rewrite OK. congruence.
Qed.

Lemma C65_encrypt_lemma : forall cr m ops w tr, crypto_sizes cr -> history cr m ops w ->
  s_mode (w_s w) = M_ENCRYPT -> visible_trace (w_s w) = Some tr ->
  exists rq ctx em, In (EvGen rq ctx em) (w_log w) /\ visible_ctx (w_s w) = Some ctx /\ tr = em_trace em.
Proof.
  intros cr m ops w tr CS [V [OB [rs [R F]]]] EM VT. pose proof (run_report cr m ops w rs CS V OB R F) as RP.
  unfold visible_trace in VT. destruct (s_cmm_ok (w_s w)) eqn:OK; [|discriminate].
  destruct (rp_enc _ _ _ RP EM OK) as [rq [em [J T]]]. eexists rq, _, em. split; [exact J|].
  unfold visible_ctx. rewrite EM. cbn [is_decrypt_mode andb]. split; [reflexivity|]. congruence.
Qed.

Lemma C65_initial_lemma : forall cr m ops w rs, crypto_sizes cr -> is_valid_mode m = true -> Forall op_bytes ops ->
  run cr (new_world m) ops = (w, rs) -> Forall (fun r => stuck (o_rc r) = false) rs ->
  s_mode (w_s w) = M_ENCRYPT -> s_state (w_s w) = ST_CONFIG -> visible_ctx (w_s w) = Some (chosen_ctx (combine ops rs)).
Proof.
  intros cr m ops w rs CS V OB R F EM ST. pose proof (run_report cr m ops w rs CS V OB R F) as RP.
  unfold visible_ctx. rewrite EM. cbn [is_decrypt_mode andb]. f_equal. apply (rp_early _ _ _ RP EM). now left.
Qed.
