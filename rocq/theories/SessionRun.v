(** The process loop and whole histories keep the invariant. *)
From Verif Require Import Base AlgModel EncCtxModel HdrModel FrameModel CryptoModel SessionModel
  BaseProofs WireSpec SessionSpec EncCtxProofs HdrProofs FrameProofs SessionBase SessionInv SessionStep SessionStepD.
From Coq Require Import ZArith ZifyBool ZifyNat ZifyN.
Import List.
Open Scope list_scope.
Open Scope N_scope.

(** ** What no step changes *)

Definition same_conf (s s' : session) : Prop :=
  s_mode s' = s_mode s /\ s_policy s' = s_policy s /\ s_precise s' = s_precise s /\
  s_bound s' = s_bound s /\ s_known s' = s_known s /\ s_max s' = s_max s.

Lemma same_conf_refl : forall s, same_conf s s.
Proof. intros s. repeat split. Qed.
Lemma same_conf_trans : forall a b c, same_conf a b -> same_conf b c -> same_conf a c.
Proof. unfold same_conf. intuition congruence. Qed.

Lemma set_state_id : forall s, set_state (s_state s) s = s.
Proof. now intros []. Qed.
Lemma sstate_eqb_spec : forall a b, reflect (a = b) (sstate_eqb a b).
Proof. intros a b. destruct a, b; constructor; congruence. Qed.
Lemma change_state_some : forall s st s', change_state s st = Some s' -> s' = set_state st s.
Proof.
  intros s st s'. unfold change_state. destruct (sstate_eqb_spec (s_state s) st) as [E|E].
  - intros H. injection H as <-. rewrite <- E. symmetry. apply set_state_id.
  - destruct (_ && _); [discriminate|].
    destruct st; repeat match goal with
      | |- context [match ?x with _ => _ end] => destruct x
      | |- context [if ?x then _ else _] => destruct x end; congruence.
Qed.

Lemma finish_sess : forall s st i o l s0 (P : session -> Prop), P (set_state st s) -> P s0 ->
  P (sr_sess (finish (change_state s st) i o l s0)).
Proof.
  intros. unfold finish. destruct (change_state s st) eqn:E; cbn; auto. apply change_state_some in E. now subst.
Qed.

Ltac sc := solve [repeat split].
Ltac scases := repeat (
  match goal with
  | |- same_conf _ (sr_sess (finish (change_state ?s ?st) _ _ _ _)) => apply finish_sess; [sc|sc]
  | |- same_conf _ (sr_sess (mk_step _ _ _ _ _)) => sc
  | |- context [match ?x with _ => _ end] => destruct x
  | |- context [if ?x then _ else _] => destruct x
  end; cbn zeta; try (sc; fail)).

Lemma sign_header_conf : forall cr s p input log, same_conf s (sr_sess (sign_header cr s p input log)).
Proof. intros. unfold sign_header. cbn zeta. scases. Qed.

Lemma try_gen_key_conf : forall cr e s input, same_conf s (sr_sess (try_gen_key cr e s input)).
Proof.
  intros. unfold try_gen_key. cbn zeta. destruct (e_gen e _) as [c [m|x]]; [|sc].
  destruct (alg_lookup (em_alg m)) as [p|]; [|sc].
  destruct (negb _); [sc|]. destruct (_ =? _); [sc|]. destruct (_ && _); [sc|]. destruct (negb _); [sc|].
  destruct (_ && _); [sc|]. destruct (negb _); [sc|]. destruct (e_rand e _) as [mid|]; [|sc].
  match goal with |- context [kd_rc ?k] => destruct (kd_rc k) end.
  2,3: unfold must_include_commitment; sproj; destruct (s_policy s); sc.
  unfold build_header.
  match goal with |- context [UINT32_MAX <? ?n] => destruct (UINT32_MAX <? n) end.
  { unfold must_include_commitment; sproj; destruct (s_policy s); sc. }
  match goal with |- context [match h_edks ?h with _ => _ end] => destruct (h_edks h) end.
  2:{ unfold must_include_commitment; sproj; destruct (s_policy s); sc. }
  eapply same_conf_trans; [|apply sign_header_conf].
  unfold must_include_commitment; sproj; destruct (s_policy s); sc.
Qed.

Lemma unwrap_keys_conf : forall cr e s input, same_conf s (sr_sess (unwrap_keys cr e s input)).
Proof.
  intros. unfold unwrap_keys. cbn zeta. destruct (alg_lookup _) as [p|]; [|sc].
  destruct (e_dec e _) as [m|]; [|sc]. destruct (alg_lookup (dm_alg m)); [|sc].
  match goal with |- context [if ?c then _ else _] => destruct c end; [sc|].
  match goal with |- context [derive_data_key cr e ?a p m] => set (s1 := a); assert (H1 : same_conf s s1) by sc end.
  assert (H : same_conf s1 (fst (derive_data_key cr e s1 p m))).
  { unfold derive_data_key. cbn zeta. repeat match goal with
      | |- context [if ?x then _ else _] => destruct x
      | |- context [match ?x with _ => _ end] => destruct x end; cbn [fst]; sc. }
  destruct (derive_data_key cr e s1 p m) as [s2 rc]. cbn [fst] in H.
  assert (H2 : same_conf s s2) by exact (same_conf_trans _ _ _ H1 H). clear H H1.
  destruct rc; try exact H2.
  destruct (validate_header cr e s2 p) as [[] vlog]; try exact H2.
  assert (SET : forall a, same_conf s (set_sig a s2)) by (intros; exact H2).
  match goal with |- context [if ?c then _ else _] => destruct c end.
  - destruct (dm_sig m) as [sc|]; [|exact H2].
    match goal with |- context [sig_update ?a ?b ?c] => destruct (sig_update a b c) end; [|apply SET].
    apply finish_sess; apply SET.
  - apply finish_sess; exact H2.
Qed.

Lemma step_conf : forall cr e s room input, same_conf s (sr_sess (step cr e s room input)).
Proof.
  intros. unfold step. destruct (s_state s).
  - destruct (negb _); [sc|]. destruct (is_encrypt_mode _); apply finish_sess; sc.
  - sc.
  - sc.
  - unfold try_parse_header. cbn zeta. destruct (hdr_parse _ _) as [[h rest]|[]]; try sc.
    destruct (_ =? 0); [sc|]. destruct (negb _); [sc|].
    match goal with |- context [change_state ?a ?b] => destruct (change_state a b) eqn:E end; [|sc].
    apply change_state_some in E. subst. eapply same_conf_trans; [|apply unwrap_keys_conf]. sc.
  - apply unwrap_keys_conf.
  - unfold try_decrypt_body. cbn zeta. destruct (s_alg s); [|sc].
    destruct (ds_res _) as [[f rest]|[]]; try sc.
    destruct (negb _); [sc|]. destruct (_ <? _); [sc|]. destruct (decrypt_body _ _ _ _ _ _ _ _ _ _); [|sc|sc].
    destruct (sig_update_opt _ _ _); [|sc]. destruct (fr_type f); try sc; apply finish_sess; sc.
  - unfold check_trailer. cbn zeta. sproj. destruct (s_sig s).
    + destruct (read_be _ _) as [[]|]; [|sc]. destruct (read_bytes _ _) as [[]|]; [|sc]. destruct (cr_verify _ _ _); sc.
    + apply finish_sess; sc.
  - apply try_gen_key_conf.
  - unfold try_write_header. sproj. destruct (s_hcopy s); [|sc]. destruct (_ <=? _); [|sc]. apply finish_sess; sc.
  - unfold try_encrypt_body. cbn zeta. destruct (next_frame s) as [[ty n]|]; [|sc]. destruct (s_alg s); [|sc].
    destruct (_ <? _); [sc|]. destruct (sr_res _) as [l|[]]; try sc.
    destruct (_ || _); [sc|]. destruct (encrypt_body _ _ _ _ _ _ _ _); [|sc|sc].
    destruct (sig_update_opt _ _ _); [|sc]. destruct ty; try sc; apply finish_sess; sc.
  - unfold write_trailer. cbn zeta. sproj. destruct (s_alg s); [|sc].
    destruct (_ =? _); [apply finish_sess; sc|]. destruct (_ <? _); [sc|]. destruct (s_sig s); [|sc].
    destruct (e_sign e _); [|sc]. destruct (_ <? _); [sc|]. apply finish_sess; sc.
Qed.

(** ** Steps make the message advance *)

Definition rank (st : sstate) : nat :=
  match st with
  | ST_CONFIG => 9 | ST_GEN_KEY | ST_READ_HEADER => 8 | ST_UNWRAP_KEY | ST_WRITE_HEADER => 7
  | ST_ENCRYPT_BODY | ST_DECRYPT_BODY => 6 | ST_WRITE_TRAILER | ST_CHECK_TRAILER => 5
  | ST_DONE => 1 | ST_ERROR => 0
  end.

(** A step that goes on either moves to a later state, or keeps the state and writes only if it
    consumes. *)
Definition advances (s : session) (input : list N) (r : stepres) : Prop :=
  sr_rc r = RGo ->
  s_state s <> ST_ERROR /\ s_state (sr_sess r) <> ST_ERROR /\
  ((rank (s_state (sr_sess r)) < rank (s_state s))%nat \/
   (s_state (sr_sess r) = s_state s /\ (sr_out r = [] \/ (length (sr_in r) < length input)%nat))).

Lemma adv_fail : forall s input s' i o rc l, rc <> RGo -> advances s input (mk_step s' i o rc l).
Proof. intros s input s' i o rc l H E. sproj. congruence. Qed.
Lemma adv_stay : forall s input s' i l, s_state s <> ST_ERROR -> s_state s' = s_state s ->
  advances s input (mk_step s' i [] RGo l).
Proof. intros s input s' i l H E _. sproj. rewrite E. split; [exact H|split; [exact H|right; auto]]. Qed.
Lemma adv_finish : forall s st input s1 i o l s0, s_state s <> ST_ERROR -> st <> ST_ERROR -> (rank st < rank (s_state s))%nat ->
  advances s input (finish (change_state s1 st) i o l s0).
Proof.
  intros s st input s1 i o l s0 H H0 H1. unfold finish. destruct (change_state s1 st) eqn:E; [|apply adv_fail; congruence].
  apply change_state_some in E. subst. intros _. sproj. auto.
Qed.

Lemma sign_header_adv : forall cr s0 s p input log, s_state s0 = ST_GEN_KEY ->
  advances s0 input (sign_header cr s p input log).
Proof.
  intros cr s0 s p input log ST. unfold sign_header. cbn zeta.
  repeat match goal with
    | |- advances _ _ (mk_step _ _ _ _ _) => apply adv_fail; congruence
    | |- advances _ _ (finish _ _ _ _ _) => apply adv_finish; rewrite ?ST; cbn; try congruence; lia
    | |- context [if ?c then _ else _] => destruct c
    | |- context [match ?c with _ => _ end] => destruct c end.
Qed.

Lemma try_gen_key_adv : forall cr e s input, s_state s = ST_GEN_KEY -> advances s input (try_gen_key cr e s input).
Proof.
  intros cr e s input ST. unfold try_gen_key. cbn zeta.
  repeat match goal with
    | |- advances _ _ (mk_step _ _ _ _ _) => apply adv_fail; congruence
    | |- advances _ _ (sign_header _ _ _ _ _) => now apply sign_header_adv
    | |- context [match e_gen ?a ?b with _ => _ end] => destruct (e_gen a b) as [? []]
    | |- context [match alg_lookup ?b with _ => _ end] => destruct (alg_lookup b)
    | |- context [match e_rand ?a ?b with _ => _ end] => destruct (e_rand a b)
    | |- context [match kd_rc ?b with _ => _ end] => destruct (kd_rc b)
    | |- context [match build_header ?a ?b ?c with _ => _ end] => destruct (build_header a b c) as [[]|]
    | |- context [if ?c then _ else _] => destruct c
    end.
Qed.

Lemma unwrap_keys_adv : forall cr e s s0 input0 input, s_state s0 = ST_READ_HEADER ->
  advances s0 input0 (unwrap_keys cr e s input).
Proof.
  intros cr e s s0 input0 input ST. unfold unwrap_keys. cbn zeta.
  repeat match goal with
    | |- advances _ _ (mk_step _ _ _ _ _) => apply adv_fail; congruence
    | |- advances _ _ (finish _ _ _ _ _) => apply adv_finish; rewrite ?ST; cbn; try congruence; lia
    | |- context [match alg_lookup ?b with _ => _ end] => destruct (alg_lookup b)
    | |- context [match e_dec ?a ?b with _ => _ end] => destruct (e_dec a b)
    | |- context [match derive_data_key ?a ?b ?c ?d ?e with _ => _ end] => destruct (derive_data_key a b c d e) as [? []]
    | |- context [match validate_header ?a ?b ?c ?d with _ => _ end] => destruct (validate_header a b c d) as [[] ?]
    | |- context [match dm_sig ?a with _ => _ end] => destruct (dm_sig a)
    | |- context [match sig_update ?a ?b ?c with _ => _ end] => destruct (sig_update a b c)
    | |- context [if ?c then _ else _] => destruct c
    end.
Qed.

Lemma wire_frame_pos : forall fs f, frame_wf fs f -> 0 < Nlen (wire_frame f).
Proof. intros fs f W. rewrite (Nlen_wire_frame fs f W). destruct (fr_type f); cbn; lia. Qed.

Lemma Nlen_lt_length : forall A B (a : list A) (b : list B), Nlen a < Nlen b -> (length a < length b)%nat.
Proof. unfold Nlen. intros. lia. Qed.

Lemma step_adv : forall cr e s room input win wout log,
  crypto_sizes cr -> bytes_ok input -> inv cr s win wout log -> advances s input (step cr e s room input).
Proof.
  intros cr e s room input win wout log CS BO I. unfold step.
  destruct (s_state s) eqn:ST.
  - destruct (negb _); [apply adv_fail; congruence|].
    destruct (is_encrypt_mode _); apply adv_finish; rewrite ?ST; cbn; try congruence; lia.
  - apply adv_fail; congruence.
  - apply adv_stay; congruence.
  - unfold try_parse_header. cbn zeta.
    destruct (hdr_parse _ _) as [[h rest]|[]]; try (apply adv_fail; congruence).
    2: apply adv_stay; sproj; congruence.
    destruct (_ =? 0); [apply adv_fail; congruence|]. destruct (negb _); [apply adv_fail; congruence|].
    match goal with |- context [change_state ?a ?b] => destruct (change_state a b) eqn:E end; [|apply adv_fail; congruence].
    apply change_state_some in E. subst. now apply unwrap_keys_adv.
  - destruct I; try congruence; match goal with H : _ \/ _ |- _ => destruct H as [|[]]; congruence end.
  - destruct I as [s CONF PR MODE ST'|s CONF PR MODE ST'|s CONF PR MODE ST'|s i CONF EO ST' EB|s i l CONF EO ST' R L EB
    |s i l CONF EO ST' W EB K PE|s i l tr trlog CONF EO ST' W F K PE ET|s i l CONF DO ST' R L DB SG|s i l CONF DO ST' W DB SG
    |s i l tr trlog CONF DO ST' W DB DT|s s0 win wout log more ST' FS NE MD I NON]; try congruence.
    2:{ destruct ST' as [|[]]; congruence. }
    unfold try_decrypt_body. cbn zeta. rewrite (do_alg _ _ _ DO).
    assert (SL : std_lens (di_p i)) by (eapply lookup_std_lens; apply (do_lookup _ _ _ DO)).
    assert (FS : s_fsize s < 4294967296) by apply CONF.
    destruct (ds_res _) as [[f rest]|[]] eqn:DS; try (apply adv_fail; congruence); try (apply adv_stay; sproj; congruence).
    destruct (deserialize_frame_sound _ _ _ _ _ SL FS BO DS) as [WF E].
    destruct (negb _); [apply adv_fail; congruence|]. destruct (_ <? _); [apply adv_stay; sproj; congruence|].
    destruct (decrypt_body _ _ _ _ _ _ _ _ _ _); try (apply adv_fail; congruence).
    destruct (sig_update_opt _ _ _); [|apply adv_fail; congruence].
    destruct (fr_type f) eqn:T; try (apply adv_finish; rewrite ?ST; cbn; try congruence; lia).
    intros _. sproj. rewrite ST. split; [congruence|]. split; [congruence|]. right. split; auto. right.
    rewrite E. pose proof (wire_frame_pos _ _ WF). apply Nlen_lt_length. rewrite Nlen_app. lia.
  - unfold check_trailer. cbn zeta. sproj. destruct (s_sig s).
    + destruct (read_be _ _) as [[]|]; [|apply adv_stay; sproj; congruence].
      destruct (read_bytes _ _) as [[]|]; [|apply adv_stay; sproj; congruence].
      destruct (cr_verify _ _ _); [apply adv_stay; sproj; congruence|apply adv_fail; congruence].
    + apply adv_finish; rewrite ?ST; cbn; try congruence; lia.
  - now apply try_gen_key_adv.
  - unfold try_write_header. sproj. destruct (s_hcopy s); [|apply adv_stay; sproj; congruence].
    destruct (_ <=? _); [|apply adv_stay; sproj; congruence].
    apply adv_finish; rewrite ?ST; cbn; try congruence; lia.
  - unfold try_encrypt_body. cbn zeta. destruct (next_frame s) as [[ty n]|] eqn:NF; [|apply adv_stay; sproj; congruence].
    destruct (s_alg s); [|apply adv_fail; congruence].
    destruct (_ <? _); [apply adv_fail; congruence|].
    destruct (sr_res _) as [l|[]]; try (apply adv_fail; congruence); try (apply adv_stay; sproj; congruence).
    destruct ((Nlen input <? n) || e_in_null e) eqn:IN; [apply adv_stay; sproj; congruence|].
    destruct (encrypt_body _ _ _ _ _ _ _ _); try (apply adv_fail; congruence).
    destruct (sig_update_opt _ _ _); [|apply adv_fail; congruence].
    destruct ty; try (apply adv_finish; rewrite ?ST; cbn; try congruence; lia).
    intros _. sproj. rewrite ST. split; [congruence|]. split; [congruence|]. right. split; auto. right.
    assert (n <> 0).
    { unfold next_frame in NF. destruct (N.eqb_spec (s_fsize s) 0); cbn [negb] in NF.
      - destruct (s_known s); congruence.
      - destruct (s_known s && _); congruence. }
    rewrite skipn_length. unfold Nlen in *. lia.
  - unfold write_trailer. cbn zeta. sproj. destruct (s_alg s); [|apply adv_fail; congruence].
    destruct (_ =? _); [apply adv_finish; rewrite ?ST; cbn; try congruence; lia|].
    destruct (_ <? _); [apply adv_stay; sproj; congruence|].
    destruct (s_sig s); [|apply adv_fail; congruence].
    destruct (e_sign e _); [|apply adv_fail; congruence].
    destruct (_ <? _); [apply adv_fail; congruence|].
    apply adv_finish; rewrite ?ST; cbn; try congruence; lia.
Qed.

(** ** The loop *)

Definition made_progress (s : session) (input : list N) (r : stepres) : bool :=
  nonempty (sr_out r) || negb (Nlen (sr_in r) =? Nlen input) || negb (sstate_eqb (s_state (sr_sess r)) (s_state s)).

(** The loop ended because a step made no progress. *)
Definition stalled cr e (s' : session) (input : list N) : Prop :=
  exists s room win wout log, inv cr s win wout log /\ sr_rc (step cr e s room input) = RGo /\
    s' = sr_sess (step cr e s room input) /\ made_progress s input (step cr e s room input) = false.

Lemma loop_good : forall fuel cr e s room input out lg win wout log,
  crypto_sizes cr -> bytes_ok input -> inv cr s win (wout ++ out) (log ++ lg) ->
  let r := process_loop fuel cr e s room input out lg in
  same_conf s (lr_sess r) /\
  exists used, input = used ++ lr_in r /\ (exists more, lr_out r = out ++ more /\ Nlen more <= room) /\
  match lr_rc r with
  | POk => inv cr (lr_sess r) (win ++ used) (wout ++ lr_out r) (log ++ lr_log r) /\
           s_state s <> ST_ERROR /\ s_state (lr_sess r) <> ST_ERROR /\ stalled cr e (lr_sess r) (lr_in r) /\
           ((rank (s_state (lr_sess r)) < rank (s_state s))%nat \/
            (s_state (lr_sess r) = s_state s /\ (lr_out r = out \/ (length (lr_in r) < length input)%nat)))
  | PErr x => s_fsize (lr_sess r) < 4294967296 /\ nonces_ok (log ++ lr_log r) /\
              (s_state s = ST_ERROR -> lr_sess r = s /\ lr_in r = input /\ lr_out r = out /\ lr_log r = lg /\ x = s_error s)
  | PAbort => False
  | PAssert => e_debug e = true /\ policy_is_valid (s_policy s) = false /\ s_state s <> ST_CONFIG
  | POutOfFuel => (fuel <= length input + rank (s_state s))%nat
  end.
Proof.
  induction fuel as [|fuel IH]; intros cr e s room input out lg win wout log CS BO I; cbn zeta.
  { cbn [process_loop lr_sess lr_in lr_out lr_rc lr_log]. split; [apply same_conf_refl|]. exists []. split; [reflexivity|].
    split; [exists []; rewrite app_nil_r, Nlen_nil; split; auto; lia|]. lia. }
  cbn [process_loop].
  pose proof (step_inv cr e s room input _ _ _ CS BO I) as G.
  pose proof (step_adv cr e s room input _ _ _ CS BO I) as A.
  pose proof (step_conf cr e s room input) as C.
  remember (step cr e s room input) as r eqn:Hr.
  destruct G as [used [E [OUT G]]]. unfold advances in A.
  destruct (sr_rc r) as [|x| |] eqn:RC.
  - destruct (A eq_refl) as [NE [NE' ADV]]. clear A.
    fold (made_progress s input r). destruct (made_progress s input r) eqn:MP.
    + assert (BO' : bytes_ok (sr_in r)) by (rewrite E in BO; apply Forall_app in BO; tauto).
      rewrite <- !app_assoc in G.
      specialize (IH cr e (sr_sess r) (room - Nlen (sr_out r)) (sr_in r) (out ++ sr_out r) (lg ++ sr_log r) (win ++ used) wout log CS BO' G).
      cbn zeta in IH. set (q := process_loop fuel _ _ _ _ _ _ _) in *. clearbody q. destruct IH as [C2 [used2 [E2 [[more [EM MR]] P]]]].
      split; [eapply same_conf_trans; eauto|].
      exists (used ++ used2). split; [rewrite <- app_assoc, <- E2; exact E|].
      split.
      { exists (sr_out r ++ more). rewrite EM, <- app_assoc. split; auto. rewrite Nlen_app. lia. }
      assert (LEN : (length (sr_in r) <= length input)%nat) by (rewrite E, app_length; lia).
      destruct (lr_rc _).
      * destruct P as [P1 [P2 [P3 [P4 P5]]]]. rewrite <- app_assoc in P1. split; [exact P1|]. split; [auto|]. split; [auto|]. split; [auto|].
        assert (LEN2 : (length (lr_in q) <= length (sr_in r))%nat) by (rewrite E2, app_length; lia).
        destruct ADV as [ADV|[ADV1 ADV2]].
        -- left. destruct P5 as [P5|[P5 _]]; [lia|]. rewrite P5. exact ADV.
        -- rewrite ADV1 in P5. destruct P5 as [P5|[P5 P6]]; [left; exact P5|]. right. split; auto.
           destruct ADV2 as [ADV2|ADV2]; [|right; lia].
           destruct P6 as [P6|P6]; [left; rewrite P6, ADV2; apply app_nil_r|right; lia].
      * destruct P as [P1 [P2 P3]]. split; auto. split; auto. intros ZE. congruence.
      * exact P.
      * destruct P as [P1 [P2 P3]]. destruct C as [_ [C _]]. rewrite C in P2. split; auto. split; auto.
        intros ZE. destruct I; try congruence.
        -- subst r. unfold step in RC. rewrite ZE in RC. destruct (policy_is_valid (s_policy s)) eqn:PV; [congruence|].
           cbn in RC. discriminate.
        -- match goal with H : _ \/ _ |- _ => destruct H as [|[]]; congruence end.
      * unfold made_progress in MP.
        destruct ADV as [ADV|[ADV1 ADV2]]; [lia|].
        rewrite ADV1 in *. destruct (sstate_eqb_spec (s_state s) (s_state s)) as [_|?]; [|congruence].
        cbn [negb] in MP. rewrite orb_false_r in MP.
        assert ((length (sr_in r) < length input)%nat).
        { destruct ADV2 as [ADV2|ADV2]; auto. rewrite ADV2 in MP. cbn [nonempty orb] in MP. unfold Nlen in MP. lia. }
        lia.
    + cbn [lr_sess lr_in lr_out lr_rc lr_log]. split; [exact C|]. exists used. split; auto.
      split; [exists (sr_out r); auto|].
      rewrite <- !app_assoc in G. split; [exact G|]. split; [auto|]. split; [auto|].
      assert (EQ : sr_in r = input).
      { unfold made_progress in MP. assert (Nlen (sr_in r) = Nlen input) by lia.
        rewrite E, Nlen_app in H. assert (used = []) by (apply Nlen_0; lia). subst used. now rewrite E. }
      split.
      * exists s, room, win, (wout ++ out), (log ++ lg). rewrite EQ, <- Hr. auto.
      * destruct ADV as [ADV|[ADV1 ADV2]]; [left; auto|right]. split; auto. left.
        unfold made_progress in MP. destruct (sr_out r); [apply app_nil_r|cbn in MP; discriminate].
  - cbn [lr_sess lr_in lr_out lr_rc lr_log]. destruct G as [G1 [G2 G3]]. split; [exact C|].
    exists used. split; auto. split; [exists (sr_out r); auto|].
    rewrite <- app_assoc in G3. split; [auto|]. split; [auto|]. intros ZE.
    subst r. unfold step in *. rewrite ZE in *. sproj. rewrite !app_nil_r. repeat split; auto. congruence.
  - contradiction.
  - cbn [lr_sess lr_in lr_out lr_rc lr_log]. split; [exact C|]. exists used. split; auto. split; [exists (sr_out r); auto|].
    destruct G as [G1 G2]. split; auto. split; auto. intros ZE.
    subst r. unfold step in RC. rewrite ZE in RC. destruct (negb _); [discriminate|].
    destruct (is_encrypt_mode (s_mode s)) eqn:EM.
    + unfold finish, change_state in RC. rewrite ZE, EM in RC. discriminate.
    + destruct (is_decrypt_mode (s_mode s)) eqn:DM.
      * unfold finish, change_state in RC. rewrite ZE, DM in RC. discriminate.
      * unfold finish, change_state in RC. rewrite ZE, DM in RC. discriminate.
Qed.

(** ** Calls *)

Lemma inv_fail_at : forall cr s s' win wout log more, inv cr s win wout log -> s_state s' = ST_ERROR ->
  s_fsize s' < 4294967296 -> s_mode s' = s_mode s -> s_state s <> ST_ERROR -> nonces_ok (log ++ more) -> inv cr s' win wout (log ++ more).
Proof. intros. eapply inv_error; eauto. Qed.

Lemma inv_in_error : forall cr s s' win wout log, inv cr s win wout log -> s_state s = ST_ERROR ->
  s_state s' = ST_ERROR -> s_fsize s' < 4294967296 -> s_mode s' = s_mode s -> inv cr s' win wout log.
Proof.
  intros cr s s' win wout log I ST ST' FS MD. destruct I; try congruence.
  - match goal with H : _ \/ _ |- _ => destruct H as [|[]]; congruence end.
  - eapply inv_error; eauto. rewrite MD. auto.
Qed.

Lemma inv_fail_session : forall cr s win wout log x, inv cr s win wout log ->
  inv cr (fail_session s x) win wout log /\ s_state (fail_session s x) = ST_ERROR.
Proof.
  intros cr s win wout log x I. unfold fail_session. destruct (sstate_eqb_spec (s_state s) ST_ERROR) as [E|E].
  - auto.
  - split; [|reflexivity]. rewrite <- (app_nil_r log). eapply inv_fail_at; eauto; [apply (inv_fsize _ _ _ _ _ I)|].
    rewrite app_nil_r. eapply inv_nonces; eauto.
Qed.

Lemma firstn_used : forall A (a b : list A), firstn (N.to_nat (Nlen (a ++ b) - Nlen b)) (a ++ b) = a.
Proof. intros. apply firstn_app_N. rewrite Nlen_app. lia. Qed.

(** The outcome of a call of aws_cryptosdk_session_process. *)
Definition call_good cr e s cap input win wout log (r : procres) : Prop :=
  same_conf s (pr_sess r) /\ pr_read r <= Nlen input /\ pr_written r <= cap /\
  match pr_rc r with
  | POk => inv cr (pr_sess r) (win ++ firstn (N.to_nat (pr_read r)) input) (wout ++ pr_mem r) (log ++ pr_log r) /\
           pr_written r = Nlen (pr_mem r) /\ s_state s <> ST_ERROR /\ s_state (pr_sess r) <> ST_ERROR /\
           stalled cr e (pr_sess r) (skipn (N.to_nat (pr_read r)) input) /\
           ((rank (s_state (pr_sess r)) < rank (s_state s))%nat \/
            (s_state (pr_sess r) = s_state s /\ (pr_written r = 0 \/ 0 < pr_read r)))
  | PErr x => inv cr (pr_sess r) win wout (log ++ pr_log r) /\ s_state (pr_sess r) = ST_ERROR /\
              s_error (pr_sess r) = x /\ pr_written r = 0 /\ pr_mem r = zeros cap /\
              (s_state s = ST_ERROR -> pr_sess r = s /\ pr_read r = 0 /\ pr_log r = [])
  | PAbort => False
  | PAssert => e_debug e = true /\ policy_is_valid (s_policy s) = false /\ s_state s <> ST_CONFIG
  | POutOfFuel => False
  end.

Theorem process_good : forall cr e s cap input win wout log,
  crypto_sizes cr -> bytes_ok input -> inv cr s win wout log ->
  call_good cr e s cap input win wout log (process cr e s cap input).
Proof.
  intros cr e s cap input win wout log CS BO I. unfold call_good, process.
  assert (I' : inv cr s win (wout ++ []) (log ++ [])) by now rewrite !app_nil_r.
  pose proof (loop_good (loop_fuel input) cr e s cap input [] [] win wout log CS BO I') as L. cbn zeta in L.
  set (l := process_loop _ _ _ _ _ _ _ _) in *. clearbody l.
  destruct L as [C [used [E [[more [EM MR]] P]]]]. cbn [app] in EM. subst more.
  assert (RD : Nlen input - Nlen (lr_in l) <= Nlen input) by lia.
  destruct (lr_rc l) as [|x| | |] eqn:RC; cbn [pr_sess pr_rc pr_written pr_read pr_mem pr_log].
  - destruct P as [P1 [P2 [P3 [P4 P5]]]].
    destruct (sstate_eqb_spec (s_state (lr_sess l)) ST_ERROR) as [Z|_]; [contradiction|].
    cbn [pr_sess pr_rc pr_written pr_read pr_mem pr_log].
    assert (U : firstn (N.to_nat (Nlen input - Nlen (lr_in l))) input = used) by (rewrite E at 2; rewrite E at 1; apply firstn_used).
    assert (U' : skipn (N.to_nat (Nlen input - Nlen (lr_in l))) input = lr_in l).
    { apply (app_inv_head used). rewrite <- U at 1. rewrite firstn_skipn. exact E. }
    rewrite U, U'. repeat split; auto; try apply C.
    destruct P5 as [P5|[P5 P6]]; [left; auto|right]. split; auto. destruct P6 as [P6|P6].
    + left. now rewrite P6.
    + right. unfold Nlen. lia.
  - destruct P as [P1 [P2 P3]].
    destruct (sstate_eqb_spec (s_state s) ST_ERROR) as [Z|Z].
    + destruct (P3 Z) as [E1 [E2 [E3 [E4 E5]]]]. rewrite E1, E2, E4, Z. change (sstate_eqb ST_ERROR ST_ERROR) with true. cbv iota.
      cbn [pr_sess pr_rc pr_written pr_read pr_mem pr_log].
      rewrite app_nil_r. repeat split; auto; try lia.
    + set (s' := if sstate_eqb (s_state (lr_sess l)) ST_ERROR then lr_sess l else _).
      assert (S' : s_state s' = ST_ERROR /\ s_fsize s' = s_fsize (lr_sess l) /\ same_conf s s').
      { unfold s'. destruct (sstate_eqb_spec (s_state (lr_sess l)) ST_ERROR); auto. }
      destruct S' as [S1 [S2 S3]]. cbn [pr_sess pr_rc pr_written pr_read pr_mem pr_log].
      split; auto. split; auto. split; [lia|]. split; [|repeat split; auto; congruence].
      eapply inv_fail_at; eauto; [lia|apply S3].
  - contradiction.
  - repeat split; try apply C; auto; tauto.
  - exfalso. unfold loop_fuel in P. destruct (s_state s); cbn in P; lia.
Qed.

(** aws_cryptosdk_session_process_full *)
Lemma inv_known : forall cr s, conf_ok s -> pristine s -> is_valid_mode (s_mode s) = true -> s_state s = ST_CONFIG ->
  forall n, n <= s_bound s -> inv cr (set_known true (set_precise n s)) [] [] [].
Proof.
  intros cr s CONF PR MODE ST n B. apply inv_config; auto.
  - destruct CONF as [C1 [C2 [C3 C4]]]. unfold conf_ok. sproj. repeat split; auto; lia.
  - destruct PR; constructor; sproj; auto.
Qed.

Lemma encrypt_body_stall : forall cr garbage s,
  (exists ty n p, next_frame s = Some (ty, n) /\ s_alg s = Some p /\ std_lens p /\ s_seqno s < 18446744073709551616 /\ n < 18446744073709551616) ->
  exists a b, sr_sess (try_encrypt_body cr false garbage s 0 []) = set_iest a (set_oest b s) \/
    sr_sess (try_encrypt_body cr false garbage s 0 []) = s.
Proof.
  intros cr garbage s [ty [n [p [NF [AL [SL [SQ NB]]]]]]]. unfold try_encrypt_body. rewrite NF, AL.
  destruct (UINT32_MAX <? s_seqno s) eqn:U; [exists 0, 0; right; reflexivity|]. cbn zeta.
  assert (FW : frame_writable ty (s_seqno s) n \/ ~ frame_writable ty (s_seqno s) n)
    by (unfold frame_writable; change UINT32_MAX with 4294967295 in *; destruct ty; lia).
  change UINT32_MAX with 4294967295 in *.
  destruct FW as [FW|FW].
  - rewrite serialize_frame_spec by (auto; lia). cbn [sr_res sr_size].
    assert (T : 0 < frame_total ty n) by (destruct ty; unfold frame_total; lia).
    destruct (N.ltb_spec 0 (frame_total ty n)); [|lia]. eexists _, _. left. reflexivity.
  - destruct (serialize_frame_refused p ty (s_seqno s) n 0 FW) as [x [SR NX]]. rewrite SR.
    destruct x; try congruence; eexists _, _; left; reflexivity.
Qed.

Lemma compute_body_estimate_inv : forall cr g s win wout log, inv cr s win wout log ->
  inv cr (compute_body_estimate cr g s) win wout log /\ s_state (compute_body_estimate cr g s) = s_state s.
Proof.
  intros cr g s win wout log I. unfold compute_body_estimate. destruct (s_state s) eqn:ST; auto.
  destruct I as [s CONF PR MODE ST'|s CONF PR MODE ST'|s CONF PR MODE ST'|s i CONF EO ST' EB|s i l CONF EO ST' R L EB
    |s i l CONF EO ST' W EB K PE|s i l tr trlog CONF EO ST' W F K PE ET|s i l CONF DO ST' R L DB SG|s i l CONF DO ST' W DB SG
    |s i l tr trlog CONF DO ST' W DB DT|s s0 win wout log more ST' FS NE MD I NON]; try congruence.
  2:{ destruct ST' as [|[]]; congruence. }
  assert (STAY : forall a b, inv cr (set_iest a (set_oest b s)) (body_text l) (ei_head i ++ body_wire l) (elog i l)).
  { intros. apply inv_ebody; auto; [enc_ok_same EO|destruct EB; constructor; sproj; auto]. }
  destruct (next_frame s) as [[ty n]|] eqn:NF.
  - assert (SL : std_lens (ei_p i)) by (eapply lookup_std_lens; apply (eo_lookup _ _ _ EO)).
    assert (NB : n < 18446744073709551616).
    { unfold next_frame in NF. destruct CONF as [C1 [C2 _]].
      destruct (negb _); [destruct (_ && _) eqn:Q|destruct (s_known s)]; try discriminate; injection NF as <- <-; lia. }
    destruct (encrypt_body_stall cr g s) as [a [b [H|H]]].
    + exists ty, n, (ei_p i). rewrite (eo_alg _ _ _ EO), (eb_seqno _ _ _ _ EB). repeat split; auto; try apply SL. lia.
    + rewrite H. split; [auto|exact ST].
    + rewrite H. split; [|exact ST]. now apply inv_ebody.
  - unfold try_encrypt_body. rewrite NF. sproj. auto.
Qed.

Lemma set_message_size_inv : forall cr g n s win wout log, inv cr s win wout log ->
  inv cr (fst (set_message_size cr g n s)) win wout log.
Proof.
  intros cr g n s win wout log I. unfold set_message_size. set (m := n mod two64).
  assert (MB : m < 18446744073709551616) by (apply N.mod_lt; discriminate). clearbody m.
  destruct (is_encrypt_mode (s_mode s)) eqn:EM; cbn [negb]; [|exact I].
  destruct (s_known s) eqn:K; [now apply inv_fail_session|].
  destruct (N.ltb_spec (s_bound s) m) as [B|B]; [now apply inv_fail_session|]. cbn [fst].
  apply compute_body_estimate_inv.
  set (s' := set_known true (set_precise m s)).
  assert (CONF' : conf_ok s -> conf_ok s') by (intros [C1 [C2 [C3 C4]]]; repeat split; auto).
  destruct I as [s CONF PR MODE ST'|s CONF PR MODE ST'|s CONF PR MODE ST'|s i CONF EO ST' EB|s i l CONF EO ST' R L EB
    |s i l CONF EO ST' W EB K' PE|s i l tr trlog CONF EO ST' W F K' PE ET|s i l CONF DO ST' R L DB SG|s i l CONF DO ST' W DB SG
    |s i l tr trlog CONF DO ST' W DB DT|s s0 win wout log more ST' FS NE MD I NON]; try congruence.
  - apply inv_config; auto; destruct PR; constructor; auto.
  - apply inv_gen; auto; destruct PR; constructor; auto.
  - apply inv_read; auto; destruct PR; constructor; auto.
  - apply inv_ehead; auto; [enc_ok_same EO|destruct EB; constructor; sproj; auto].
  - apply inv_ebody; auto; [enc_ok_same EO|destruct EB; constructor; sproj; auto].
  - exfalso. destruct DO. destruct (s_mode s); discriminate.
  - exfalso. destruct DO. destruct (s_mode s); discriminate.
  - exfalso. destruct DO. destruct (s_mode s); discriminate.
  - eapply inv_error; eauto.
Qed.

Lemma set_message_bound_inv : forall cr n s win wout log, inv cr s win wout log ->
  inv cr (fst (set_message_bound n s)) win wout log.
Proof.
  intros cr n s win wout log I. unfold set_message_bound. set (m := n mod two64).
  assert (MB : m < 18446744073709551616) by (apply N.mod_lt; discriminate). clearbody m.
  destruct (is_encrypt_mode (s_mode s)) eqn:EM; cbn [negb]; [|exact I].
  destruct (s_known s && (m <? s_precise s)) eqn:K; [now apply inv_fail_session|]. cbn [fst].
  destruct (N.ltb_spec m (s_bound s)) as [B|B]; [|exact I].
  set (s' := set_bound m s).
  assert (CONF' : conf_ok s -> conf_ok s').
  { intros [C1 [C2 [C3 C4]]]; unfold s', conf_ok; sproj; repeat split; auto. intros KN. rewrite KN in K. cbn in K. lia. }
  destruct I as [s CONF PR MODE ST'|s CONF PR MODE ST'|s CONF PR MODE ST'|s i CONF EO ST' EB|s i l CONF EO ST' R L EB
    |s i l CONF EO ST' W EB K' PE|s i l tr trlog CONF EO ST' W F K' PE ET|s i l CONF DO ST' R L DB SG|s i l CONF DO ST' W DB SG
    |s i l tr trlog CONF DO ST' W DB DT|s s0 win wout log more ST' FS NE MD I NON].
  - apply inv_config; auto; destruct PR; constructor; auto.
  - apply inv_gen; auto; destruct PR; constructor; auto.
  - apply inv_read; auto; destruct PR; constructor; auto.
  - apply inv_ehead; auto; [enc_ok_same EO|destruct EB; constructor; sproj; auto].
  - apply inv_ebody; auto; [enc_ok_same EO|destruct EB; constructor; sproj; auto].
  - apply inv_etrailer; auto; [enc_ok_same EO|destruct EB; constructor; sproj; auto].
  - apply inv_edone; auto; enc_ok_same EO.
  - exfalso. destruct DO. destruct (s_mode s); discriminate.
  - exfalso. destruct DO. destruct (s_mode s); discriminate.
  - exfalso. destruct DO. destruct (s_mode s); discriminate.
  - eapply inv_error; eauto.
Qed.

Lemma set_commitment_policy_inv : forall cr c s win wout log, inv cr s win wout log ->
  inv cr (fst (set_commitment_policy c s)) win wout log.
Proof.
  intros cr c s win wout log I. unfold set_commitment_policy. sproj.
  destruct (policy_is_valid c) eqn:V; cbn [negb fst].
  2:{ set (s' := set_policy c s). assert (CONF' : conf_ok s -> conf_ok s') by (intros C; exact C).
    assert (V' : policy_is_valid (s_policy s') = false) by exact V.
    destruct I as [s CONF PR MODE ST'|s CONF PR MODE ST'|s CONF PR MODE ST'|s i CONF EO ST' EB|s i l CONF EO ST' R L EB
    |s i l CONF EO ST' W EB K' PE|s i l tr trlog CONF EO ST' W F K' PE ET|s i l CONF DO ST' R L DB SG|s i l CONF DO ST' W DB SG
    |s i l tr trlog CONF DO ST' W DB DT|s s0 win wout log more ST' FS NE MD I NON].
    - apply inv_config; auto; destruct PR; constructor; auto.
    - apply inv_gen; auto; destruct PR; constructor; auto.
    - apply inv_read; auto; destruct PR; constructor; auto.
    - apply inv_ehead; auto; [enc_ok_same EO|destruct EB; constructor; sproj; auto].
    - apply inv_ebody; auto; [enc_ok_same EO|destruct EB; constructor; sproj; auto].
    - apply inv_etrailer; auto; [enc_ok_same EO|destruct EB; constructor; sproj; auto].
    - apply inv_edone; auto; enc_ok_same EO.
    - change (dlog s i l) with (dlog s' i l). apply inv_dbody; auto; [destruct DO; constructor; auto|destruct DB; constructor; auto].
    - change (dlog s i l) with (dlog s' i l). apply inv_dtrailer; auto; [destruct DO; constructor; auto|destruct DB; constructor; auto].
    - change (dlog s i l) with (dlog s' i l). apply inv_dend; auto; [destruct DO; constructor; auto|destruct DB; constructor; auto].
    - eapply inv_error; eauto. }
  destruct (sstate_eqb_spec (s_state s) ST_CONFIG) as [ST|ST]; cbn [negb fst].
  - destruct I; try congruence.
    + apply inv_config; auto. destruct H0; constructor; auto.
    + destruct H1 as [|[]]; congruence.
  - unfold fail_session. sproj. pose proof (inv_fsize _ _ _ _ _ I) as FS.
    destruct (sstate_eqb_spec (s_state s) ST_ERROR) as [E|E].
    + eapply inv_in_error; eauto.
    + rewrite <- (app_nil_r log). eapply inv_fail_at; eauto; try reflexivity. rewrite app_nil_r. eapply inv_nonces; eauto.
Qed.

Lemma set_max_inv : forall cr n s win wout log, inv cr s win wout log -> inv cr (fst (set_max_edks n s)) win wout log.
Proof.
  intros cr n s win wout log I. unfold set_max_edks.
  destruct (sstate_eqb_spec (s_state s) ST_CONFIG) as [ST|ST]; cbn [negb fst]; [|now apply inv_fail_session].
  destruct (n =? 0); [exact I|]. cbn [fst].
  destruct I; try congruence.
  - apply inv_config; auto. destruct H0; constructor; auto.
  - destruct H1 as [|[]]; congruence.
Qed.

Lemma set_frame_inv : forall cr n s win wout log, inv cr s win wout log -> inv cr (fst (set_frame_size n s)) win wout log.
Proof.
  intros cr n s win wout log I. unfold set_frame_size.
  destruct (negb (is_encrypt_mode (s_mode s)) || negb (sstate_eqb (s_state s) ST_CONFIG)) eqn:C; [exact I|]. cbn [fst].
  destruct (sstate_eqb_spec (s_state s) ST_CONFIG) as [ST|ST]; [|rewrite orb_true_r in C; discriminate].
  destruct I; try congruence.
  - apply inv_config; auto; [|destruct H0; constructor; auto].
    destruct H as [C1 [C2 [C3 C4]]]. repeat split; auto. unfold conf_ok. sproj. apply N.mod_lt. discriminate.
  - destruct H1 as [|[]]; congruence.
Qed.

Lemma mutate_ctx_inv : forall cr c s win wout log, inv cr s win wout log -> inv cr (fst (mutate_ctx c s)) win wout log.
Proof.
  intros cr c s win wout log I. unfold mutate_ctx.
  destruct (is_encrypt_mode (s_mode s) && sstate_eqb (s_state s) ST_CONFIG) eqn:C; [|exact I]. cbn [fst].
  apply andb_prop in C. destruct C as [EM ST]. destruct (sstate_eqb_spec (s_state s) ST_CONFIG) as [ST'|]; [|discriminate].
  destruct I; try congruence.
  - apply inv_config; auto. destruct H0; constructor; auto. destruct pr_hdr as [c' [E _]]. exists c. sproj.
    rewrite E. split; auto. intros D. destruct (s_mode s); discriminate.
  - destruct H1 as [|[]]; congruence.
Qed.

Lemma reset_inv : forall cr m s win wout log, inv cr s win wout log -> inv cr (fst (reset m s)) [] [] [].
Proof.
  intros cr m s win wout log I. pose proof (inv_fsize _ _ _ _ _ I) as FS. unfold reset.
  assert (CONFIG : forall m', is_valid_mode m' = true -> inv cr (mk_session E_UNKNOWN m' ST_CONFIG (s_policy s) 0 UINT64_MAX 0 false None 0 hdr_cleared
              (s_fsize s) [] 1 1 0 None (zeros 32) (s_commit s) None false (s_max s)) [] [] []).
  { intros m' V. apply inv_config; auto.
    - repeat split; sproj; auto; try reflexivity. discriminate.
    - constructor; auto. exists []. auto. }
  destruct (is_valid_mode m) eqn:V; cbn [fst]; [auto|].
  change (@nil event) with (@nil event ++ []). eapply inv_error; try apply (CONFIG M_ENCRYPT); auto; try discriminate; [cbn; congruence|].
  apply nonces_ok_nil.
Qed.

Lemma new_session_inv : forall cr m, is_valid_mode m = true -> inv cr (new_session m) [] [] [].
Proof.
  intros cr m V. unfold new_session, reset. rewrite V. cbn [fst]. apply inv_config; auto.
  - repeat split; sproj; try reflexivity. discriminate.
  - constructor; auto. exists []. auto.
Qed.

(** ** Histories *)

Lemma process_full_good : forall cr e s cap input win wout log,
  crypto_sizes cr -> bytes_ok input -> inv cr s win wout log ->
  let r := process_full cr e s cap input in
  pr_read r <= Nlen input /\ pr_written r <= cap /\
  match pr_rc r with
  | POk => inv cr (pr_sess r) (win ++ firstn (N.to_nat (pr_read r)) input) (wout ++ pr_mem r) (log ++ pr_log r) /\
           pr_written r = Nlen (pr_mem r) /\ is_done (pr_sess r) = true /\ pr_read r = Nlen input /\ s_state s = ST_CONFIG
  | PErr x => inv cr (pr_sess r) win wout (log ++ pr_log r) /\ pr_written r = 0 /\
              (s_state s = ST_CONFIG -> s_state (pr_sess r) = ST_ERROR) /\
              (s_state s <> ST_CONFIG -> pr_sess r = s) /\
              (pr_mem r = zeros cap \/ pr_mem r = [] /\ (s_state s <> ST_CONFIG \/
                 s_mode s = M_ENCRYPT /\ (s_known s = true \/ s_bound s < Nlen input mod two64)))
  | _ => False
  end.
Proof.
  intros cr e s cap input win wout log CS BO I. unfold process_full.
  destruct (sstate_eqb_spec (s_state s) ST_CONFIG) as [ST|ST]; cbn [negb].
  2:{ cbn [pr_sess pr_rc pr_written pr_read pr_mem pr_log]. rewrite app_nil_r. repeat split; auto; try lia; tauto. }
  assert (EARLY : forall s' x, inv cr s' win wout log -> s_state s' = ST_ERROR ->
     s_mode s = M_ENCRYPT /\ (s_known s = true \/ s_bound s < Nlen input mod two64) ->
     let r := mk_proc s' (PErr x) 0 0 [] [] in
       pr_read r <= Nlen input /\ pr_written r <= cap /\
  match pr_rc r with
  | POk => inv cr (pr_sess r) (win ++ firstn (N.to_nat (pr_read r)) input) (wout ++ pr_mem r) (log ++ pr_log r) /\
           pr_written r = Nlen (pr_mem r) /\ is_done (pr_sess r) = true /\ pr_read r = Nlen input /\ s_state s = ST_CONFIG
  | PErr x => inv cr (pr_sess r) win wout (log ++ pr_log r) /\ pr_written r = 0 /\
              (s_state s = ST_CONFIG -> s_state (pr_sess r) = ST_ERROR) /\
              (s_state s <> ST_CONFIG -> pr_sess r = s) /\
              (pr_mem r = zeros cap \/ pr_mem r = [] /\ (s_state s <> ST_CONFIG \/
                 s_mode s = M_ENCRYPT /\ (s_known s = true \/ s_bound s < Nlen input mod two64)))
  | _ => False
  end).
  { intros s' x I' ST' W. cbn [pr_sess pr_rc pr_written pr_read pr_mem pr_log]. rewrite app_nil_r. repeat split; auto; try lia; tauto. }
  assert (MAIN : forall s', inv cr s' win wout log -> s_state s' = ST_CONFIG ->
     let r := match pr_rc (process cr e s' cap input) with
              | POk => if is_done (pr_sess (process cr e s' cap input)) && (pr_read (process cr e s' cap input) =? Nlen input)
                       then process cr e s' cap input
                       else mk_proc (set_state ST_ERROR (set_error E_BAD_CIPHERTEXT (pr_sess (process cr e s' cap input))))
                            (PErr E_BAD_CIPHERTEXT) (pr_written (process cr e s' cap input)) (pr_read (process cr e s' cap input))
                            (pr_mem (process cr e s' cap input)) (pr_log (process cr e s' cap input))
              | _ => process cr e s' cap input end in
     let r := match pr_rc r with PErr x => mk_proc (pr_sess r) (PErr x) 0 (pr_read r) (zeros cap) (pr_log r) | _ => r end in
       pr_read r <= Nlen input /\ pr_written r <= cap /\
  match pr_rc r with
  | POk => inv cr (pr_sess r) (win ++ firstn (N.to_nat (pr_read r)) input) (wout ++ pr_mem r) (log ++ pr_log r) /\
           pr_written r = Nlen (pr_mem r) /\ is_done (pr_sess r) = true /\ pr_read r = Nlen input /\ s_state s = ST_CONFIG
  | PErr x => inv cr (pr_sess r) win wout (log ++ pr_log r) /\ pr_written r = 0 /\
              (s_state s = ST_CONFIG -> s_state (pr_sess r) = ST_ERROR) /\
              (s_state s <> ST_CONFIG -> pr_sess r = s) /\
              (pr_mem r = zeros cap \/ pr_mem r = [] /\ (s_state s <> ST_CONFIG \/
                 s_mode s = M_ENCRYPT /\ (s_known s = true \/ s_bound s < Nlen input mod two64)))
  | _ => False
  end).
  { intros s' I' ST'. pose proof (process_good cr e s' cap input _ _ _ CS BO I') as G. unfold call_good in G.
    set (r := process _ _ _ _ _) in *. clearbody r. cbn zeta.
    destruct G as [C [RD [WR G]]]. destruct (pr_rc r) as [|x| | |] eqn:RC.
    - destruct G as [G1 [G2 [G3 [G4 [G5 _]]]]].
      destruct (is_done (pr_sess r) && (pr_read r =? Nlen input)) eqn:D.
      + rewrite RC. apply andb_prop in D. destruct D as [D1 D2]. rewrite ?RC. repeat split; auto. lia.
      + cbn [pr_sess pr_rc pr_written pr_read pr_mem pr_log]. split; [auto|]. split; [lia|].
        split; [|repeat split; auto; congruence].
        eapply inv_fail_at; eauto; [apply (inv_fsize _ _ _ _ _ G1)|apply C|].
        eapply inv_nonces. exact G1.
    - rewrite RC. cbn [pr_sess pr_rc pr_written pr_read pr_mem pr_log]. destruct G as [G1 [G2 [G3 [G4 [G5 G6]]]]].
      repeat split; auto; try lia; congruence.
    - contradiction.
    - destruct G as [_ [_ G]]. contradiction.
    - contradiction. }
  destruct (is_encrypt_mode (s_mode s)) eqn:EM.
  2:{ cbn zeta. apply MAIN; auto. }
  assert (ME : s_mode s = M_ENCRYPT) by (destruct (s_mode s); auto; discriminate).
  pose proof (set_message_size_inv cr (e_garbage e) (Nlen input) _ _ _ _ I) as SI.
  unfold set_message_size in *. rewrite EM in *. cbn [negb] in *.
  destruct (s_known s) eqn:K.
  { apply EARLY; auto. now apply (inv_fail_session cr s win wout log). }
  destruct (N.ltb_spec (s_bound s) (Nlen input mod two64)) as [B|B].
  { apply EARLY; auto. now apply (inv_fail_session cr s win wout log). }
  cbn [fst] in SI. cbn zeta. apply MAIN; auto. unfold compute_body_estimate. sproj. rewrite ST. exact ST.
Qed.

Definition winv cr (w : world) : Prop := inv cr (w_s w) (w_in w) (w_out w) (w_log w).

Lemma exec_good : forall cr w o, crypto_sizes cr -> op_bytes o -> winv cr w ->
  let (w', r) := exec cr w o in
  (stuck (o_rc r) = false -> winv cr w') /\ o_rc r <> PAbort /\ o_rc r <> POutOfFuel /\
  (o_rc r = PAssert -> exists e cap input, o = OProcess e cap input /\ e_debug e = true /\
     policy_is_valid (s_policy (w_s w)) = false /\ s_state (w_s w) <> ST_CONFIG).
Proof.
  intros cr [s win wout log] o CS OB I. unfold winv in *. cbn [w_s w_in w_out w_log] in I.
  assert (SIMPLE : forall r, inv cr (fst r) win wout log -> (snd r = POk \/ exists x, snd r = PErr x) ->
    let (w', r) := with_session (mk_world s win wout log) r in
    (stuck (o_rc r) = false -> inv cr (w_s w') (w_in w') (w_out w') (w_log w')) /\ o_rc r <> PAbort /\ o_rc r <> POutOfFuel /\
    (o_rc r = PAssert -> exists e cap input, o = OProcess e cap input /\ e_debug e = true /\ policy_is_valid (s_policy s) = false /\
       s_state s <> ST_CONFIG)).
  { intros r I' RC. unfold with_session. cbn [w_s w_in w_out w_log o_rc].
    destruct RC as [->|[x ->]]; repeat split; auto; discriminate. }
  destruct o as [m|n|g n|n|c|n|c|e cap input|e cap input]; cbn [exec w_s].
  - cbn [w_s w_in w_out w_log o_rc]. pose proof (reset_inv cr m s _ _ _ I) as R.
    unfold reset in *. destruct (is_valid_mode m); cbn [fst snd] in *; repeat split; auto; discriminate.
  - apply SIMPLE; [now apply set_frame_inv|]. unfold set_frame_size. destruct (_ || _); cbn [snd]; eauto.
  - apply SIMPLE; [now apply set_message_size_inv|]. unfold set_message_size.
    destruct (negb _); [cbn; eauto|]. destruct (s_known s); [cbn; eauto|]. destruct (_ <? _); cbn; eauto.
  - apply SIMPLE; [now apply set_message_bound_inv|]. unfold set_message_bound.
    destruct (negb _); [cbn; eauto|]. destruct (s_known s && _); cbn; eauto.
  - apply SIMPLE; [now apply set_commitment_policy_inv|]. unfold set_commitment_policy.
    destruct (negb _); [cbn; eauto|]. sproj. destruct (negb _); cbn; eauto.
  - apply SIMPLE; [now apply set_max_inv|]. unfold set_max_edks.
    destruct (negb _); [cbn; eauto|]. destruct (_ =? _); cbn; eauto.
  - apply SIMPLE; [now apply mutate_ctx_inv|]. unfold mutate_ctx. destruct (_ && _); cbn; eauto.
  - cbn [op_bytes] in OB. pose proof (process_good cr e s cap input _ _ _ CS OB I) as G. unfold call_good in G.
    set (r := process _ _ _ _ _) in *. clearbody r. unfold after_process. cbn [w_s w_in w_out w_log o_rc].
    destruct G as [_ [_ [_ G]]]. destruct (pr_rc r) eqn:RC; cbn [w_s w_in w_out w_log o_rc].
    + repeat split; try discriminate. tauto.
    + repeat split; try discriminate. tauto.
    + contradiction.
    + repeat split; try discriminate. intros _. exists e, cap, input. tauto.
    + contradiction.
  - cbn [op_bytes] in OB. pose proof (process_full_good cr e s cap input _ _ _ CS OB I) as G. cbn zeta in G.
    set (r := process_full _ _ _ _ _) in *. clearbody r. unfold after_process. cbn [w_s w_in w_out w_log o_rc].
    destruct G as [_ [_ G]]. destruct (pr_rc r) eqn:RC; cbn [w_s w_in w_out w_log o_rc]; try contradiction.
    + repeat split; try discriminate. tauto.
    + repeat split; try discriminate. tauto.
Qed.

Lemma run_good : forall cr ops w, crypto_sizes cr -> Forall op_bytes ops -> winv cr w ->
  let (w', rs) := run cr w ops in
  (Forall (fun r => stuck (o_rc r) = false) rs -> winv cr w') /\
  Forall (fun r => o_rc r <> PAbort /\ o_rc r <> POutOfFuel) rs.
Proof.
  intros cr ops. induction ops as [|o ops IH]; intros w CS OB I; cbn [run].
  { split; [auto|constructor]. }
  inversion OB as [|? ? O OB']; subst. pose proof (exec_good cr w o CS O I) as G.
  destruct (exec cr w o) as [w1 r]. destruct G as [G1 [G2 [G3 _]]].
  destruct (stuck (o_rc r)) eqn:ST.
  - split; [|constructor; auto]. intros F. inversion F; subst. congruence.
  - specialize (IH w1 CS OB' (G1 eq_refl)). destruct (run cr w1 ops) as [w2 rs]. destruct IH as [I1 I2].
    split; [|constructor; auto]. intros F. inversion F; subst. auto.
Qed.

Theorem history_inv : forall cr m ops w, crypto_sizes cr -> history cr m ops w -> winv cr w.
Proof.
  intros cr m ops w CS [V [OB [rs [R F]]]].
  pose proof (run_good cr ops (new_world m) CS OB (new_session_inv cr m V)) as G. rewrite R in G. now apply G.
Qed.

(** Histories can be extended. *)
Lemma run_app : forall cr ops1 ops2 w w1 rs1, run cr w ops1 = (w1, rs1) -> Forall (fun r => stuck (o_rc r) = false) rs1 ->
  run cr w (ops1 ++ ops2) = (fst (run cr w1 ops2), rs1 ++ snd (run cr w1 ops2)).
Proof.
  intros cr ops1. induction ops1 as [|o ops1 IH]; intros ops2 w w1 rs1 R F; cbn [run app] in *.
  - injection R as <- <-. now destruct (run cr w ops2).
  - destruct (exec cr w o) as [w' r]. destruct (stuck (o_rc r)) eqn:ST.
    + injection R as <- <-. inversion F; subst; congruence.
    + destruct (run cr w' ops1) as [w2 rs] eqn:R2. injection R as <- <-. inversion F; subst.
      now rewrite (IH ops2 w' w2 rs R2 ltac:(assumption)).
Qed.
