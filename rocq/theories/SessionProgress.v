(** What a caller learns from the buffer estimates, and why following them ends. *)
From Verif Require Import Base AlgModel EncCtxModel HdrModel FrameModel CryptoModel SessionModel
  BaseProofs WireSpec SessionSpec ProgressSpec EncCtxProofs HdrProofs FrameProofs SessionBase SessionInv SessionStep SessionStepD SessionRun SessionTheorems.
From Coq Require Import ZArith ZifyBool ZifyNat ZifyN.
Import List.
Open Scope list_scope.
Open Scope N_scope.

(** What stops a step that makes no progress. *)
Definition wants (s : session) (room : N) (input : list N) : Prop :=
  awaits_size s \/ Nlen input < s_iest s \/ room < s_oest s.

Lemma saturating_more : forall n, n < 18446744073709551615 -> n < saturating_add n 128.
Proof.
  intros n H. unfold saturating_add, add64. change two64 with 18446744073709551616. change UINT64_MAX with 18446744073709551615.
  destruct (N.lt_ge_cases (n + 128) 18446744073709551616) as [L|L].
  - rewrite N.mod_small by exact L. destruct (N.ltb_spec (n + 128) n); lia.
  - replace (n + 128) with ((n + 128 - 18446744073709551616) + 1 * 18446744073709551616) by lia. rewrite N.mod_add by discriminate.
    rewrite N.mod_small by lia. match goal with |- context [if ?b then _ else _] => destruct b eqn:E end; lia.
Qed.

Lemma no_progress_state : forall s input r, made_progress s input r = false -> s_state (sr_sess r) = s_state s /\ sr_out r = [] /\ Nlen (sr_in r) = Nlen input.
Proof.
  intros s input r H. unfold made_progress in H. destruct (sstate_eqb_spec (s_state (sr_sess r)) (s_state s)) as [E|E].
  - split; [exact E|]. destruct (sr_out r); cbn in H; [|discriminate]. split; [reflexivity|]. lia.
  - cbn [negb] in H. rewrite orb_true_r in H. discriminate.
Qed.

Lemma finish_stall : forall s st input s1 i o l s0, s_state s <> st ->
  sr_rc (finish (change_state s1 st) i o l s0) = RGo -> made_progress s input (finish (change_state s1 st) i o l s0) = false -> False.
Proof.
  intros s st input s1 i o l s0 N R M. apply no_progress_state in M. destruct M as [M _]. unfold finish in *.
  destruct (change_state s1 st) eqn:E; [|discriminate]. apply change_state_some in E. subst. sproj. congruence.
Qed.

Lemma rank_stall : forall s input r, (rank (s_state (sr_sess r)) < rank (s_state s))%nat -> made_progress s input r = false -> False.
Proof. intros s input r H M. apply no_progress_state in M. destruct M as [M _]. rewrite M in H. lia. Qed.

Definition lands (st : sstate) (r : stepres) : Prop := sr_rc r = RGo -> s_state (sr_sess r) = st.
Lemma lands_fail : forall st s i o rc l, rc <> RGo -> lands st (mk_step s i o rc l).
Proof. intros st s i o rc l H E. sproj. congruence. Qed.
Lemma lands_finish : forall st s1 i o l s0, lands st (finish (change_state s1 st) i o l s0).
Proof. intros st s1 i o l s0 H. unfold finish in *. destruct (change_state s1 st) eqn:E; [|discriminate]. apply change_state_some in E. subst. reflexivity. Qed.
Lemma sign_header_lands : forall cr s p input log, lands ST_WRITE_HEADER (sign_header cr s p input log).
Proof.
  intros cr s p input log. unfold sign_header. cbn zeta.
  repeat match goal with
    | |- lands _ (mk_step _ _ _ _ _) => apply lands_fail; congruence
    | |- lands _ (finish _ _ _ _ _) => apply lands_finish
    | |- context [if ?c then _ else _] => destruct c
    | |- context [match ?c with _ => _ end] => destruct c end.
Qed.
Lemma try_gen_key_lands : forall cr e s input, lands ST_WRITE_HEADER (try_gen_key cr e s input).
Proof.
  intros cr e s input. unfold try_gen_key. cbn zeta.
  repeat match goal with
    | |- lands _ (mk_step _ _ _ _ _) => apply lands_fail; congruence
    | |- lands _ (sign_header _ _ _ _ _) => now apply sign_header_lands
    | |- context [match e_gen ?a ?b with _ => _ end] => destruct (e_gen a b) as [? []]
    | |- context [match alg_lookup ?b with _ => _ end] => destruct (alg_lookup b)
    | |- context [match e_rand ?a ?b with _ => _ end] => destruct (e_rand a b)
    | |- context [match kd_rc ?b with _ => _ end] => destruct (kd_rc b)
    | |- context [match build_header ?a ?b ?c with _ => _ end] => destruct (build_header a b c) as [[]|]
    | |- context [if ?c then _ else _] => destruct c
    end.
Qed.
Lemma unwrap_keys_lands : forall cr e s input, lands ST_DECRYPT_BODY (unwrap_keys cr e s input).
Proof.
  intros cr e s input. unfold unwrap_keys. cbn zeta.
  repeat match goal with
    | |- lands _ (mk_step _ _ _ _ _) => apply lands_fail; congruence
    | |- lands _ (finish _ _ _ _ _) => apply lands_finish
    | |- context [match alg_lookup ?b with _ => _ end] => destruct (alg_lookup b)
    | |- context [match e_dec ?a ?b with _ => _ end] => destruct (e_dec a b)
    | |- context [match derive_data_key ?a ?b ?c ?d ?e with _ => _ end] => destruct (derive_data_key a b c d e) as [? []]
    | |- context [match validate_header ?a ?b ?c ?d with _ => _ end] => destruct (validate_header a b c d) as [[] ?]
    | |- context [match dm_sig ?a with _ => _ end] => destruct (dm_sig a)
    | |- context [match sig_update ?a ?b ?c with _ => _ end] => destruct (sig_update a b c)
    | |- context [if ?c then _ else _] => destruct c
    end.
Qed.

Lemma frame_writable_dec : forall ty seqno psize, frame_writable ty seqno psize \/ ~ frame_writable ty seqno psize.
Proof. intros ty seqno psize. destruct ty; cbn [frame_writable]; lia. Qed.

Lemma step_stall : forall cr e s room input win wout log,
  crypto_sizes cr -> plain_call e input -> inv cr s win wout log -> s_state s <> ST_DONE ->
  sr_rc (step cr e s room input) = RGo -> made_progress s input (step cr e s room input) = false ->
  wants (sr_sess (step cr e s room input)) room input.
Proof.
  intros cr e s room input win wout log CS (NN & BO & LEN) I ND RC MP. unfold step in *.
  destruct (s_state s) eqn:ST.
  - (* CONFIG *)
    destruct (negb _); [discriminate|].
    exfalso. destruct (is_encrypt_mode _); eapply finish_stall in RC; eauto; congruence.
  - discriminate.
  - congruence.
  - (* READ_HEADER *)
    unfold try_parse_header in *. cbn zeta in *.
    destruct (hdr_parse _ _) as [[h rest]|[]]; try discriminate.
    + exfalso. destruct (_ =? 0); [discriminate|]. destruct (negb _); [discriminate|].
      match type of RC with context [change_state ?a ?b] => destruct (change_state a b) eqn:E end; [|discriminate].
      apply unwrap_keys_lands in RC. apply no_progress_state in MP. destruct MP as [MP _]. congruence.
    + right. left. sproj. destruct (N.leb_spec (s_iest s) (Nlen input)); [apply saturating_more; exact LEN|lia].
  - exfalso. destruct I; try congruence; match goal with H : _ \/ _ |- _ => destruct H as [|[]]; congruence end.
  - (* DECRYPT_BODY *)
    destruct I as [s CONF PR MODE ST'|s CONF PR MODE ST'|s CONF PR MODE ST'|s i CONF EO ST' EB|s i l CONF EO ST' R L EB
    |s i l CONF EO ST' W EB K PE|s i l tr trlog CONF EO ST' W F K PE ET|s i l CONF DO ST' R L DB SG|s i l CONF DO ST' W DB SG
    |s i l tr trlog CONF DO ST' W DB DT|s s0 win wout log more ST' FS NE MD I NON]; try congruence.
    2:{ destruct ST' as [|[]]; congruence. }
    unfold try_decrypt_body in *. cbn zeta in *. rewrite (do_alg _ _ _ DO) in *.
    assert (SL : std_lens (di_p i)) by (eapply lookup_std_lens; apply (do_lookup _ _ _ DO)).
    assert (FS : s_fsize s < 4294967296) by apply CONF. sproj.
    destruct (ds_res _) as [[f rest]|[]] eqn:DS; try discriminate.
    + destruct (deserialize_frame_sound _ _ _ _ _ SL FS BO DS) as [WF E].
      destruct (negb _); [discriminate|]. destruct (_ <? _) eqn:RM; [right; right; sproj; lia|].
      destruct (decrypt_body _ _ _ _ _ _ _ _ _ _); try discriminate.
      destruct (sig_update_opt _ _ _); [|discriminate].
      pose proof (wire_frame_pos _ _ WF).
      exfalso. destruct (fr_type f) eqn:T; try (eapply finish_stall in RC; eauto; congruence).
      apply no_progress_state in MP. destruct MP as (_ & _ & MP). sproj. rewrite E, Nlen_app in MP. lia.
    + right. left. sproj. apply des_short_more; assumption.
  - (* CHECK_TRAILER *)
    unfold check_trailer in *. cbn zeta in *. sproj. destruct (s_sig s).
    + destruct (read_be _ _) as [[sl r]|] eqn:R1.
      2:{ right. left. sproj. apply read_be_err_len in R1. lia. }
      apply read_be_ok_len in R1.
      destruct (read_bytes _ _) as [[sg rest]|] eqn:R2.
      * exfalso. apply read_bytes_ok_len in R2. destruct (cr_verify _ _ _); [|discriminate]. apply no_progress_state in MP. destruct MP as (_ & _ & MP). sproj. lia.
      * right. left. sproj. apply read_bytes_err in R2. lia.
    + exfalso. eapply finish_stall in RC; eauto; congruence.
  - (* GEN_KEY *)
    exfalso. apply try_gen_key_lands in RC. apply no_progress_state in MP. destruct MP as [MP _]. congruence.
  - (* WRITE_HEADER *)
    assert (HC : exists c, s_hcopy s = Some c).
    { destruct I; try congruence; try (eexists; eapply eo_copy; eassumption); match goal with H : _ \/ _ |- _ => destruct H as [|[]]; congruence end. }
    destruct HC as [c HC]. unfold try_write_header in *. sproj. rewrite HC in *. destruct (N.leb_spec (s_hsize s) room).
    + exfalso. eapply finish_stall in RC; eauto; congruence.
    + right. right. sproj. lia.
  - (* ENCRYPT_BODY *)
    unfold try_encrypt_body in *. cbn zeta in *. destruct (next_frame s) as [[ty n]|] eqn:NF.
    2:{ left. sproj. unfold next_frame in NF. destruct (N.eqb_spec (s_fsize s) 0); cbn [negb] in NF.
        - destruct (s_known s) eqn:K; [discriminate|]. unfold awaits_size. sproj. auto.
        - destruct (s_known s && _); discriminate. }
    destruct (s_alg s) as [p|] eqn:AL; [|discriminate].
    destruct (_ <? _) eqn:SQ; [discriminate|].
    destruct (sr_res _) as [l|[]] eqn:SR; try discriminate.
    + destruct ((Nlen input <? n) || e_in_null e) eqn:IN; [right; left; sproj; rewrite NN, orb_false_r in IN; lia|].
      destruct (encrypt_body _ _ _ _ _ _ _ _); try discriminate.
      destruct (sig_update_opt _ _ _); [|discriminate].
      exfalso. destruct ty; try (eapply finish_stall in RC; eauto; congruence).
      apply no_progress_state in MP. destruct MP as (_ & _ & MP). sproj.
      assert (n <> 0).
      { unfold next_frame in NF. destruct (N.eqb_spec (s_fsize s) 0); cbn [negb] in NF.
        - destruct (s_known s); congruence.
        - destruct (s_known s && _); congruence. }
      rewrite NN, orb_false_r in IN. rewrite Nlen_skipn in MP. lia.
    + right. right. sproj.
      assert (SL : std_lens p).
      { destruct I; try congruence; try (match goal with H : _ \/ _ |- _ => destruct H as [|[]]; congruence end).
        match goal with H : enc_ok _ _ _ |- _ => pose proof (eo_alg _ _ _ H) as A; pose proof (eo_lookup _ _ _ H) as B end.
        eapply lookup_std_lens. rewrite B. congruence. }
      destruct (frame_writable_dec ty (s_seqno s) n) as [W|W].
      * rewrite serialize_frame_spec in SR |- * by (try assumption; unfold UINT32_MAX in *; lia). cbn [sr_res sr_size] in *.
        destruct (room <? _) eqn:RM; [lia|discriminate].
      * destruct (serialize_frame_refused p ty (s_seqno s) n room W) as (x & E1 & E2). congruence.
  - (* WRITE_TRAILER *)
    unfold write_trailer in *. cbn zeta in *. sproj. destruct (s_alg s); [|discriminate].
    destruct (_ =? _); [exfalso; eapply finish_stall in RC; eauto; congruence|].
    destruct (_ <? _) eqn:RM; [right; right; sproj; lia|].
    destruct (s_sig s); [|discriminate].
    destruct (e_sign e _) as [sg|]; [|discriminate].
    match type of RC with context [if ?c then _ else _] => destruct c; [discriminate|] end.
    exfalso. eapply finish_stall in RC; eauto; congruence.
Qed.

Lemma loop_stall : forall fuel cr e s room input out lg win wout log,
  crypto_sizes cr -> plain_call e input -> inv cr s win wout log -> Nlen out <= Nlen out + room ->
  let r := process_loop fuel cr e s room input out lg in lr_rc r = POk ->
  s_state (lr_sess r) = ST_DONE \/ wants (lr_sess r) (room + Nlen out - Nlen (lr_out r)) (lr_in r).
Proof.
  induction fuel as [|fuel IH]; intros cr e s room input out lg win wout log CS PC I _; cbn zeta; cbn [process_loop]; [discriminate|].
  pose proof (step_inv cr e s room input _ _ _ CS (proj1 (proj2 PC)) I) as G.
  pose proof (step_stall cr e s room input _ _ _ CS PC I) as ST.
  remember (step cr e s room input) as r eqn:Hr. destruct G as [used [E [OUT G]]].
  destruct (sr_rc r) as [|x| |] eqn:RC; try discriminate.
  fold (made_progress s input r). destruct (made_progress s input r) eqn:MP.
  - intros RC2. destruct PC as (P1 & P2 & P3).
    assert (PC' : plain_call e (sr_in r)).
    { split; [exact P1|]. split; [rewrite E in P2; apply Forall_app in P2; tauto|]. rewrite E, Nlen_app in P3. lia. }
    specialize (IH cr e (sr_sess r) (room - Nlen (sr_out r)) (sr_in r) (out ++ sr_out r) (lg ++ sr_log r) _ _ _ CS PC' G).
    cbn zeta in IH. rewrite Nlen_app in IH. replace (room - Nlen (sr_out r) + (Nlen out + Nlen (sr_out r))) with (room + Nlen out) in IH by lia.
    apply IH; [lia|exact RC2].
  - intros _. cbn [lr_sess lr_in lr_out]. pose proof (no_progress_state _ _ _ MP) as (A & B & C).
    rewrite B, app_nil_r. replace (room + Nlen out - Nlen out) with room by lia.
    assert (EQ : sr_in r = input).
    { rewrite E, Nlen_app in C. assert (used = []) by (apply Nlen_0; lia). subst used. now rewrite E. }
    rewrite EQ. destruct (sstate_eqb_spec (s_state s) ST_DONE) as [D|D]; [left; congruence|]. right. apply ST; auto.
Qed.

Lemma call_stall : forall cr e s cap input win wout log, crypto_sizes cr -> plain_call e input -> inv cr s win wout log ->
  let r := process cr e s cap input in pr_rc r = POk ->
  is_done (pr_sess r) = true \/ awaits_size (pr_sess r) \/ Nlen input - pr_read r < s_iest (pr_sess r) \/ cap - pr_written r < s_oest (pr_sess r).
Proof.
  intros cr e s cap input win wout log CS PC I. cbn zeta. unfold process.
  pose proof (loop_stall (loop_fuel input) cr e s cap input [] [] win wout log CS PC I) as L. cbn zeta in L.
  assert (I' : inv cr s win (wout ++ []) (log ++ [])) by now rewrite !app_nil_r.
  pose proof (loop_good (loop_fuel input) cr e s cap input [] [] win wout log CS (proj1 (proj2 PC)) I') as LG. cbn zeta in LG.
  set (l := process_loop _ _ _ _ _ _ _ _) in *. clearbody l. destruct LG as [_ [used [E _]]].
  assert (LE : Nlen (lr_in l) <= Nlen input) by (rewrite E, Nlen_app; lia).
  destruct (lr_rc l) as [|x| | |] eqn:RC; cbn [pr_sess pr_rc pr_written pr_read]; try discriminate.
  intros _. rewrite Nlen_nil in L. destruct (L ltac:(lia) eq_refl) as [D|[D|[D|D]]].
  - left. unfold is_done. rewrite D. reflexivity.
  - right. left. exact D.
  - right. right. left. lia.
  - right. right. right. lia.
Qed.

Definition writing (st : sstate) : Prop := st = ST_ENCRYPT_BODY \/ st = ST_WRITE_TRAILER \/ st = ST_DONE.
Lemma finish_writing : forall s s1 st i o l, s_fsize s1 = s_fsize s -> writing st ->
  sr_rc (finish (change_state s1 st) i o l s1) = RGo ->
  s_fsize (sr_sess (finish (change_state s1 st) i o l s1)) = s_fsize s /\ writing (s_state (sr_sess (finish (change_state s1 st) i o l s1))).
Proof.
  intros s s1 st i o l F W. unfold finish. destruct (change_state s1 st) eqn:E; [|discriminate]. apply change_state_some in E. subst. sproj. auto.
Qed.
Lemma step_writing : forall cr e s room input, writing (s_state s) -> sr_rc (step cr e s room input) = RGo ->
  s_fsize (sr_sess (step cr e s room input)) = s_fsize s /\ writing (s_state (sr_sess (step cr e s room input))).
Proof.
  intros cr e s room input W. pose proof W as W'. unfold step. destruct W as [ST|[ST|ST]]; rewrite ST in *.
  - unfold try_encrypt_body. cbn zeta. destruct (next_frame s) as [[ty n]|]; [|intros _; sproj; rewrite ST; auto].
    destruct (s_alg s); [|discriminate]. destruct (_ <? _); [discriminate|].
    destruct (sr_res _) as [l|[]]; try discriminate; [|intros _; sproj; rewrite ST; auto].
    destruct (_ || _); [intros _; sproj; rewrite ST; auto|].
    destruct (encrypt_body _ _ _ _ _ _ _ _); try discriminate.
    destruct (sig_update_opt _ _ _); [|discriminate].
    destruct ty; try (apply finish_writing; [reflexivity|right; left; reflexivity]). intros _. sproj. rewrite ST. auto.
  - unfold write_trailer. cbn zeta. sproj. destruct (s_alg s); [|discriminate].
    destruct (_ =? _); [apply finish_writing; [reflexivity|right; right; reflexivity]|].
    destruct (_ <? _); [intros _; sproj; rewrite ST; auto|].
    destruct (s_sig s); [|discriminate].
    destruct (e_sign e _) as [sg|]; [|discriminate].
    match goal with |- context [if ?c then _ else _] => destruct c; [discriminate|] end.
    apply finish_writing; [reflexivity|right; right; reflexivity].
  - intros _. sproj. rewrite ST. auto.
Qed.
Lemma loop_writing : forall fuel cr e s room input out lg, writing (s_state s) ->
  let r := process_loop fuel cr e s room input out lg in lr_rc r = POk -> s_fsize (lr_sess r) = s_fsize s.
Proof.
  induction fuel as [|fuel IH]; intros cr e s room input out lg W; cbn zeta; cbn [process_loop]; [discriminate|].
  pose proof (step_writing cr e s room input W) as P.
  destruct (sr_rc (step cr e s room input)); try discriminate. destruct (P eq_refl) as [F W'].
  match goal with |- context [if ?c then _ else _] => destruct c end; [|intros _; exact F].
  intros RC. rewrite <- F. apply IH; assumption.
Qed.
Lemma call_writing : forall cr e s cap input, writing (s_state s) -> pr_rc (process cr e s cap input) = POk ->
  s_fsize (pr_sess (process cr e s cap input)) = s_fsize s.
Proof.
  intros cr e s cap input W. unfold process. pose proof (loop_writing (loop_fuel input) cr e s cap input [] [] W) as L. cbn zeta in L.
  set (l := process_loop _ _ _ _ _ _ _ _) in *. clearbody l.
  destruct (lr_rc l) as [|x| | |] eqn:RC; cbn [pr_sess pr_rc]; try discriminate. intros _. apply L. reflexivity.
Qed.

Lemma estimates_lemma : forall cr m ops w e cap input w' r, crypto_sizes cr -> history cr m ops w -> plain_call e input ->
  exec cr w (OProcess e cap input) = (w', r) -> o_rc r = POk ->
  is_done (w_s w') = true \/ awaits_size (w_s w') \/ Nlen input - o_read r < s_iest (w_s w') \/ cap - o_written r < s_oest (w_s w').
Proof.
  intros cr m ops w e cap input w' r CS H PC E RC. pose proof (history_inv _ _ _ _ CS H) as I. unfold winv in I.
  cbn [exec] in E. unfold after_process in E. injection E as <- <-. cbn [o_rc o_read o_written] in *. rewrite RC. cbn [w_s].
  eapply call_stall; eauto.
Qed.

Lemma progress_lemma : forall cr m ops w e cap input w' r, crypto_sizes cr -> history cr m ops w -> plain_call e input ->
  is_done (w_s w) = false -> ~ awaits_size (w_s w) -> s_iest (w_s w) <= Nlen input -> s_oest (w_s w) <= cap ->
  exec cr w (OProcess e cap input) = (w', r) -> o_rc r = POk ->
  0 < o_read r \/ 0 < o_written r \/ s_state (w_s w') <> s_state (w_s w) \/
  s_iest (w_s w) < s_iest (w_s w') \/ s_oest (w_s w) < s_oest (w_s w').
Proof.
  intros cr m ops w e cap input w' r CS H PC ND NA HI HO E RC.
  destruct (sstate_eqb_spec (s_state (w_s w')) (s_state (w_s w))) as [SS|SS]; [|auto].
  pose proof (history_inv _ _ _ _ CS H) as I. unfold winv in I.
  pose proof (process_good cr e (w_s w) cap input _ _ _ CS (proj1 (proj2 PC)) I) as G.
  assert (K : w_s w' = pr_sess (process cr e (w_s w) cap input)).
  { cbn [exec] in E. unfold after_process in E. injection E as <- <-. destruct (pr_rc _); reflexivity. }
  destruct (estimates_lemma _ _ _ _ _ _ _ _ _ CS H PC E RC) as [D|[D|[D|D]]].
  - unfold is_done in *. rewrite SS in D. congruence.
  - exfalso. apply NA. destruct D as (D1 & D2 & D3). rewrite SS in D1. destruct G as (SC & _).
    assert (RC' : pr_rc (process cr e (w_s w) cap input) = POk).
    { cbn [exec] in E. unfold after_process in E. injection E as _ <-. exact RC. }
    pose proof (call_writing cr e (w_s w) cap input (or_introl D1) RC') as F. rewrite K in *. split; [exact D1|]. split; [congruence|].
    destruct SC as (_ & _ & _ & _ & SC & _). congruence.
  - lia.
  - lia.
Qed.
