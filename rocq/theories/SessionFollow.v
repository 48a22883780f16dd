(** Following the estimates ends. *)
From Verif Require Import Base AlgModel EncCtxModel HdrModel FrameModel CryptoModel SessionModel
  BaseProofs WireSpec SessionSpec ProgressSpec EncCtxProofs HdrProofs FrameProofs SessionBase SessionInv SessionStep SessionStepD SessionRun SessionTheorems
  SessionProgress.
From Coq Require Import ZArith ZifyBool ZifyNat ZifyN.
Import List.
Open Scope list_scope.
Open Scope N_scope.

Lemma prefix_cut : forall (a x rest y : list N), prefix (a ++ x) y -> prefix rest y -> Nlen a <= Nlen rest -> exists r, rest = a ++ r.
Proof.
  intros a x rest y [z P] [z2 Q] L. exists (skipn (length a) rest).
  assert (E : firstn (length a) rest = a).
  { unfold Nlen in L. rewrite <- app_assoc in P. rewrite Q in P.
    assert (K : firstn (length a) (rest ++ z2) = firstn (length a) (a ++ x ++ z)) by now rewrite P.
    rewrite !firstn_app in K. replace (length a - length rest)%nat with O in K by lia.
    rewrite Nat.sub_diag, !firstn_O, !app_nil_r, firstn_all in K. exact K. }
  transitivity (firstn (length a) rest ++ skipn (length a) rest); [symmetry; apply firstn_skipn|]. now rewrite E.
Qed.

(** A step stopped for want of room asks for the same again. *)
Lemma step_again : forall cr e s room input win wout log stream e2 room2 input2,
  crypto_sizes cr -> plain_call e input -> inv cr s win wout log -> s_state s <> ST_DONE ->
  let r := step cr e s room input in let s1 := sr_sess r in
  sr_rc r = RGo -> made_progress s input r = false -> ~ awaits_size s1 -> s_iest s1 <= Nlen input ->
  plain_call e2 input2 -> prefix input stream -> prefix input2 stream -> s_iest s1 <= Nlen input2 ->
  let r2 := step cr e2 s1 room2 input2 in sr_rc r2 = RGo -> made_progress s1 input2 r2 = false ->
  s_iest (sr_sess r2) = s_iest s1 /\ s_oest (sr_sess r2) = s_oest s1 \/ s_oest s1 = 0.
Proof.
  intros cr e s room input win wout log stream e2 room2 input2 CS (NN & BO & LEN) I ND. cbn zeta.
  intros RC MP NA HI (NN2 & BO2 & LEN2) P1 P2 HI2. pose proof (no_progress_state _ _ _ MP) as (SS & _ & _).
  remember (sr_sess (step cr e s room input)) as s1 eqn:H1. remember (step cr e2 s1 room2 input2) as r2 eqn:H2.
  intros RC2 MP2. unfold step in H2. rewrite SS in H2. unfold step in RC, MP, H1.
  destruct (s_state s) eqn:ST.
  - exfalso. clear H1. destruct (negb _); [discriminate|].
    destruct (is_encrypt_mode _); eapply finish_stall in RC; eauto; congruence.
  - discriminate.
  - congruence.
  - (* READ_HEADER *) right. rewrite H1 in *.
    unfold try_parse_header in RC, SS |- *. cbn zeta in *.
    destruct (hdr_parse _ _) as [[h rest]|[]]; try discriminate; [|reflexivity].
    exfalso. destruct (_ =? 0); [discriminate|]. destruct (negb _); [discriminate|].
    match type of RC with context [change_state ?a ?b] => destruct (change_state a b) eqn:E end; [|discriminate].
    apply unwrap_keys_lands in RC. congruence.
  - exfalso. destruct I; try congruence; match goal with H : _ \/ _ |- _ => destruct H as [|[]]; congruence end.
  - (* DECRYPT_BODY *)
    destruct I as [s CONF PR MODE ST'|s CONF PR MODE ST'|s CONF PR MODE ST'|s i CONF EO ST' EB|s i l CONF EO ST' R L EB
    |s i l CONF EO ST' W EB K PE|s i l tr trlog CONF EO ST' W F K PE ET|s i l CONF DO ST' R L DB SG|s i l CONF DO ST' W DB SG
    |s i l tr trlog CONF DO ST' W DB DT|s s0 win wout log more ST' FS NE MD I NON]; try congruence.
    2:{ destruct ST' as [|[]]; congruence. }
    unfold try_decrypt_body in RC, MP, H1. cbn zeta in *. rewrite (do_alg _ _ _ DO) in *.
    assert (SL : std_lens (di_p i)) by (eapply lookup_std_lens; apply (do_lookup _ _ _ DO)).
    assert (FS : s_fsize s < 4294967296) by apply CONF. sproj.
    destruct (ds_res (deserialize_frame (di_p i) (s_fsize s) input)) as [[f rest]|[]] eqn:DS; try discriminate.
    + destruct (deserialize_frame_sound _ _ _ _ _ SL FS BO DS) as [WF E].
      destruct (negb (s_seqno s =? fr_seqno f)) eqn:SN; [discriminate|].
      assert (D1 : deserialize_frame (di_p i) (s_fsize s) input = mk_des (Ok (f, rest)) (Nlen (wire_frame f)) (Nlen (fr_ciphertext f))).
      { rewrite E. apply deserialize_frame_complete; assumption. }
      match type of RC with context [if ?c then _ else _] => destruct c eqn:RM end.
      * clear RC MP SS NA HI. sproj. rewrite D1 in H1. cbn [ds_csize ds_psize sr_sess] in H1.
        assert (A1 : s_alg s1 = Some (di_p i)) by (rewrite H1; exact (do_alg _ _ _ DO)).
        assert (A2 : s_fsize s1 = s_fsize s) by (rewrite H1; reflexivity).
        assert (A3 : s_iest s1 = Nlen (wire_frame f) /\ s_oest s1 = Nlen (fr_ciphertext f)) by (rewrite H1; auto).
        destruct A3 as [A3 A4]. rewrite A3, A4 in *. clear H1.
        rewrite E in P1. destruct (prefix_cut _ _ _ _ P1 P2 HI2) as [rest2 E2].
        unfold try_decrypt_body in H2. rewrite A1, A2 in H2. cbn zeta in H2.
        rewrite E2 in H2. rewrite (deserialize_frame_complete (di_p i) (s_fsize s) f rest2 SL FS WF) in H2. cbn [ds_csize ds_psize ds_res] in H2. sproj.
        left.
        do 2 match type of H2 with context [if ?c then _ else _] => destruct c; [subst r2; try discriminate; sproj; auto|] end.
        destruct (decrypt_body _ _ _ _ _ _ _ _ _ _); try (subst r2; discriminate).
        destruct (sig_update_opt _ _ _); [|subst r2; discriminate].
        destruct (fr_type f); [|subst r2; sproj; auto|]; unfold finish in H2; match type of H2 with context [change_state ?a ?b] => destruct (change_state a b) eqn:CH end; try (subst r2; discriminate);
          apply change_state_some in CH; subst r2; rewrite CH; sproj; auto.
      * exfalso. clear H1. destruct (decrypt_body _ _ _ _ _ _ _ _ _ _); try discriminate.
        destruct (sig_update_opt _ _ _); [|discriminate].
        pose proof (wire_frame_pos _ _ WF).
        destruct (fr_type f) eqn:T; try (eapply finish_stall in RC; eauto; congruence).
        apply no_progress_state in MP. destruct MP as (_ & _ & MP). sproj. rewrite E, Nlen_app in MP. lia.
    + exfalso. subst s1. sproj. pose proof (des_short_more _ _ _ SL FS DS). lia.
  - (* CHECK_TRAILER *) right. subst s1.
    unfold check_trailer in RC, MP |- *. cbn zeta in *. sproj. destruct (s_sig s).
    + destruct (read_be _ _) as [[sl r]|]; [|reflexivity].
      destruct (read_bytes _ _) as [[sg rest]|]; [|reflexivity].
      destruct (cr_verify _ _ _); [reflexivity|discriminate].
    + exfalso. eapply finish_stall in RC; eauto; congruence.
  - exfalso. apply try_gen_key_lands in RC. congruence.
  - (* WRITE_HEADER *)
    unfold try_write_header in RC, MP, H1. sproj. destruct (s_hcopy s) as [c|] eqn:HC.
    2:{ subst s1 r2. unfold try_write_header in *. sproj. rewrite HC in *. left. sproj. auto. }
    destruct (s_hsize s <=? room) eqn:RM.
    + exfalso. eapply finish_stall in RC; eauto; congruence.
    + subst s1 r2. unfold try_write_header in *. sproj. rewrite HC in *. left. destruct (s_hsize s <=? room2); sproj; auto.
      exfalso. eapply finish_stall in RC2; eauto; sproj; congruence.
  - (* ENCRYPT_BODY *)
    unfold try_encrypt_body in RC, MP, H1. cbn zeta in *. destruct (next_frame s) as [[ty n]|] eqn:NF.
    2:{ subst s1. right. reflexivity. }
    destruct (s_alg s) as [p|] eqn:AL; [|discriminate].
    destruct (UINT32_MAX <? s_seqno s) eqn:SQ; [discriminate|].
    assert (SL : std_lens p).
    { destruct I; try congruence; try (match goal with H : _ \/ _ |- _ => destruct H as [|[]]; congruence end).
      match goal with H : enc_ok _ _ _ |- _ => pose proof (eo_alg _ _ _ H) as A; pose proof (eo_lookup _ _ _ H) as B end.
      eapply lookup_std_lens. rewrite B. congruence. }
    destruct (frame_writable_dec ty (s_seqno s) n) as [W|W].
    2:{ destruct (serialize_frame_refused p ty (s_seqno s) n room W) as (x & E1 & E2). rewrite E1 in RC. destruct x; try discriminate; congruence. }
    assert (SZ : forall rm, sr_size (serialize_frame p ty (s_seqno s) n rm) = sr_size (serialize_frame p ty (s_seqno s) n room)).
    { intros rm. rewrite !serialize_frame_spec by (try assumption; unfold UINT32_MAX in *; lia). reflexivity. }
    assert (SOME : exists k, sr_size (serialize_frame p ty (s_seqno s) n room) = Some k).
    { rewrite !serialize_frame_spec by (try assumption; unfold UINT32_MAX in *; lia). eexists. reflexivity. }
    destruct SOME as [k SOME]. rewrite SOME in *.
    assert (SE : s1 = set_iest n (set_oest k s)).
    { rewrite H1. clear H1 H2. destruct (sr_res _) as [l|[]] eqn:SR; try discriminate; try reflexivity.
      destruct ((Nlen input <? n) || e_in_null e) eqn:IN; [reflexivity|].
      destruct (encrypt_body _ _ _ _ _ _ _ _); try discriminate.
      destruct (sig_update_opt _ _ _); [|discriminate].
      exfalso. destruct ty; try (eapply finish_stall in RC; eauto; congruence).
      apply no_progress_state in MP. destruct MP as (_ & _ & MP). sproj.
      assert (n <> 0).
      { unfold next_frame in NF. destruct (N.eqb_spec (s_fsize s) 0); cbn [negb] in NF.
        - destruct (s_known s); congruence.
        - destruct (s_known s && _); congruence. }
      rewrite NN, orb_false_r in IN. rewrite Nlen_skipn in MP. lia. }
    clear H1 RC MP SS NA HI HI2.
    assert (A1 : s_alg s1 = Some p) by (rewrite SE; exact AL).
    assert (A2 : s_seqno s1 = s_seqno s) by (rewrite SE; reflexivity).
    assert (A3 : s_iest s1 = n /\ s_oest s1 = k) by (rewrite SE; auto). destruct A3 as [A3 A4].
    assert (NF2 : next_frame s1 = Some (ty, n)) by (rewrite SE; exact NF). clear SE. rewrite A3, A4.
    unfold try_encrypt_body in H2. rewrite NF2, A1, A2, SQ, SZ in H2. cbn zeta in H2. left.
    destruct (sr_res _) as [l|[]] eqn:SR; try (subst r2; discriminate); [|subst r2; sproj; auto].
    match type of H2 with context [if ?c then _ else _] => destruct c; [subst r2; sproj; auto|] end.
    destruct (encrypt_body _ _ _ _ _ _ _ _); try (subst r2; discriminate).
    destruct (sig_update_opt _ _ _); [|subst r2; discriminate].
    destruct ty; [|subst r2; sproj; auto|]; unfold finish in H2; match type of H2 with context [change_state ?a ?b] => destruct (change_state a b) eqn:CH end; try (subst r2; discriminate);
          apply change_state_some in CH; subst r2; rewrite CH; sproj; auto.
  - (* WRITE_TRAILER *)
    unfold write_trailer in RC, MP, H1. cbn zeta in *. sproj. destruct (s_alg s) as [p|] eqn:AL; [|discriminate].
    destruct (ap_sig_len p =? 0) eqn:Z; [exfalso; eapply finish_stall in RC; eauto; congruence|].
    match type of RC with context [if ?c then _ else _] => destruct c eqn:RM end.
    + clear RC MP SS NA HI HI2. cbn [sr_sess] in H1. unfold write_trailer in H2.
      assert (A1 : s_alg s1 = Some p) by (rewrite H1; exact AL). assert (A2 : s_iest s1 = 0 /\ s_oest s1 = 2 + ap_sig_len p) by (rewrite H1; auto).
      assert (A3 : s_state s1 = ST_WRITE_TRAILER) by (rewrite H1; exact ST). destruct A2 as [-> ->].
      clear H1. cbn zeta in H2. sproj. rewrite A1, Z in H2.
      match type of H2 with context [if ?c then _ else _] => destruct c end; [left; subst r2; sproj; auto|].
      destruct (s_sig s1); [|subst r2; discriminate].
      destruct (e_sign e2 _) as [sg|]; [|subst r2; discriminate].
      match type of H2 with context [if ?c then _ else _] => destruct c; [subst r2; discriminate|] end.
      exfalso. subst r2. eapply finish_stall in RC2; eauto; sproj; congruence.
    + exfalso. clear H1. destruct (s_sig s); [|discriminate].
      destruct (e_sign e _) as [sg|]; [|discriminate].
      match type of RC with context [if ?c then _ else _] => destruct c; [discriminate|] end.
      eapply finish_stall in RC; eauto; congruence.
Qed.

(** A call either advances or is a single step that does not. *)
Lemma call_first : forall cr e s cap input win wout log, crypto_sizes cr -> bytes_ok input -> inv cr s win wout log ->
  let r := process cr e s cap input in let f := step cr e s cap input in pr_rc r = POk ->
  (rank (s_state (pr_sess r)) < rank (s_state s))%nat \/
  (s_state (pr_sess r) = s_state s /\ 0 < pr_read r) \/
  (sr_rc f = RGo /\ made_progress s input f = false /\ pr_sess r = sr_sess f /\ pr_read r = 0).
Proof.
  intros cr e s cap input win wout log CS BO I. cbn zeta. unfold process.
  assert (FU : exists k, loop_fuel input = S k) by (exists (length input + 11)%nat; unfold loop_fuel; lia).
  destruct FU as [k ->]. cbn [process_loop].
  pose proof (step_inv cr e s cap input _ _ _ CS BO I) as G.
  pose proof (step_adv cr e s cap input _ _ _ CS BO I) as A. unfold advances in A.
  remember (step cr e s cap input) as f eqn:Hf. destruct G as [used [E [OUT G]]].
  destruct (sr_rc f) as [|x| |] eqn:RC; try (cbn; discriminate).
  destruct (A eq_refl) as [NE [NE' ADV]]. fold (made_progress s input f). destruct (made_progress s input f) eqn:MP.
  - assert (BO' : bytes_ok (sr_in f)) by (rewrite E in BO; apply Forall_app in BO; tauto).
    match goal with |- context [process_loop ?fu cr e (sr_sess f) ?b ?c ?d ?l] =>
      pose proof (loop_good fu cr e (sr_sess f) b c d l (win ++ used) wout log CS BO' G) as L; cbn zeta in L; set (q := process_loop fu _ _ _ _ _ _ _) in * end.
    clearbody q. destruct L as [_ [used2 [E2 [_ L]]]]. destruct (lr_rc q) eqn:RQ; cbn [pr_rc pr_sess pr_read]; try discriminate.
    intros _. destruct L as (_ & _ & _ & _ & L).
    assert (LEN : Nlen input = Nlen used + Nlen used2 + Nlen (lr_in q)) by (rewrite E, E2, !Nlen_app; lia).
    destruct ADV as [ADV|[ADV1 ADV2]]; [left; destruct L as [L|[L _]]; [lia|rewrite L; exact ADV]|].
    assert (U : 0 < Nlen used).
    { unfold made_progress in MP. rewrite ADV1 in MP. destruct (sstate_eqb_spec (s_state s) (s_state s)) as [_|?]; [|congruence].
      cbn [negb] in MP. rewrite orb_false_r in MP. assert (Nlen input = Nlen used + Nlen (sr_in f)) by (rewrite E, Nlen_app; lia).
      destruct ADV2 as [ADV2|ADV2].
      - rewrite ADV2 in MP. cbn [nonempty orb] in MP. lia.
      - unfold Nlen in *. lia. }
    rewrite ADV1 in L. destruct L as [L|[L _]]; [left; exact L|right; left]. split; [congruence|]. lia.
  - cbn [lr_rc lr_sess lr_in lr_out pr_rc pr_sess pr_read]. intros _. right. right.
    pose proof (no_progress_state _ _ _ MP) as (_ & _ & EQ). repeat split; auto. lia.
Qed.

(** The session asks for room; a call that follows the estimates then advances. *)
Definition wants_room cr (s : session) (stream : list N) : Prop :=
  forall e cap input win wout log, plain_call e input -> prefix input stream -> inv cr s win wout log ->
  s_iest s <= Nlen input -> s_oest s <= cap -> pr_rc (process cr e s cap input) = POk ->
  (rank (s_state (pr_sess (process cr e s cap input))) < rank (s_state s))%nat \/ 0 < pr_read (process cr e s cap input).

Lemma awaits_step : forall cr e s room input, sr_rc (step cr e s room input) = RGo -> s_state s <> ST_DONE ->
  made_progress s input (step cr e s room input) = false -> awaits_size (sr_sess (step cr e s room input)) -> awaits_size s.
Proof.
  intros cr e s room input RC ND MP (A & B & C). pose proof (no_progress_state _ _ _ MP) as (SS & _). rewrite SS in A.
  destruct (step_writing cr e s room input (or_introl A) RC) as [F _]. split; [exact A|]. split; [congruence|].
  pose proof (step_conf cr e s room input) as SC. destruct SC as (_ & _ & _ & _ & SC & _). congruence.
Qed.

Lemma stall_cases : forall cr e s cap input win wout log stream, crypto_sizes cr -> plain_call e input -> inv cr s win wout log ->
  s_state s <> ST_DONE -> ~ awaits_size s -> prefix input stream ->
  let f := step cr e s cap input in sr_rc f = RGo -> made_progress s input f = false ->
  Nlen input < s_iest (sr_sess f) \/ (cap < s_oest (sr_sess f) /\ wants_room cr (sr_sess f) stream).
Proof.
  intros cr e s cap input win wout log stream CS PC I ND NA P. cbn zeta. intros RC MP.
  assert (NA1 : ~ awaits_size (sr_sess (step cr e s cap input))) by (intros A; apply NA; eapply awaits_step; eauto).
  pose proof (step_stall cr e s cap input _ _ _ CS PC I ND RC MP) as [W|[W|W]]; [contradiction|left; exact W|].
  destruct (N.lt_ge_cases (Nlen input) (s_iest (sr_sess (step cr e s cap input)))) as [LT|LE]; [left; exact LT|right; split; [exact W|]].
  intros e2 cap2 input2 win2 wout2 log2 PC2 P2 I2 HI HO RC2.
  pose proof (call_first cr e2 _ cap2 input2 _ _ _ CS (proj1 (proj2 PC2)) I2) as F. cbn zeta in F.
  destruct (F RC2) as [F1|[[_ F1]|[F1 [F2 [F3 F4]]]]]; [left; exact F1|right; exact F1|exfalso].
  pose proof (no_progress_state _ _ _ MP) as (SS & _ & _).
  assert (ND1 : s_state (sr_sess (step cr e s cap input)) <> ST_DONE) by congruence.
  pose proof (step_again cr e s cap input _ _ _ stream e2 cap2 input2 CS PC I ND RC MP NA1 LE PC2 P P2 HI F1 F2) as AG.
  destruct AG as [[A1 A2]|A]; [|lia].
  destruct (step_stall cr e2 _ cap2 input2 _ _ _ CS PC2 I2 ND1 F1 F2) as [W2|[W2|W2]]; [|lia|lia].
  apply NA1. eapply awaits_step; eauto.
Qed.

(** Ten ranks per byte still to be read. *)
Definition to_go (stream : list N) (w : world) : N := 10 * (Nlen stream - Nlen (w_in w)) + N.of_nat (rank (s_state (w_s w))).

Lemma prefix_skip : forall (a x y : list N), prefix (a ++ x) y -> exists rest, y = a ++ rest /\ prefix x rest.
Proof. intros a x y [z E]. exists (x ++ z). rewrite app_assoc. split; auto. exists z. reflexivity. Qed.

Lemma rank_le : forall st, (rank st <= 9)%nat.
Proof. intros []; cbn; lia. Qed.

Lemma prefix_again : forall (a x y : list N), prefix (a ++ x) y -> forall n, prefix (a ++ firstn n x) y.
Proof. intros a x y [z E] n. exists (skipn n x ++ z). rewrite <- (firstn_skipn n x) in E. rewrite E, <- !app_assoc. reflexivity. Qed.

Lemma obliging_bound : forall cr stream w n w', crypto_sizes cr -> obliging cr stream w n w' -> winv cr w -> prefix (w_in w) stream ->
  winv cr w' /\ prefix (w_in w') stream /\
  N.of_nat n <= (Nlen stream + 4) * to_go stream w + (Nlen stream + 3 - s_iest (w_s w)) /\
  (forall rest, stream = w_in w ++ rest -> wants_room cr (w_s w) rest -> N.of_nat n <= (Nlen stream + 4) * to_go stream w + 1).
Proof.
  intros cr stream w n w' CS H. induction H as [w|w e cap input w1 r n w2 PC P ND NA HI HO EX RC H IH]; intros I PI.
  { repeat split; auto; lia. }
  assert (OB : op_bytes (OProcess e cap input)) by exact (proj1 (proj2 PC)).
  pose proof (exec_good cr w _ CS OB I) as EG. rewrite EX in EG. destruct EG as [EG _].
  specialize (EG ltac:(rewrite RC; reflexivity)).
  cbn [exec] in EX. unfold after_process in EX.
  assert (RC' : pr_rc (process cr e (w_s w) cap input) = POk) by (injection EX as _ <-; exact RC).
  rewrite RC' in EX. assert (W1 : w1 = mk_world (pr_sess (process cr e (w_s w) cap input))
     (w_in w ++ firstn (N.to_nat (pr_read (process cr e (w_s w) cap input))) input)
     (w_out w ++ pr_mem (process cr e (w_s w) cap input)) (w_log w ++ pr_log (process cr e (w_s w) cap input))) by congruence.
  pose proof (process_good cr e (w_s w) cap input _ _ _ CS OB I) as (_ & RL & _).
  assert (PI1 : prefix (w_in w1) stream) by (rewrite W1; cbn [w_in]; now apply prefix_again).
  destruct (IH EG PI1) as (J1 & J2 & J3 & J4). split; [exact J1|]. split; [exact J2|].
  pose proof (call_first cr e (w_s w) cap input _ _ _ CS OB I) as F. cbn zeta in F. specialize (F RC').
  assert (LS : s_iest (w_s w) <= Nlen stream).
  { destruct P as [z P]. rewrite P, !Nlen_app. lia. }
  assert (LI : Nlen (w_in w1) = Nlen (w_in w) + pr_read (process cr e (w_s w) cap input)).
  { rewrite W1. cbn [w_in]. rewrite Nlen_app. rewrite Nlen_firstn by exact RL. reflexivity. }
  assert (LP : Nlen (w_in w1) <= Nlen stream) by (destruct PI1 as [z Q]; rewrite Q, Nlen_app; lia).
  assert (S1 : w_s w1 = pr_sess (process cr e (w_s w) cap input)) by (rewrite W1; reflexivity).
  assert (ADV : (rank (s_state (w_s w1)) < rank (s_state (w_s w)))%nat \/ 0 < pr_read (process cr e (w_s w) cap input) ->
    to_go stream w1 < to_go stream w).
  { intros Q. unfold to_go. pose proof (rank_le (s_state (w_s w1))).
    pose proof (process_good cr e (w_s w) cap input _ _ _ CS OB I) as (_ & _ & _ & PG). rewrite RC' in PG. destruct PG as (_ & _ & _ & _ & _ & PG).
    rewrite <- S1 in PG. destruct Q as [Q|Q]; [lia|]. destruct PG as [PG|[PG _]]; [lia|]. rewrite PG. lia. }
  rewrite <- S1 in F.
  assert (STEP : to_go stream w1 < to_go stream w -> N.of_nat (S n) <= (Nlen stream + 4) * to_go stream w).
  { intros Q. assert ((Nlen stream + 4) * (to_go stream w1 + 1) <= (Nlen stream + 4) * to_go stream w) by (apply N.mul_le_mono_l; lia). lia. }
  destruct F as [F|[[_ F]|[F1 [F2 [F3 F4]]]]].
  - specialize (STEP (ADV (or_introl F))). split; intros; lia.
  - specialize (STEP (ADV (or_intror F))). split; intros; lia.
  - assert (NDS : s_state (w_s w) <> ST_DONE).
    { intros D. unfold is_done in ND. rewrite D in ND. discriminate. }
    destruct (prefix_skip _ _ _ P) as [rest [ER PR]].
    assert (IN1 : w_in w1 = w_in w) by (rewrite W1; cbn [w_in]; rewrite F4; cbn; apply app_nil_r).
    pose proof (no_progress_state _ _ _ F2) as (SS & _ & _).
    assert (TG : to_go stream w1 = to_go stream w) by (unfold to_go; rewrite IN1, F3, SS; reflexivity).
    split.
    + pose proof (stall_cases cr e (w_s w) cap input _ _ _ rest CS PC I NDS NA PR F1 F2) as SC. rewrite <- F3 in SC. rewrite TG in *.
      destruct SC as [SC|[SC WR]]; [lia|]. specialize (J4 rest ltac:(rewrite IN1; exact ER) WR). lia.
    + intros rest' ER' WR. assert (rest' = rest) by (eapply app_inv_head; rewrite <- ER; symmetry; exact ER'). subst rest'.
      specialize (WR e cap input _ _ _ PC PR I HI HO RC'). rewrite <- S1 in WR. specialize (STEP (ADV WR)). lia.
Qed.

Lemma obliging_ends : forall cr m ops w stream n w', crypto_sizes cr -> history cr m ops w -> prefix (w_in w) stream ->
  obliging cr stream w n w' -> N.of_nat n <= (Nlen stream + 4) * (10 * Nlen stream + 10).
Proof.
  intros cr m ops w stream n w' CS H P O. pose proof (history_inv _ _ _ _ CS H) as I.
  destruct (obliging_bound _ _ _ _ _ CS O I P) as (_ & _ & B & _).
  assert (to_go stream w + 1 <= 10 * Nlen stream + 10).
  { unfold to_go. pose proof (rank_le (s_state (w_s w))). lia. }
  assert ((Nlen stream + 4) * (to_go stream w + 1) <= (Nlen stream + 4) * (10 * Nlen stream + 10)) by (apply N.mul_le_mono_l; lia).
  lia.
Qed.
