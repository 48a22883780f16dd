(** Sessions on top of the default CMM and keyrings: proofs. *)
From Verif Require Import Base AlgModel EncCtxModel HdrModel FrameModel CryptoModel SessionModel KeyringModel
  BaseProofs WireSpec SessionSpec StreamSpec LiveSpec KeyringSpec ReportSpec StackSpec
  EncCtxProofs HdrProofs FrameProofs SessionBase SessionInv SessionStep SessionStepD
  SessionRun SessionTheorems SessionStream SessionForward SessionRoundTrip SessionReport SessionLive CodecTheorems
  KeyringProofs RawKeyringProofs.
From Coq Require Import Permutation ZArith ZifyBool ZifyNat ZifyN.
Import List.
Open Scope list_scope.
Open Scope N_scope.

(** ** Events come from the environment *)
Definition ev_from (e : env) (ev : event) : Prop :=
  match ev with
  | EvGen rq c m => e_gen e rq = (c, Ok m)
  | EvRand mid => exists n, e_rand e n = Some mid
  | EvSign sc sg => e_sign e sc = Ok sg
  | _ => True
  end.
Definition from_env (e : env) (lg : list event) : Prop := Forall (ev_from e) lg.

Lemma from_finish : forall e os i o lg s, from_env e lg -> from_env e (sr_log (finish os i o lg s)).
Proof. intros e [s'|] i o lg s H; exact H. Qed.
Lemma from_app : forall e a b, from_env e a -> from_env e b -> from_env e (a ++ b).
Proof. intros e a b A B. apply Forall_app. auto. Qed.

Ltac fe := cbn [sr_log snd]; repeat (apply Forall_cons; [cbn [ev_from]; eauto|]); try apply Forall_nil.

Section From.
Variable cr : crypto.

Lemma sign_header_from : forall e s p input log, from_env e log -> from_env e (sr_log (sign_header cr s p input log)).
Proof.
  intros e s p input log H. unfold sign_header. cbn zeta.
  repeat match goal with
    | |- from_env _ (sr_log (mk_step _ _ _ _ _)) => cbn [sr_log]
    | |- from_env _ (sr_log (finish _ _ _ _ _)) => apply from_finish
    | |- from_env _ (_ ++ _) => apply from_app; [|fe]
    | |- from_env _ _ => exact H
    | |- context [if ?c then _ else _] => destruct c
    | |- context [match ?c with _ => _ end] => destruct c end.
Qed.

Lemma try_gen_key_from : forall e s input, from_env e (sr_log (try_gen_key cr e s input)).
Proof.
  intros e s input. unfold try_gen_key. cbn zeta.
  repeat match goal with
    | |- from_env _ (sr_log (mk_step _ _ _ _ _)) => cbn [sr_log]
    | |- from_env _ (sr_log (sign_header _ _ _ _ _)) => apply sign_header_from
    | |- from_env _ (_ ++ _) => apply from_app
    | |- from_env _ (_ :: _) => fe
    | |- from_env _ [] => fe
    | |- context [match e_gen ?a ?b with _ => _ end] => destruct (e_gen a b) as [? []] eqn:?
    | |- context [match alg_lookup ?b with _ => _ end] => destruct (alg_lookup b)
    | |- context [match e_rand ?a ?b with _ => _ end] => destruct (e_rand a b) eqn:?
    | |- context [match kd_rc ?b with _ => _ end] => destruct (kd_rc b)
    | |- context [match build_header ?a ?b ?c with _ => _ end] => destruct (build_header a b c) as [[]|]
    | |- context [if ?c then _ else _] => destruct c
    end.
Qed.

Lemma validate_header_from : forall e s p, from_env e (snd (validate_header cr e s p)).
Proof.
  intros e s p. unfold validate_header. cbn zeta.
  repeat match goal with
    | |- from_env _ (snd (_, _)) => fe
    | |- context [match verify_header ?a ?b ?c ?d ?e with _ => _ end] => destruct (verify_header a b c d e) as [? []]
    | |- context [if ?c then _ else _] => destruct c
    end.
Qed.

Lemma unwrap_keys_from : forall e s input, from_env e (sr_log (unwrap_keys cr e s input)).
Proof.
  intros e s input. unfold unwrap_keys. cbn zeta. destruct (alg_lookup _) as [p|]; [|fe].
  destruct (e_dec e _) as [m|] eqn:D; [|fe].
  repeat match goal with
    | |- from_env _ (sr_log (mk_step _ _ _ _ _)) => cbn [sr_log]
    | |- from_env _ (sr_log (finish _ _ _ _ _)) => apply from_finish
    | |- from_env _ (_ ++ _) => apply from_app
    | |- from_env _ (_ :: _) => fe
    | |- from_env _ [] => fe
    | |- from_env _ _ => assumption
    | |- context [match alg_lookup ?b with _ => _ end] => destruct (alg_lookup b)
    | |- context [match derive_data_key ?a ?b ?c ?d ?e with _ => _ end] => destruct (derive_data_key a b c d e) as [? []]
    | |- context [match validate_header ?a ?b ?c ?d with _ => _ end] =>
        let H := fresh in pose proof (validate_header_from b c d) as H; destruct (validate_header a b c d) as [[] ?]; cbn [snd] in H
    | |- context [match dm_sig ?a with _ => _ end] => destruct (dm_sig a)
    | |- context [match sig_update ?a ?b ?c with _ => _ end] => destruct (sig_update a b c)
    | |- context [if ?c then _ else _] => destruct c
    end.
Qed.

Lemma step_from : forall e s room input, from_env e (sr_log (step cr e s room input)).
Proof.
  intros e s room input. unfold step. destruct (s_state s).
  - destruct (negb _); [fe|]. destruct (is_encrypt_mode _); apply from_finish; fe.
  - fe.
  - fe.
  - unfold try_parse_header. cbn zeta. destruct (hdr_parse _ _) as [[h0 rest]|[]]; try fe.
    destruct (_ =? 0); [fe|]. destruct (negb _); [fe|].
    match goal with |- context [change_state ?a ?b] => destruct (change_state a b) end; [|fe]. apply unwrap_keys_from.
  - apply unwrap_keys_from.
  - unfold try_decrypt_body. cbn zeta. destruct (s_alg s); [|fe]. destruct (ds_res _) as [[f rest]|[]]; try fe.
    destruct (negb _); [fe|]. destruct (_ <? _); [fe|]. destruct (decrypt_body _ _ _ _ _ _ _ _ _ _); try fe.
    destruct (sig_update_opt _ _ _); [|fe]. destruct (fr_type f); try fe; apply from_finish; fe.
  - unfold check_trailer. cbn zeta. sproj. destruct (s_sig s).
    + destruct (read_be _ _) as [[]|]; [|fe]. destruct (read_bytes _ _) as [[]|]; [|fe]. destruct (cr_verify _ _ _); fe.
    + apply from_finish; fe.
  - apply try_gen_key_from.
  - unfold try_write_header. sproj. destruct (s_hcopy s); [|fe]. destruct (_ <=? _); [|fe]. apply from_finish; fe.
  - unfold try_encrypt_body. cbn zeta. destruct (next_frame s) as [[ty n]|]; [|fe]. destruct (s_alg s); [|fe].
    destruct (_ <? _); [fe|]. destruct (sr_res _) as [lo|[]]; try fe.
    destruct (_ || _); [fe|]. destruct (encrypt_body _ _ _ _ _ _ _ _); try fe.
    destruct (sig_update_opt _ _ _); [|fe]. destruct ty; try fe; apply from_finish; fe.
  - unfold write_trailer. cbn zeta. sproj. destruct (s_alg s); [|fe].
    destruct (_ =? _); [apply from_finish; fe|]. destruct (_ <? _); [fe|]. destruct (s_sig s); [|fe].
    destruct (e_sign e _) eqn:?; [|fe]. destruct (_ <? _); [fe|]. apply from_finish; fe.
Qed.

Lemma loop_from : forall fuel e s room input out log, from_env e log ->
  from_env e (lr_log (process_loop fuel cr e s room input out log)).
Proof.
  induction fuel as [|fuel IH]; intros e s room input out log H; [exact H|]. cbn [process_loop].
  assert (H' : from_env e (log ++ sr_log (step cr e s room input))) by (apply from_app; [exact H|apply step_from]).
  destruct (sr_rc _); try exact H'. match goal with |- context [if ?c then _ else _] => destruct c end; [|exact H']. now apply IH.
Qed.

Lemma process_from : forall e s cap input, from_env e (pr_log (process cr e s cap input)).
Proof.
  intros e s cap input. unfold process. pose proof (loop_from (loop_fuel input) e s cap input [] [] (Forall_nil _)) as H.
  destruct (process_loop _ _ _ _ _ _ _ _) as [s' i o rc lg]. cbn [lr_log lr_rc lr_sess lr_in lr_out] in *. destruct rc; exact H.
Qed.

Lemma process_full_from : forall e s cap input, from_env e (pr_log (process_full cr e s cap input)).
Proof.
  intros e s cap input. unfold process_full. destruct (negb _); [apply Forall_nil|].
  match goal with |- context [match ?x with (_, _) => _ end] => destruct x as [s1 rc] end. destruct rc; try apply Forall_nil.
  pose proof (process_from e s1 cap input) as H. cbn zeta.
  destruct (pr_rc (process cr e s1 cap input)) eqn:RC; try (rewrite RC; exact H).
  destruct (_ && _); [rewrite RC; exact H|]. cbn [pr_rc]. exact H.
Qed.

(** The log of a history: every event is from the environment of one of the calls. *)
Lemma run_from : forall ops w w' rs (P : env -> Prop), run cr w ops = (w', rs) -> Forall (stack_op P) ops ->
  (forall ev, In ev (w_log w) -> exists e, P e /\ ev_from e ev) -> forall ev, In ev (w_log w') -> exists e, P e /\ ev_from e ev.
Proof.
  induction ops as [|o ops IH]; intros w w' rs P R F H; cbn [run] in R; [injection R as <- <-; exact H|].
  destruct (exec cr w o) as [w1 r] eqn:X. inversion F as [|? ? F1 F2]; subst.
  assert (H1 : forall ev, In ev (w_log w1) -> exists e, P e /\ ev_from e ev).
  { destruct o; cbn [exec] in X; unfold with_session in X;
      try (assert (L := f_equal (fun x => w_log (fst x)) X); cbn [fst w_log] in L; rewrite <- L; first [exact H|intros ? []]).
    - assert (L : w_log w1 = w_log w ++ pr_log (process cr e (w_s w) cap input)).
      { unfold after_process in X. assert (L := f_equal (fun x => w_log (fst x)) X). cbn [fst] in L. rewrite <- L.
        destruct (pr_rc _); reflexivity. }
      intros ev IN. rewrite L in IN. apply in_app_or in IN. destruct IN as [IN|IN]; [now apply H|].
      exists e. split; [exact F1|]. pose proof (process_from e (w_s w) cap input) as Q. eapply Forall_forall in Q; eauto.
    - assert (L : w_log w1 = w_log w ++ pr_log (process_full cr e (w_s w) cap input)).
      { unfold after_process in X. assert (L := f_equal (fun x => w_log (fst x)) X). cbn [fst] in L. rewrite <- L.
        destruct (pr_rc _); reflexivity. }
      intros ev IN. rewrite L in IN. apply in_app_or in IN. destruct IN as [IN|IN]; [now apply H|].
      exists e. split; [exact F1|]. pose proof (process_full_from e (w_s w) cap input) as Q. eapply Forall_forall in Q; eauto. }
  destruct (stuck (o_rc r)); [injection R as <- <-; exact H1|].
  destruct (run cr w1 ops) as [w2 rs2] eqn:R2. injection R as <- <-. eapply IH; eauto.
Qed.
End From.

(** ** Everything written is bytes *)
Lemma bytes_u16 : forall n, n < 65536 -> bytes_ok (u16 n).
Proof. intros n H. rewrite <- be2 by auto. apply be_bytes_ok. Qed.
Lemma bytes_u64 : forall n, n < 18446744073709551616 -> bytes_ok (u64 n).
Proof.
  intros n H. unfold u64. rewrite bytes_ok_app. split; apply bytes_ok_u32.
  - apply N.div_lt_upper_bound; lia.
  - pose proof (N.mod_lt n 4294967296). lia.
Qed.
Lemma bytes_field16 : forall b, fits16 b -> bytes_ok b -> bytes_ok (field16 b).
Proof. intros b F B. unfold field16, fits16 in *. rewrite bytes_ok_app. split; auto. apply bytes_u16. lia. Qed.
Lemma bytes_concat : forall A (f : A -> list N) l, Forall (fun x => bytes_ok (f x)) l -> bytes_ok (concat (map f l)).
Proof. intros A f l H. induction H; cbn [map concat]; [apply bytes_ok_nil|]. rewrite bytes_ok_app. auto. Qed.
Lemma Nlen_app_le : forall A (a b : list A), Nlen a <= Nlen (a ++ b) /\ Nlen b <= Nlen (a ++ b).
Proof. intros. rewrite Nlen_app. lia. Qed.

Lemma pair_fits : forall c x, In x c -> Nlen (concat (map wire_pair c)) <= 65535 -> fits16 (fst x) /\ fits16 (snd x).
Proof.
  induction c as [|y c IH]; intros x J H; [destruct J|]. cbn [map concat] in H; rewrite Nlen_app in H. destruct J as [J|J].
  - subst y. unfold wire_pair, field16 in H. rewrite !Nlen_app in H. unfold fits16. lia.
  - apply IH; auto. lia.
Qed.
Lemma bytes_wire_ctx : forall c, ctx_fits c -> ctx_bytes c -> bytes_ok (wire_ctx c).
Proof.
  intros c F B. unfold ctx_fits in F. destruct c as [|x c]; [apply bytes_ok_nil|]. cbv beta iota delta [wire_ctx] in *.
  set (d := x :: c) in *. rewrite Nlen_app in F. rewrite bytes_ok_app.
  assert (LN : Nlen d <= Nlen (concat (map wire_pair d))).
  { clear. induction d as [|y d IH]; [rewrite !Nlen_nil; lia|]. cbn [map concat]. rewrite Nlen_cons, Nlen_app.
    assert (2 <= Nlen (wire_pair y)).
    { unfold wire_pair, field16. rewrite !Nlen_app. assert (U : forall n, Nlen (u16 n) = 2) by reflexivity. rewrite !U. lia. }
    lia. }
  split; [apply bytes_u16; lia|]. apply bytes_concat. apply Forall_forall. intros y J.
  destruct (pair_fits d y J) as [F1 F2]; [lia|]. unfold ctx_bytes in B. rewrite Forall_forall in B. destruct (B y J) as [B1 B2].
  unfold wire_pair. rewrite bytes_ok_app. split; now apply bytes_field16.
Qed.
Lemma ctx_bytes_perm : forall c d, Permutation c d -> ctx_bytes c -> ctx_bytes d.
Proof. intros c d P H. unfold ctx_bytes in *. rewrite Forall_forall in *. intros x J. apply H. eapply Permutation_in; [symmetry; exact P|exact J]. Qed.
Lemma bytes_edk : forall e, edk_fits e -> edk_is_bytes e -> bytes_ok (wire_edk e).
Proof.
  intros e [F1 [F2 F3]] [B1 [B2 B3]]. unfold wire_edk. rewrite !bytes_ok_app. split; [|split]; now apply bytes_field16.
Qed.

Lemma enc_out_bytes : forall cr m ops w rq ctx em alg, crypto_sizes cr -> crypto_bytes cr ->
  history cr m ops w -> s_mode (w_s w) = M_ENCRYPT -> is_done (w_s w) = true -> bytes_ok (w_in w) -> get_alg_id (w_s w) = Some alg ->
  In (EvGen rq ctx em) (w_log w) -> distinct_keys ctx -> ctx_bytes ctx -> Nlen (em_edks em) <= 65535 -> Forall edk_fits (em_edks em) ->
  Forall edk_is_bytes (em_edks em) -> (forall mid, In (EvRand mid) (w_log w) -> bytes_ok mid) ->
  (forall sc sg, In (EvSign sc sg) (w_log w) -> bytes_ok sg) ->
  bytes_ok (w_out w) /\ em_alg em = alg /\
  (forall sc sg, In (EvSign sc sg) (w_log w) -> In alg signed_suites /\ exists sc0, em_sig em = Some sc0 /\ sc_key sc = sc_key sc0).
Proof.
  intros cr m ops w rq ctx em alg CS [CB1 CB2] H EM D BI GA GEN DK CTB NE EF EB RB SB.
  pose proof (history_inv _ _ _ _ CS H) as I. unfold winv in I.
  destruct (enc_shape _ _ _ _ _ I (done_live _ D) EM (or_intror D)) as [i [l [tr [trlog [EO [SE [CF [E1 [E2 [E3 [BS [FIN _]]]]]]]]]]]].
  destruct (FIN D) as [WB [ET _]].
  assert (GE : ctx = ei_ctx i /\ em = ei_m i).
  { rewrite E3 in GEN. unfold elog, enc_log in GEN. cbn [app In] in GEN.
    destruct GEN as [G|[G|[G|G]]]; try discriminate; [injection G as _ <- <-; auto|].
    exfalso. apply in_app_or in G. destruct G as [G|G].
    - apply in_map_iff in G. destruct G as [[f p] [G _]]. discriminate.
    - destruct ET; [destruct G|destruct G as [G|[]]; discriminate]. }
  destruct GE as [-> ->].
  assert (AL : ei_alg i = alg).
  { unfold get_alg_id in GA. rewrite (eo_alg _ _ _ EO) in GA. injection GA as <-.
    destruct (suite_facts _ _ (eo_lookup _ _ _ EO)) as [F _]. now rewrite F. }
  assert (SGN : forall sc sg, In (EvSign sc sg) (w_log w) -> In alg signed_suites /\ exists sc0, em_sig (ei_m i) = Some sc0 /\ sc_key sc = sc_key sc0).
  { intros sc sg J. rewrite E3 in J. unfold elog, enc_log in J. cbn [app In] in J.
    destruct J as [G|[G|[G|G]]]; try discriminate. apply in_app_or in G. destruct G as [G|G].
    - apply in_map_iff in G. destruct G as [[f p] [G _]]. discriminate.
    - destruct ET as [Z|sc' sg' Z SC]; [destruct G|]. destruct G as [G|[]]. injection G as -> ->.
      split; [rewrite <- AL; apply (sig_len_spec _ _ (eo_lookup _ _ _ EO)); now apply N.eqb_neq|].
      destruct (em_sig (ei_m i)) as [sc0|]; [|discriminate]. cbn [signed_so_far] in SC. injection SC as <-. exists sc0. auto. }
  split; [|split; [exact AL|exact SGN]].
  assert (MB : bytes_ok (ei_mid i)) by (apply RB; rewrite E3; unfold elog, enc_log; cbn [app In]; auto).
  pose proof (eo_write _ _ _ EO) as WR. pose proof (hdr_write_ctx _ _ _ WR) as CFI.
  set (h := s_hdr (w_s w)) in *. pose proof (eo_hdr _ _ _ EO) as EH. fold h in EH.
  assert (RP : hdr_representable h).
  { rewrite EH. unfold hdr_representable, is_v1, is_v2.
    cbn [h_alg_id h_frame_len h_iv h_auth_tag h_message_id h_alg_suite_data h_enc_ctx h_edks h_auth_len].
    rewrite EH in CFI. cbn [h_enc_ctx] in CFI. pose proof (eo_tag _ _ _ EO). pose proof (eo_iv _ _ _ EO). pose proof (eo_edks _ _ _ EO).
    split.
    - destruct (enc_mid_len _ _ _ EO) as [[V M]|[V M]].
      + left. destruct (eo_suite _ _ _ EO) as [[_ [S _]]|[V2 _]]; [auto|destruct (v1_not_v2 _ V V2)].
      + right. destruct (eo_suite _ _ _ EO) as [[V1 _]|[_ [_ S]]]; [destruct (v1_not_v2 _ V1 V)|auto].
    - repeat split; auto; try lia. apply CF. }
  rewrite hdr_write_spec in WR by now apply representable_fits.
  destruct (_ <? _); [discriminate|]. assert (WBY : wire_bytes h = ei_head i) by congruence. clear WR.
  assert (HB : bytes_ok (ei_head i)).
  { rewrite <- WBY. unfold wire_bytes, wire_auth, wire_body. rewrite bytes_ok_app.
    assert (IDS : h_alg_id h < 65536) by (apply suite_id_small; destruct RP as [V _]; unfold is_v1, is_v2 in V; tauto).
    destruct RP as [V [T [FL [_ [_ [EL _]]]]]].
    assert (CW : fits16 (wire_ctx (ctx_sort (h_enc_ctx h))) /\ bytes_ok (wire_ctx (ctx_sort (h_enc_ctx h)))).
    { assert (F' : ctx_fits (ctx_sort (h_enc_ctx h))).
      { unfold ctx_fits in *. now rewrite (Nlen_wire_ctx_perm _ _ (ctx_sort_perm (h_enc_ctx h))). }
      split; [exact F'|]. apply bytes_wire_ctx; auto. eapply ctx_bytes_perm; [symmetry; apply ctx_sort_perm|]. rewrite EH. exact CTB. }
    assert (TB : bytes_ok (h_auth_tag h)) by (rewrite EH; eapply CB1; [|apply (eo_enc _ _ _ EO)]; apply bytes_ok_nil).
    assert (MB' : bytes_ok (h_message_id h)) by (rewrite EH; exact MB).
    assert (DB : bytes_ok (concat (map wire_edk (h_edks h)))).
    { rewrite EH. cbn [h_edks]. apply bytes_concat. rewrite Forall_forall in *. intros e J. apply bytes_edk; auto. }
    assert (S8 : forall n, n < 256 -> bytes_ok (u8 n)) by (intros n L; repeat constructor; exact L).
    assert (TY : bytes_ok (u8 (if h_frame_len h =? 0 then 1 else 2))) by (apply S8; destruct (_ =? 0); lia).
    destruct (eo_suite _ _ _ EO) as [[V1 [_ IV]]|[V2 [KC _]]].
    - assert (CM : alg_is_committing (h_alg_id h) = false) by (rewrite EH; cbn [h_alg_id]; destruct (in_v1_cases _ V1) as [q Q]; tauto).
      change (h_alg_id (with_ctx h (ctx_sort (h_enc_ctx h)))) with (h_alg_id h). rewrite CM. unfold wire_body_v1, with_ctx.
      cbn [h_alg_id h_frame_len h_iv h_auth_tag h_message_id h_alg_suite_data h_enc_ctx h_edks h_auth_len].
      rewrite !bytes_ok_app. 
      repeat match goal with |- _ /\ _ => split end; auto; try (apply S8; lia); try (apply bytes_ok_u32; lia); try (apply bytes_u16; lia).
      + now apply bytes_field16.
      + rewrite EH. cbn [h_iv]. rewrite IV. apply bytes_ok_zeros.
    - assert (CM : alg_is_committing (h_alg_id h) = true) by (rewrite EH; cbn [h_alg_id]; destruct (in_v2_cases _ V2) as [q Q]; tauto).
      change (h_alg_id (with_ctx h (ctx_sort (h_enc_ctx h)))) with (h_alg_id h). rewrite CM. unfold wire_body_v2, with_ctx.
      cbn [h_alg_id h_frame_len h_iv h_auth_tag h_message_id h_alg_suite_data h_enc_ctx h_edks h_auth_len].
      rewrite !bytes_ok_app. 
      repeat match goal with |- _ /\ _ => split end; auto; try (apply S8; lia); try (apply bytes_ok_u32; lia); try (apply bytes_u16; lia).
      + now apply bytes_field16.
      + rewrite EH. cbn [h_alg_suite_data]. eapply CB2. exact KC. }
  rewrite E1, !bytes_ok_app. split; [exact HB|]. split.
  - unfold body_wire. apply bytes_concat. apply Forall_forall. intros [f p] J. cbn [fst].
    rewrite Forall_forall in SE. destruct (SE _ J) as [W [_ [IV [LC EN]]]].
    assert (BP : bytes_ok p).
    { rewrite E2 in BI. unfold body_text in BI. unfold bytes_ok in *. rewrite Forall_forall in BI |- *. intros b Jb. apply BI.
      apply in_concat. exists p. split; auto. apply in_map_iff. exists (f, p). auto. }
    destruct (CB1 _ _ _ _ _ _ BP EN) as [BC BT].
    assert (BV : bytes_ok (fr_iv f)) by (rewrite IV; unfold msg_iv; rewrite bytes_ok_app; split; [apply bytes_ok_u32; lia|]; apply bytes_u64;
      destruct W as [_ [_ W]]; destruct (fr_type f); lia).
    destruct W as [_ [_ W]]. destruct CF as [CF _]. unfold wire_frame. destruct (fr_type f); rewrite !bytes_ok_app;
      repeat match goal with |- _ /\ _ => split end; auto; try (apply bytes_ok_u32; lia); try (apply bytes_u64; lia).
  - destruct ET as [Z|sc sg Z SC]; [apply bytes_ok_nil|]. rewrite bytes_ok_app. split; [apply be_bytes_ok|].
    apply (SB sc). rewrite E3. apply in_or_app. right. now left.
Qed.

Lemma run_in_bytes : forall cr ops w w' rs, run cr w ops = (w', rs) -> Forall op_bytes ops -> bytes_ok (w_in w) -> bytes_ok (w_in w').
Proof.
  induction ops as [|o ops IH]; intros w w' rs R F H; cbn [run] in R; [injection R as <- <-; exact H|].
  destruct (exec cr w o) as [w1 r] eqn:X. inversion F as [|? ? F1 F2]; subst.
  assert (H1 : bytes_ok (w_in w1)).
  { assert (L := f_equal (fun x => w_in (fst x)) X). cbn [fst] in L. rewrite <- L. clear L X.
    destruct o; cbn [exec]; unfold with_session; cbn [fst w_in]; auto using bytes_ok_nil; unfold after_process;
      (destruct (pr_rc _); cbn [fst w_in]; auto; rewrite bytes_ok_app; split; auto; now apply bytes_ok_firstn). }
  destruct (stuck (o_rc r)); [injection R as <- <-; exact H1|].
  destruct (run cr w1 ops) as [w2 rs2] eqn:R2. injection R as <- <-. eapply IH; eauto.
Qed.
Lemma history_in_bytes : forall cr m ops w, history cr m ops w -> bytes_ok (w_in w).
Proof. intros cr m ops w [_ [B [rs [R _]]]]. eapply run_in_bytes; eauto. apply bytes_ok_nil. Qed.

Lemma run_snoc : forall cr ops w w1 rs o, run cr w ops = (w1, rs) -> Forall (fun r => stuck (o_rc r) = false) rs ->
  run cr w (ops ++ [o]) = (fst (exec cr w1 o), rs ++ [snd (exec cr w1 o)]).
Proof.
  induction ops as [|p ops IH]; intros w w1 rs o R F; cbn [run app] in *.
  - injection R as <- <-. destruct (exec cr w o) as [w2 r2]. cbn [fst snd app]. destruct (stuck (o_rc r2)); reflexivity.
  - destruct (exec cr w p) as [w2 r]. destruct (stuck (o_rc r)) eqn:S.
    + injection R as <- <-. inversion F; congruence.
    + destruct (run cr w2 ops) as [w3 rs3] eqn:R3. injection R as <- <-. inversion F; subst. rewrite (IH _ _ _ o R3) by auto. reflexivity.
Qed.
Lemma history_snoc : forall cr m ops w o w' r, history cr m ops w -> op_bytes o -> exec cr w o = (w', r) -> stuck (o_rc r) = false ->
  history cr m (ops ++ [o]) w'.
Proof.
  intros cr m ops w o w' r [V [B [rs [R F]]]] OB E S. split; auto. split; [apply Forall_app; auto|].
  exists (rs ++ [r]). rewrite (run_snoc _ _ _ _ _ _ R F), E. split; auto. apply Forall_app. auto.
Qed.
Lemma feed_history : forall cr good msg w rs w', feed cr good msg w rs w' -> forall m ops, bytes_ok msg -> history cr m ops w ->
  Forall (fun r => o_rc r = POk) rs -> exists ops', history cr m ops' w'.
Proof.
  intros cr good msg w rs w' F. induction F as [|w e cap input w1 r rs w2 G P X F IH]; intros m ops B H A; [eauto|].
  inversion A as [|? ? A1 A2]; subst. eapply IH; auto. eapply history_snoc; eauto; [|rewrite A1; reflexivity].
  cbn. destruct P as [z Z]. rewrite Z, !bytes_ok_app in B. tauto.
Qed.

(** The header that a finished decryption of a session's output reports. *)
Lemma reported : forall cr m ops w rq ctx em md opsd wd, crypto_sizes cr -> dec_inverts cr ->
  history cr m ops w -> s_mode (w_s w) = M_ENCRYPT -> is_done (w_s w) = true ->
  In (EvGen rq ctx em) (w_log w) -> distinct_keys ctx -> Nlen (em_edks em) <= 65535 -> Forall edk_fits (em_edks em) ->
  history cr md opsd wd -> is_decrypt_mode (s_mode (w_s wd)) = true -> is_done (w_s wd) = true -> w_in wd = w_out w ->
  get_alg_id (w_s wd) = Some (em_alg em) /\ exists c, visible_ctx (w_s wd) = Some c /\ Permutation c ctx.
Proof.
  intros cr m ops w rq ctx em md opsd wd CS DI H EM D GEN DK NE EF HD DM DD EQ.
  pose proof (history_inv _ _ _ _ CS H) as I. unfold winv in I.
  destruct (enc_shape _ _ _ _ _ I (done_live _ D) EM (or_intror D)) as [i [l [tr [trlog [EO [SE [CF [E1 [E2 [E3 [BS [FIN _]]]]]]]]]]]].
  destruct (FIN D) as [WB [ET _]].
  assert (GE : ctx = ei_ctx i /\ em = ei_m i).
  { rewrite E3 in GEN. unfold elog, enc_log in GEN. cbn [app In] in GEN.
    destruct GEN as [G|[G|[G|G]]]; try discriminate; [injection G as _ <- <-; auto|].
    exfalso. apply in_app_or in G. destruct G as [G|G].
    - apply in_map_iff in G. destruct G as [[f p] [G _]]. discriminate.
    - destruct ET; [destruct G|destruct G as [G|[]]; discriminate]. }
  destruct GE as [-> ->].
  destruct (enc_header _ _ _ CS DI EO (proj1 CF) DK NE EF) as [h [hb [ha [iv [AH [HH [HA [HE [HC _]]]]]]]]].
  pose proof (history_inv _ _ _ _ CS HD) as ID. unfold winv in ID.
  destruct (dec_shape _ _ _ _ _ ID (done_live _ DD) DM (or_intror DD)) as [j [l2 [tr2 [trlog2 [DO [_ [_ [F1 _]]]]]]]].
  assert (EB : hb ++ ha ++ (body_wire l ++ tr) = di_body j ++ di_auth j ++ (body_wire l2 ++ tr2)).
  { rewrite E1, F1 in EQ. rewrite <- HH in EQ. unfold di_head in EQ. rewrite <- !app_assoc in EQ. symmetry. exact EQ. }
  destruct AH as [WF WI _ _ _ _].
  destruct (two_headers _ _ _ _ _ _ _ _ WF WI (do_wf _ _ _ DO) (do_wire _ _ _ DO) EB) as [HQ _].
  pose proof (f_equal h_alg_id HQ) as HA'. pose proof (f_equal h_enc_ctx HQ) as HC'. cbn in HA', HC'.
  split.
  - unfold get_alg_id. rewrite (do_alg _ _ _ DO). destruct (suite_facts _ _ (do_lookup _ _ _ DO)) as [-> _].
    rewrite <- HA', HA. reflexivity.
  - exists (h_enc_ctx (s_hdr (w_s wd))). unfold visible_ctx. rewrite (do_cmm _ _ _ DO), andb_false_r. split; auto. rewrite <- HC'. exact HC.
Qed.

(** ** The round trip *)
Lemma reserved_bytes : bytes_ok reserved_key.
Proof. unfold reserved_key. vm_compute. repeat constructor. Qed.

Lemma loop_mode : forall fuel cr e s room input out log, s_mode (lr_sess (process_loop fuel cr e s room input out log)) = s_mode s.
Proof.
  induction fuel as [|fuel IH]; intros cr e s room input out log; [reflexivity|]. cbn [process_loop].
  pose proof (step_conf cr e s room input) as [M _].
  destruct (sr_rc _); cbn [lr_sess]; auto. match goal with |- context [if ?c then _ else _] => destruct c end; [rewrite IH|]; auto.
Qed.
Lemma process_mode : forall cr e s cap input, s_mode (pr_sess (process cr e s cap input)) = s_mode s.
Proof.
  intros cr e s cap input. unfold process. pose proof (loop_mode (loop_fuel input) cr e s cap input [] []) as M.
  destruct (process_loop _ _ _ _ _ _ _ _) as [s' i o rc lg]. cbn [lr_log lr_rc lr_sess lr_in lr_out] in *.
  assert (F : forall x, s_mode (fail_session s' x) = s_mode s') by (intros x; unfold fail_session; destruct (sstate_eqb _ _); reflexivity).
  destruct rc; cbn [pr_sess]; try (destruct (sstate_eqb _ _)); cbn [pr_sess]; rewrite ?F; exact M.
Qed.
Lemma feed_mode : forall cr good msg w rs w', feed cr good msg w rs w' -> s_mode (w_s w') = s_mode (w_s w).
Proof.
  intros cr good msg w rs w' F. induction F as [|w e cap input w1 r rs w2 G P X F IH]; [reflexivity|]. rewrite IH.
  cbn [exec] in X. unfold after_process in X. assert (L := f_equal (fun x => s_mode (w_s (fst x))) X). cbn [fst] in L. rewrite <- L.
  rewrite <- (process_mode cr e (w_s w) cap input). destruct (pr_rc _); reflexivity.
Qed.

(** What the default CMM gave the session, and what it gives back. *)
Lemma stack_mat : forall cr ec ec2 ke kd da da2 alg n e rq ctx em, generates_with ec (mk_default_cmm ke da) e ->
  e_gen e rq = (ctx, Ok em) -> em_alg em = alg -> distinct_keys (rq_ctx rq) -> ctx_bytes (rq_ctx rq) ->
  signing_works cr ec ec2 alg e -> tidy ke alg n -> recovers ke kd alg ->
  suite alg /\ distinct_keys ctx /\ ctx_bytes ctx /\ message_ctx ec alg (rq_ctx rq) ctx /\
  1 <= Nlen (em_edks em) <= n /\ n <= 65535 /\ Forall edk_fits (em_edks em) /\ Forall edk_is_bytes (em_edks em) /\
  exists vk, (~ In alg signed_suites -> vk = None) /\
    (forall sc0, em_sig em = Some sc0 -> In alg signed_suites -> exists pub v, ec_keygen ec alg = Ok (sc0, pub) /\ ec_verify_start ec2 alg pub = Ok v /\ vk = Some v) /\
    forall mode e2, (mode = M_DECRYPT_UNSIGNED -> ~ In alg signed_suites) -> decrypts_with ec2 (mk_default_cmm kd da2) e2 -> unwraps mode ctx em vk e2.
Proof.
  intros cr ec ec2 ke kd da da2 alg n e rq ctx em GW EG EA DK CB SW [N65 TI] RE.
  destruct (GW rq) as [G1 G2]. rewrite EG in G1, G2. cbn [fst snd] in G1, G2.
  destruct (default_cmm_generate ec None None (mk_default_cmm ke da) rq) as [ctx' [m|x|]] eqn:DG; cbn [fst snd answer] in G1, G2; try discriminate; try contradiction.
  assert (EM : em = session_enc_mat m) by congruence. clear G2. subst ctx'.
  pose proof (choice_spec (mk_default_cmm ke da) rq) as CH. set (alg' := default_alg_choice _ _ _) in *.
  destruct (C42_generate_lemma ec None None _ rq _ CH) as [_ GEN]. destruct (GEN _ _ DG) as [SU [KA [[a [KE [KK [KT KD]]]] [SIG UNS]]]].
  cbn [dc_keyring] in KE.
  assert (AA : alg' = alg) by (rewrite <- EA, EM; cbn [session_enc_mat em_alg]; congruence). rewrite AA in *. clear GEN CH.
  assert (CTX : distinct_keys ctx /\ ctx_bytes ctx /\ message_ctx ec alg (rq_ctx rq) ctx).
  { destruct (in_dec N.eq_dec alg signed_suites) as [S|S].
    - destruct (SIG S) as [sc [pub [K [_ [-> NR]]]]]. split; [|split].
      + unfold distinct_keys in *. rewrite map_app. cbn [map fst]. apply NoDup_app_split. split; auto.
        split; [repeat constructor; intros []|]. intros x J [<-|[]]. contradiction.
      + unfold ctx_bytes. apply Forall_app. split; auto. apply Forall_cons; [|constructor]. cbn [fst snd]. split; [apply reserved_bytes|].
        destruct (SW S _ _ K) as [B _]. exact B.
      + split; [intros _; eauto|contradiction].
    - destruct (UNS S) as [_ [-> _]]. split; auto. split; auto. split; [contradiction|auto]. }
  destruct CTX as [DC [CBC MC]]. split; auto. split; auto. split; auto. split; auto.
  destruct (TI ctx a DC CBC KE) as [T1 [T2 T3]]. destruct (RE ctx a DC CBC KE) as [b [KB UN]].
  assert (EE : em_edks em = ka_edks a) by (rewrite EM; exact KD). assert (EK : em_key em = kb_bytes b) by (rewrite EM; cbn [session_enc_mat em_key]; rewrite KK, KB; reflexivity).
  rewrite EE. split; auto. split; auto. split; auto. split; auto.
  assert (ES : em_sig em = km_sig m) by (rewrite EM; reflexivity).
  assert (PERM : forall c k, Permutation c ctx -> ctx_find k c = ctx_find k ctx).
  { intros c k P. assert (DC' : distinct_keys c) by (eapply distinct_perm; [symmetry; exact P|exact DC]).
    destruct (ctx_find k ctx) as [v|] eqn:F.
    - apply ctx_find_in in F; auto. apply ctx_find_in; auto. eapply Permutation_in; [symmetry; exact P|exact F].
    - apply ctx_find_none in F. apply ctx_find_none. intros J. apply F. eapply Permutation_in; [apply Permutation_map; exact P|exact J]. }
  assert (DEC : forall mode e2 vk, (mode = M_DECRYPT_UNSIGNED -> ~ In alg signed_suites) -> decrypts_with ec2 (mk_default_cmm kd da2) e2 ->
    (In alg signed_suites -> exists pub v, ctx_find reserved_key ctx = Some pub /\ ec_verify_start ec2 alg pub = Ok v /\ vk = Some v) ->
    (~ In alg signed_suites -> ctx_find reserved_key ctx = None) -> unwraps mode ctx em vk e2).
  { intros mode e2 vk MU DW VS VU c P. rewrite EA, EE.
    specialize (DW (mk_dec_request alg (ka_edks a) c) SU).
    destruct (UN c (mk_dargs None []) P eq_refl) as [d' [b' [KDD [DB BB]]]].
    unfold default_cmm_decrypt in DW. cbn [dc_keyring dq_edks dq_ctx dq_alg] in DW. rewrite KDD, DB in DW.
    destruct (lookup_suite _ SU) as [p L]. rewrite L, reserved_eq, (PERM _ _ P) in DW. destruct (suite_lookup _ _ L) as (_ & _ & SG).
    destruct (in_dec N.eq_dec alg signed_suites) as [S|S].
    - destruct (VS S) as [pub [v [F [V ->]]]]. rewrite F in DW.
      destruct (N.eqb_spec (ap_sig_len p) 0) as [Z|Z]; [apply SG in Z; contradiction|]. rewrite V in DW. cbn [answer] in DW.
      eexists. split; [exact DW|]. cbn [session_dec_mat dm_key dm_alg dm_sig kd_mat_key kd_mat_alg kd_mat_sig].
      split; [congruence|]. split; [exact SU|]. split; [exact MU|auto].
    - rewrite (VU S) in DW. assert (Z : ap_sig_len p = 0) by now apply SG. rewrite Z in DW. cbn [N.eqb answer] in DW.
      eexists. split; [exact DW|]. cbn [session_dec_mat dm_key dm_alg dm_sig kd_mat_key kd_mat_alg kd_mat_sig].
      split; [congruence|]. split; [exact SU|]. split; [exact MU|contradiction]. }
  destruct (in_dec N.eq_dec alg signed_suites) as [S|S].
  - destruct (SIG S) as [sc [pub [K [KS [EC NR]]]]]. destruct (SW S _ _ K) as [BP [v [V [VD _]]]].
    exists (Some v). split; [contradiction|]. split.
    + intros sc0 E0 _. rewrite ES, KS in E0. injection E0 as <-. eauto.
    + intros mode e2 MU DW. apply DEC; auto; [|contradiction]. intros _. exists pub, v. split; [|auto].
      apply ctx_find_in; auto. rewrite EC. apply in_or_app. right. now left.
  - destruct (UNS S) as [KS [EC NR]]. exists None. split; auto. split; [contradiction|]. intros mode e2 MU DW. apply DEC; auto; [contradiction|].
    intros _. now apply ctx_find_none.
Qed.

(** Materials a reader can use: everything fits and is bytes, logged signatures verify, and [good] environments unwrap. *)
Record usable (cr : crypto) (alg n : N) (log : list event) (mode : smode) (good : env -> Prop) (ctx : enc_ctx) (em : enc_mat) (vk : option sigctx) : Prop := mk_usable {
  us_ctx : distinct_keys ctx;
  us_ctxb : ctx_bytes ctx;
  us_some : 1 <= Nlen (em_edks em) <= n;
  us_few : n <= 65535;
  us_fit : Forall edk_fits (em_edks em);
  us_bytes : Forall edk_is_bytes (em_edks em);
  us_sig : forall sc0, em_sig em = Some sc0 -> In alg signed_suites -> exists v, vk = Some v /\ sc_data v = sc_data sc0 /\
    forall data sg, In (EvSign (mk_sigctx (sc_key sc0) data) sg) log -> bytes_ok sg /\ Nlen sg < 65536 /\ cr_verify cr (mk_sigctx (sc_key v) data) sg = true;
  us_good : forall e2, good e2 -> unwraps mode ctx em vk e2;
}.

Lemma core_mats : forall cr m ops w alg md opsd n wd rs wd' (good : env -> Prop),
  crypto_sizes cr -> dec_inverts cr -> updates_ok cr -> crypto_bytes cr ->
  history cr m ops w -> s_mode (w_s w) = M_ENCRYPT -> is_done (w_s w) = true -> get_alg_id (w_s w) = Some alg ->
  (forall mid, In (EvRand mid) (w_log w) -> bytes_ok mid) ->
  (forall rq ctx em, In (EvGen rq ctx em) (w_log w) -> em_alg em = alg -> ctx_fits ctx -> exists vk, usable cr alg n (w_log w) (s_mode (w_s wd)) good ctx em vk) ->
  history cr md opsd wd -> is_decrypt_mode (s_mode (w_s wd)) = true -> s_state (w_s wd) = ST_CONFIG ->
  policy_permits_decrypt (s_policy (w_s wd)) alg ->
  (s_max (w_s wd) = 0 \/ n <= s_max (w_s wd)) ->
  feed cr good (w_out w) wd rs wd' ->
  bytes_ok (w_out w) /\
  Forall (fun r => o_rc r = POk) rs /\ prefix (w_out wd') (w_in w) /\
  (is_done (w_s wd') = true -> w_in wd' = w_out w /\ w_out wd' = w_in w /\ get_alg_id (w_s wd') = Some alg /\
     exists rq c em c', In (EvGen rq c em) (w_log w) /\ em_alg em = alg /\ visible_ctx (w_s wd') = Some c' /\ Permutation c' c) /\
  (forall e cap input, good e -> w_in wd' ++ input = w_out w ->
     Nlen (w_in w) <= Nlen (w_out wd') + cap ->
     let w2 := fst (exec cr wd' (OProcess e cap input)) in is_done (w_s w2) = true /\ w_out w2 = w_in w).
Proof.
  intros cr m ops w alg md opsd n wd rs wd' good CS DI UP CB H EM D GA RB US HD DM CONF POL MAX FEED.
  destruct (C63_encrypt_lemma _ _ _ _ CS H EM (or_intror D)) as [rq [ctx [em [more [LOG [_ [_ [SIG _]]]]]]]].
  assert (GEN : In (EvGen rq ctx em) (w_log w)) by (rewrite LOG; now left).
  assert (EA : em_alg em = alg /\ ctx_fits ctx).
  { pose proof (history_inv _ _ _ _ CS H) as I. unfold winv in I.
    destruct (enc_shape _ _ _ _ _ I (done_live _ D) EM (or_intror D)) as [i [l [tr [trlog [EO [SE [CF [E1 [E2 [E3 _]]]]]]]]]].
    rewrite LOG in E3. unfold elog, enc_log in E3. cbn [app] in E3. injection E3 as _ -> -> _. split.
    - unfold get_alg_id in GA. rewrite (eo_alg _ _ _ EO) in GA. injection GA as <-.
      destruct (suite_facts _ _ (eo_lookup _ _ _ EO)) as [F _]. now rewrite F.
    - pose proof (hdr_write_ctx _ _ _ (eo_write _ _ _ EO)) as CFI. rewrite (eo_hdr _ _ _ EO) in CFI. exact CFI. }
  destruct EA as [EA FC]. destruct (US _ _ _ GEN EA FC) as [vk [DC CBC NE0 N65 EF EB VS UNW]].
  assert (NE : 1 <= Nlen (em_edks em) <= 65535) by lia.
  assert (SB : forall sc sg, In (EvSign sc sg) (w_log w) -> bytes_ok sg).
  { intros sc sg J. pose proof J as J0. destruct sc as [kk dd].
    pose proof (history_inv _ _ _ _ CS H) as I. unfold winv in I.
    destruct (enc_shape _ _ _ _ _ I (done_live _ D) EM (or_intror D)) as [i [l [tr [trlog [EO [SE [CF [E1 [E2 [E3 [BS [FIN _]]]]]]]]]]]].
    destruct (FIN D) as [_ [ET _]]. rewrite LOG in E3. pose proof E3 as E3'. unfold elog, enc_log in E3'. cbn [app] in E3'. injection E3' as _ _ E5 _.
    rewrite LOG, E3 in J. unfold elog, enc_log in J. cbn [app In] in J.
    destruct J as [G|[G|[G|G]]]; try discriminate. apply in_app_or in G. destruct G as [G|G].
    - apply in_map_iff in G. destruct G as [[f p] [G _]]. discriminate.
    - destruct ET as [Z|sc' sg' Z SC]; [destruct G|]. destruct G as [G|[]]. injection G as -> ->.
      assert (S : In alg signed_suites) by (rewrite <- EA, E5; apply (sig_len_spec _ _ (eo_lookup _ _ _ EO)); now apply N.eqb_neq).
      rewrite <- E5 in SC. destruct (em_sig em) as [sc0|] eqn:ES; [|discriminate]. cbn [signed_so_far] in SC. injection SC as <- <-.
      destruct (VS _ eq_refl S) as [v [_ [_ X]]]. exact (proj1 (X _ _ J0)). }
  destruct (enc_out_bytes cr m ops w rq ctx em alg CS CB H EM D (history_in_bytes _ _ _ _ H) GA GEN DC CBC (proj2 NE) EF EB RB SB) as [BO [_ SGN]].
  assert (SV : signatures_verify cr em vk (w_log w)).
  { intros sc sg J. destruct (SGN _ _ J) as [S [sc0 [ES KE]]]. destruct (VS _ ES S) as [v [-> [VD X]]].
    destruct sc as [kk dd]. cbn [sc_key] in KE. subst kk. destruct (X _ _ J) as [_ [LS VER]].
    exists v. split; auto. split; auto. split; [intros sc1 E1; congruence|]. exact VER. }
  assert (POL' : policy_permits_decrypt (s_policy (w_s wd)) (em_alg em)) by now rewrite EA.
  assert (FEED' : feed cr (unwraps (s_mode (w_s wd)) ctx em vk) (w_out w) wd rs wd').
  { clear - FEED UNW. remember (s_mode (w_s wd)) as mode. clear Heqmode.
    induction FEED as [|w0 e cap input w1 r rs w2 G P X F IH]; [constructor|].
    apply (feed_call _ _ _ w0 e cap input w1 r rs w2); [apply UNW; assumption|exact P|exact X|exact IH]. }
  destruct (C13_lemma cr m ops w rq ctx em vk md opsd wd rs wd' CS DI UP H EM D GEN DC (proj2 NE) EF SV BO HD DM CONF POL' ltac:(lia) FEED')
    as [R1 [R2 [R3 R4]]].
  split; auto. split; auto. split; auto. split.
  - intros DD. destruct (R3 DD) as [Q1 Q2]. split; auto. split; auto.
    destruct (feed_history _ _ _ _ _ _ FEED md opsd BO HD R1) as [ops' HD'].
    assert (DM' : is_decrypt_mode (s_mode (w_s wd')) = true).
    { now rewrite (feed_mode _ _ _ _ _ _ FEED). }
    destruct (reported cr m ops w rq ctx em md ops' wd' CS DI H EM D GEN DC (proj2 NE) EF HD' DM' DD Q1) as [A [c [VC PC]]].
    split; [congruence|]. exists rq, ctx, em, c. auto.
  - intros e2 cap input DW. apply R4. now apply UNW.
Qed.

Lemma core_roundtrip : forall cr m ops w ec ec2 ke kd da da2 alg md opsd n wd rs wd',
  crypto_sizes cr -> dec_inverts cr -> updates_ok cr -> crypto_bytes cr ->
  history cr m ops w -> s_mode (w_s w) = M_ENCRYPT -> is_done (w_s w) = true -> get_alg_id (w_s w) = Some alg ->
  (forall ev, In ev (w_log w) -> exists e, stack_env cr ec ec2 (mk_default_cmm ke da) alg e /\ ev_from e ev) ->
  (forall rq c em, In (EvGen rq c em) (w_log w) -> distinct_keys (rq_ctx rq) /\ ctx_bytes (rq_ctx rq)) ->
  tidy ke alg n -> recovers ke kd alg ->
  history cr md opsd wd -> is_decrypt_mode (s_mode (w_s wd)) = true -> s_state (w_s wd) = ST_CONFIG ->
  policy_permits_decrypt (s_policy (w_s wd)) alg ->
  (s_max (w_s wd) = 0 \/ n <= s_max (w_s wd)) ->
  (s_mode (w_s wd) = M_DECRYPT_UNSIGNED -> ~ In alg signed_suites) ->
  feed cr (decrypts_with ec2 (mk_default_cmm kd da2)) (w_out w) wd rs wd' ->
  bytes_ok (w_out w) /\
  Forall (fun r => o_rc r = POk) rs /\ prefix (w_out wd') (w_in w) /\
  (is_done (w_s wd') = true -> w_in wd' = w_out w /\ w_out wd' = w_in w /\ get_alg_id (w_s wd') = Some alg /\
     exists rq c em c', In (EvGen rq c em) (w_log w) /\ message_ctx ec alg (rq_ctx rq) c /\ visible_ctx (w_s wd') = Some c' /\ Permutation c' c) /\
  (forall e cap input, decrypts_with ec2 (mk_default_cmm kd da2) e -> w_in wd' ++ input = w_out w ->
     Nlen (w_in w) <= Nlen (w_out wd') + cap ->
     let w2 := fst (exec cr wd' (OProcess e cap input)) in is_done (w_s w2) = true /\ w_out w2 = w_in w).
Proof.
  intros cr m ops w ec ec2 ke kd da da2 alg md opsd n wd rs wd' CS DI UP CB H EM D GA EVS RQ TI RE HD DM CONF POL MAX UNS FEED.
  assert (MAT : forall rq ctx em, In (EvGen rq ctx em) (w_log w) -> em_alg em = alg ->
    message_ctx ec alg (rq_ctx rq) ctx /\ exists vk, usable cr alg n (w_log w) (s_mode (w_s wd)) (decrypts_with ec2 (mk_default_cmm kd da2)) ctx em vk).
  { intros rq ctx em GEN EA. destruct (RQ _ _ _ GEN) as [DK CTB]. destruct (EVS _ GEN) as [e [[GW [RB SW]] EV]]. cbn [ev_from] in EV.
    destruct (stack_mat cr ec ec2 ke kd da da2 alg n e rq ctx em GW EV EA DK CTB SW TI RE)
      as [SU [DC [CBC [MC [NE0 [N65 [EF [EB [vk [VN [VS UNW]]]]]]]]]]].
    split; [exact MC|]. exists vk. constructor; auto.
    intros sc0 ES S. destruct (VS _ ES S) as [pub [v [K [V ->]]]]. exists v. split; auto.
    destruct (SW S _ _ K) as [_ [v1 [V1 [VD _]]]]. assert (v1 = v) by congruence. subst v1. split; auto.
    intros data sg J. destruct (EVS _ J) as [e1 [[_ [_ SW1]] En]]. cbn [ev_from] in En.
    destruct (SW1 S _ _ K) as [_ [v' [V' [_ X]]]]. assert (v' = v) by congruence. subst v'. exact (X _ _ En). }
  destruct (core_mats cr m ops w alg md opsd n wd rs wd' (decrypts_with ec2 (mk_default_cmm kd da2)) CS DI UP CB H EM D GA) as [R1 [R2 [R3 [R4 R5]]]]; auto.
  { intros mid J. destruct (EVS _ J) as [e1 [[_ [RB1 _]] [n0 En]]]. eapply RB1; eauto. }
  { intros rq ctx em GEN EA _. apply (MAT _ _ _ GEN EA). }
  split; auto. split; auto. split; auto. split; auto.
  intros DD. destruct (R4 DD) as [Q1 [Q2 [Q3 [rq [c [em [c' [GEN [EA [VC PC]]]]]]]]]]. split; auto. split; auto. split; auto.
  exists rq, c, em, c'. destruct (MAT _ _ _ GEN EA) as [MC _]. auto.
Qed.
