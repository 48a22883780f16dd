(** Concrete executions for C71 and C72. *)
From Verif Require Import Base BaseProofs AlgModel EncCtxModel HdrModel CryptoModel SessionModel KeyringModel
  WireSpec CacheModel CacheSpec CachingModel CachingSpec CacheProofs CachingProofs SessionExamples StreamExamples
  CacheExamples CacheHitSpec.
From Coq Require Import Permutation PeanoNat.
Import List ListNotations.
Open Scope list_scope. Open Scope N_scope.

(** Two encryptions and two decryptions, one after the other. *)
Definition s_moves : list move :=
  moves 1 0 10 (RMem None) ++ moves 1 0 11 RUnit ++ moves 1 0 12 (REnc a_ctx (Ok a_mat)) ++ moves 4 0 14 RUnit
  ++ moves 1 1 15 (RMem None) ++ moves 2 1 20 RUnit ++ moves 1 1 30 (RClock (Some 30)) ++ moves 6 1 31 RUnit
  ++ moves 1 2 40 (RMem None) ++ moves 1 2 41 RUnit ++ moves 1 2 42 (RDec (Ok a_dmat)) ++ moves 4 2 43 RUnit
  ++ moves 1 3 50 (RMem None) ++ moves 3 3 51 RUnit.
Definition s_result := play toy_io s_moves (start len_hash a_jobs) [] (new_cache 10).
Definition s_hist : list event := hist_of s_result.
Definition s_part (j : nat) : list event := filter (fun e => Nat.eqb (ev_call e) j) s_hist.
Definition s1 : list event := s_part 0.
Definition s2 : list event := s_part 1.
Definition s3 : list event := s_part 2.
Definition s4 : list event := s_part 3.

Lemma s_split : s_hist = s1 ++ s2 ++ s3 ++ s4.
Proof. vm_compute. reflexivity. Qed.
Lemma s_runs : exists c, exec toy_io len_hash locks 10 a_jobs s_hist c.
Proof.
  assert (L : forall x, In x s_moves -> locks (snd x)).
  { assert (H : forallb (fun x : move => ch_lock (snd x)) s_moves = true) by (vm_compute; reflexivity).
    intros x J. rewrite forallb_forall in H. exact (H x J). }
  refine (proj1 (result_exec toy_io len_hash locks 10 a_jobs s_moves L _)). vm_compute. reflexivity.
Qed.
Lemma s_exec : forall h1 h2, s_hist = h1 ++ h2 -> exists c, exec toy_io len_hash locks 10 a_jobs h1 c.
Proof.
  intros h1 h2 E. destruct s_runs as (c & R). rewrite E in R. eapply exec_prefix. exact R.
Qed.
Lemma filter_alone : forall j h, alone j (filter (fun e => Nat.eqb (ev_call e) j) h).
Proof. intros j h e J. apply filter_In in J. now apply Nat.eqb_eq. Qed.
Lemma part_alone : forall j, alone j (s_part j).
Proof. intros j. exact (filter_alone j s_hist). Qed.

(** Checking [smooth] by computation. *)
Definition within (t0 t1 : N) (t : option N) : bool :=
  match t with Some t => (t0 <=? t) && (t <=? t1) | None => false end.
Definition smooth_b (t0 t1 : N) (e : event) : bool :=
  let ch := ev_env e in
  ch_lock ch && ch_mem ch && ch_insert ch && ch_push ch && negb (ok (ch_ctx ch)) && within t0 t1 (ch_clock ch)
  && within t0 t1 (ch_clock2 ch)
  && match ev_op e with
     | XMem => match ev_resp e with RMem None => true | _ => false end
     | XClock => match ev_resp e with RClock t => within t0 t1 t | _ => false end
     | _ => true
     end.
Lemma smooth_sound : forall t0 t1 h, forallb (smooth_b t0 t1) h = true -> Forall (smooth t0 t1) h.
Proof.
  intros t0 t1 h H. rewrite forallb_forall in H. apply Forall_forall. intros e J. specialize (H e J).
  unfold smooth_b in H. cbv zeta in H. repeat (apply Bool.andb_true_iff in H; destruct H as (H & ?)).
  assert (W : forall t, within t0 t1 t = true -> exists x, t = Some x /\ t0 <= x <= t1).
  { intros [t|] B; cbn [within] in B; [|discriminate]. apply Bool.andb_true_iff in B. destruct B as (A & B).
    apply N.leb_le in A, B. eauto. }
  unfold smooth. cbv zeta. split; [auto|]. split; [auto|]. split; [auto|]. split; [auto|].
  split; [destruct (ch_ctx (ev_env e)); [discriminate|auto]|]. split; [auto|]. split; [auto|].
  destruct (ev_op e); auto.
  - destruct (ev_resp e); try discriminate. destruct (W _ H0) as (x & -> & B). eauto.
  - destruct (ev_resp e) as [| | | | | | | | |[|]]; try discriminate. reflexivity.
Qed.

Lemma a_types : c_types a_cmm /\ c_types b_cmm.
Proof. split; vm_compute; auto. Qed.
Lemma a_same : same_dec_request a_cmm b_cmm (mk_dec_request 0x0578 [edk1; edk2] toy_ctx)
                                            (mk_dec_request 0x0578 [edk2; edk1] (rev toy_ctx)).
Proof.
  split; [reflexivity|]. split; [reflexivity|]. split; [|apply Permutation.perm_swap].
  intros k v. cbn [dq_ctx]. apply in_rev.
Qed.

(** What a part of the execution leaves behind. *)
Definition p1_result := play toy_io (firstn 7 s_moves) (start len_hash a_jobs) [] (new_cache 10).
Definition p2_result := play toy_io (firstn 17 s_moves) (start len_hash a_jobs) [] (new_cache 10).
Definition p3_result := play toy_io (firstn 24 s_moves) (start len_hash a_jobs) [] (new_cache 10).
Lemma part_follows : forall n, match play toy_io (firstn n s_moves) (start len_hash a_jobs) [] (new_cache 10) with
  Some (pr, h, c) => exec toy_io len_hash locks 10 a_jobs h c /\ (forall j, follows (prog_of len_hash (a_jobs j)) (trace j h) (pr j))
  | None => True end.
Proof.
  intros n. destruct (play _ _ _ _ _) as [[[pr h] c]|] eqn:E; [|exact Logic.I].
  eapply play_sound; [|apply exec_nil| |exact E].
  - assert (H : forallb (fun x : move => ch_lock (snd x)) s_moves = true) by (vm_compute; reflexivity).
    intros x J. rewrite forallb_forall in H. apply H. revert J. clear. revert n.
    induction s_moves as [|y l IH]; intros [|n] J; cbn in *; try contradiction. destruct J as [->|J]; eauto.
  - intros j. apply follows_nil.
Qed.

Lemma part_is : forall n h, match play toy_io (firstn n s_moves) (start len_hash a_jobs) [] (new_cache 10) with
  Some (_, h', _) => h' = h | None => False end ->
  exists pr c, play toy_io (firstn n s_moves) (start len_hash a_jobs) [] (new_cache 10) = Some (pr, h, c)
  /\ exec toy_io len_hash locks 10 a_jobs h c /\ (forall j, follows (prog_of len_hash (a_jobs j)) (trace j h) (pr j)).
Proof.
  intros n h H. pose proof (part_follows n) as F.
  destruct (play _ _ _ _ _) as [[[pr h'] c]|]; [|contradiction]. subst h'. exists pr, c. tauto.
Qed.
Lemma part_returns : forall n h j r,
  match play toy_io (firstn n s_moves) (start len_hash a_jobs) [] (new_cache 10) with
  Some (pr, h', _) => h' = h /\ pr j = Ret r | None => False end -> returns len_hash a_jobs h j r.
Proof.
  intros n h j r H. pose proof (part_follows n) as F.
  destruct (play _ _ _ _ _) as [[[pr h'] c]|]; [|contradiction]. destruct H as (-> & R). unfold returns. rewrite <- R. apply F.
Qed.
Lemma ctx_distinct : distinct_keys toy_ctx /\ distinct_keys a_ctx /\ distinct_keys (rev toy_ctx).
Proof.
  split; [|split]; apply NoDup_count_occ' with (decA := list_eq_dec N.eq_dec); vm_compute;
    intros x J; repeat (destruct J as [<-|J]; [reflexivity|]); destruct J.
Qed.

Lemma asked_b : forall h j, existsb (fun x => match fst x with XUpEnc _ | XUpDec _ => true | _ => false end) (trace j h) = true ->
  asked_upstream h j.
Proof.
  intros h j H. apply existsb_exists in H. destruct H as ([o r] & J & E). exists o, r. split; [exact J|].
  destruct o; try discriminate; exact Logic.I.
Qed.

Lemma enc_example : (exists c, exec toy_io len_hash locks 10 a_jobs ([] ++ s1 ++ s2) c)
  /\ alone 0 s1 /\ alone 1 s2 /\ Forall (smooth 10 31) (s1 ++ s2)
  /\ a_jobs 0%nat = GenJob a_cmm (a_rq 300) /\ a_jobs 1%nat = GenJob a_cmm (a_rq 400) /\ c_types a_cmm
  /\ same_enc_request a_cmm a_cmm (a_rq 300) (a_rq 400) /\ distinct_keys toy_ctx /\ distinct_keys a_ctx
  /\ returns len_hash a_jobs s1 0 (JEnc a_ctx (COk a_mat)) /\ asked_upstream s1 0 /\ enc_resumes toy_io a_mat
  /\ 31 < 10 + cm_ttl a_cmm /\ rq_psize (a_rq 300) + rq_psize (a_rq 400) <= cm_limit_bytes a_cmm
  /\ 2 <= cm_limit_msgs a_cmm
  /\ returns len_hash a_jobs (s1 ++ s2) 1 (JEnc a_ctx' (COk a_mat)) /\ served (s1 ++ s2) 1 0
  /\ (exists c id e, exec toy_io len_hash locks 10 a_jobs s1 c /\ enc_cache_id len_hash a_cmm (a_rq 400) = Ok id
        /\ live c id 0 /\ c_store c 0%nat = Some e /\ is_enc (ce_mat e) = true /\ usable a_cmm (ce_created e) 31
        /\ 31 < ce_expiry e /\ ce_bytes e + 400 <= cm_limit_bytes a_cmm /\ ce_msgs e + 1 <= cm_limit_msgs a_cmm).
Proof.
  split; [apply (s_exec _ (s3 ++ s4)); rewrite s_split; cbn [app]; now rewrite <- app_assoc|].
  split; [apply part_alone|]. split; [apply part_alone|]. split; [apply smooth_sound; vm_compute; reflexivity|].
  split; [reflexivity|]. split; [reflexivity|]. split; [apply a_types|].
  split; [split; [reflexivity|split; [reflexivity|]]; intros k v; reflexivity|].
  split; [apply ctx_distinct|]. split; [apply ctx_distinct|].
  split; [apply (part_returns 7); vm_compute; split; reflexivity|].
  split; [apply asked_b; vm_compute; reflexivity|].
  split. { intros sc E. assert (sc = mk_sigctx [5; 5] []) as -> by (cbn in E; congruence). eexists _, _. split; reflexivity. }
  split; [vm_compute; reflexivity|]. split; [vm_compute; discriminate|]. split; [vm_compute; discriminate|].
  split; [apply (part_returns 17); vm_compute; split; reflexivity|].
  split; [exists toy_ctx, a_ctx', a_mat; vm_compute; auto 20|].
  destruct (part_is 7 s1) as (pr & c & P & EX & _); [vm_compute; reflexivity|].
  assert (C : match play toy_io (firstn 7 s_moves) (start len_hash a_jobs) [] (new_cache 10) with
     | Some (_, _, c) => match enc_cache_id len_hash a_cmm (a_rq 400), c_store c 0%nat with
         | Ok id, Some e => live c id 0 /\ is_enc (ce_mat e) = true /\ usable a_cmm (ce_created e) 31
              /\ 31 < ce_expiry e /\ ce_bytes e + 400 <= cm_limit_bytes a_cmm /\ ce_msgs e + 1 <= cm_limit_msgs a_cmm
         | _, _ => False end
     | None => False end).
  { vm_compute. split; [left; reflexivity|]. split; [reflexivity|]. split; [right; right; reflexivity|].
    split; [reflexivity|]. split; discriminate. }
  rewrite P in C. destruct (enc_cache_id len_hash a_cmm (a_rq 400)) as [id|] eqn:I; [|contradiction].
  destruct (c_store c 0) as [e|] eqn:S; [|contradiction].
  exists c, id, e. destruct C as (C1 & C2 & C3 & C4 & C5 & C6). auto 20.
Qed.

Lemma dec_example : (exists c, exec toy_io len_hash locks 10 a_jobs ((s1 ++ s2) ++ s3 ++ s4) c)
  /\ alone 2 s3 /\ alone 3 s4 /\ trace 2 (s1 ++ s2) = [] /\ trace 3 (s1 ++ s2) = [] /\ Forall (smooth 40 51) (s3 ++ s4)
  /\ a_jobs 2%nat = DecJob a_cmm (mk_dec_request 0x0578 [edk1; edk2] toy_ctx)
  /\ a_jobs 3%nat = DecJob b_cmm (mk_dec_request 0x0578 [edk2; edk1] (rev toy_ctx)) /\ c_types a_cmm /\ c_types b_cmm
  /\ same_dec_request a_cmm b_cmm (mk_dec_request 0x0578 [edk1; edk2] toy_ctx)
                                  (mk_dec_request 0x0578 [edk2; edk1] (rev toy_ctx))
  /\ distinct_keys toy_ctx /\ distinct_keys (rev toy_ctx)
  /\ returns len_hash a_jobs ((s1 ++ s2) ++ s3) 2 (JDec (COk a_dmat)) /\ asked_upstream ((s1 ++ s2) ++ s3) 2
  /\ dec_resumes toy_io a_dmat /\ 51 < 40 + cm_ttl a_cmm /\ 51 < 40 + cm_ttl b_cmm
  /\ returns len_hash a_jobs ((s1 ++ s2) ++ s3 ++ s4) 3 (JDec (COk a_dmat)).
Proof.
  split; [apply (s_exec _ []); rewrite s_split, app_nil_r; now rewrite <- app_assoc|].
  split; [apply part_alone|]. split; [apply part_alone|].
  split; [vm_compute; reflexivity|]. split; [vm_compute; reflexivity|].
  split; [apply smooth_sound; vm_compute; reflexivity|].
  split; [reflexivity|]. split; [reflexivity|]. split; [apply a_types|]. split; [apply a_types|].
  split; [apply a_same|]. split; [apply ctx_distinct|]. split; [apply ctx_distinct|].
  split; [apply (part_returns 24); vm_compute; split; reflexivity|].
  split; [apply asked_b; vm_compute; reflexivity|].
  split. { intros sc E. assert (sc = mk_sigctx [6; 6] []) as -> by (cbn in E; congruence). eexists _, _. split; reflexivity. }
  split; [vm_compute; reflexivity|]. split; [vm_compute; reflexivity|].
  apply (part_returns 28); vm_compute; split; reflexivity.
Qed.

Lemma cache_example : runs toy_io any_env (new_cache 2) l_hist l_cache /\ legal l_hist
  /\ (exists e, live l_cache [1] 1 /\ c_store l_cache 1%nat = Some e
      /\ (exists c', cstep toy_io (env_at 5) (KFind [1]) l_cache = Some (c', RFound (Some (1%nat, is_enc (ce_mat e))))))
  /\ (exists c', cstep toy_io (env_at 5) (KPutEnc a_mat 1 1 toy_ctx [77]) l_cache = Some (c', RPut (Some 2%nat))
       /\ ~ live c' [1] 1 /\ live c' [0] 0 /\ live c' [77] 2)
  /\ (exists c', cstep toy_io (env_at 5) KClear l_cache = Some (c', RUnit) /\ c_map c' = []).
Proof.
  split; [apply l_runs|]. split; [apply l_runs|]. split; [|split].
  - assert (C : match c_store l_cache 1%nat, cstep toy_io (env_at 5) (KFind [1]) l_cache with
      | Some e, Some (_, RFound (Some (p, b))) => p = 1%nat /\ b = is_enc (ce_mat e) | _, _ => False end)
      by (vm_compute; split; reflexivity).
    destruct (c_store l_cache 1%nat) as [e|]; [|contradiction]. exists e. split; [vm_compute; left; reflexivity|].
    split; [reflexivity|]. destruct (cstep _ _ _ _) as [[c' r]|]; [|contradiction]. destruct r as [o| | | | | | | | |]; try contradiction; destruct o as [[p b]|]; try contradiction.
    destruct C as (-> & ->). eauto.
  - assert (C : match cstep toy_io (env_at 5) (KPutEnc a_mat 1 1 toy_ctx [77]) l_cache with
      | Some (c', r) => r = RPut (Some 2%nat) /\ c_map c' = [([77], 2%nat); ([0], 0%nat)] | None => False end)
      by (vm_compute; split; reflexivity).
    destruct (cstep _ _ _ _) as [[c' r]|]; [|contradiction]. destruct C as (-> & M). exists c'. split; [reflexivity|].
    unfold live. rewrite M. cbn. split; [intros [E|[E|[]]]; discriminate|auto].
  - assert (C : match cstep toy_io (env_at 5) KClear l_cache with
      | Some (c', r) => r = RUnit /\ c_map c' = [] | None => False end) by (vm_compute; split; reflexivity).
    destruct (cstep _ _ _ _) as [[c' r]|]; [|contradiction]. destruct C as (-> & M). exists c'. auto.
Qed.

Lemma a_configured : all_configured a_jobs.
Proof.
  assert (A : configured a_cmm).
  { eapply (conf_bytes _ 1000); [eapply (conf_msgs _ 3); [eapply (conf_new part_id 100 1000000000); vm_compute; reflexivity|]|];
      vm_compute; reflexivity. }
  assert (B : configured b_cmm).
  { eapply (conf_bytes _ 1200); [eapply (conf_msgs _ 5); [eapply (conf_new part_id UINT64_MAX 1000000000); vm_compute; reflexivity|]|];
      vm_compute; reflexivity. }
  intros j m E. do 6 (destruct j as [|j]; [cbn in E; injection E as <-; assumption|]). discriminate.
Qed.
Lemma conf_example : (exists m, caching_new part_id 90 1 = Ok m /\ cm_ttl m = 90000000000 /\ configured m
    /\ (exists m', set_limit_messages 5 m = Ok m' /\ configured m' /\ set_limit_messages (2 ^ 32 + 1) m' = Err E_INVALID_ARGUMENT)
    /\ (exists m', set_ttl (2 ^ 62) 1000 m = Ok m' /\ cm_ttl m' = UINT64_MAX)
    /\ set_ttl 3 60 m = Err E_INVALID_ARGUMENT /\ set_limit_bytes (2 ^ 63) m = Err E_INVALID_ARGUMENT)
  /\ all_configured a_jobs.
Proof.
  split; [|exact a_configured].
  assert (H : exists m, caching_new part_id 90 1 = Ok m /\ m = mk_caching part_id (2 ^ 32) (2 ^ 63 - 1) 90000000000)
    by (eexists; split; vm_compute; reflexivity).
  destruct H as (m & E & M). exists m. split; [exact E|]. split; [now rewrite M|]. split; [eapply conf_new; exact E|].
  assert (C : configured m) by (eapply conf_new; exact E). rewrite M in C |- *.
  split.
  { eexists. split; [vm_compute; reflexivity|]. split; [|vm_compute; reflexivity]. eapply (conf_msgs _ 5); [exact C|].
    vm_compute; reflexivity. }
  split; [eexists; split; vm_compute; reflexivity|]. split; vm_compute; reflexivity.
Qed.

Lemma sequential_example : (exists c, exec toy_io len_hash locks 10 a_jobs s_hist c)
  /\ overlap_at_most 1 len_hash a_jobs s_hist /\ all_configured a_jobs
  /\ (exists mat ctx id ch, In (mk_ev 0 (XCache (KPutEnc mat 300 1 ctx id)) (RPut (Some 0%nat)) ch) s_hist)
  /\ served s_hist 1 0.
Proof.
  split; [exact s_runs|]. split; [|split; [exact a_configured|split]].
  - assert (B : play_busy toy_io 1 4 s_moves (start len_hash a_jobs) [] (new_cache 10) = true) by (vm_compute; reflexivity).
    destruct (play_busy_sound toy_io len_hash any_env 10 a_jobs 1 4 s_moves (start len_hash a_jobs) [] (new_cache 10) (all_any _)
      (exec_nil _ _ _ _ _) (fun j => follows_nil _) (overlap_nil _ _ _) B) as (pr & h & c & R & O).
    unfold s_hist, s_result. rewrite R. exact O.
  - eexists _, _, _, _. vm_compute. do 3 right. left. reflexivity.
  - exists toy_ctx, a_ctx', a_mat. vm_compute. auto 30.
Qed.

(** Three equal requests, the last of them using up the limits of [a_cmm]; then three decryptions. *)
Definition t_jobs (j : nat) : job :=
  match j with
  | 0%nat | 2%nat => GenJob a_cmm (a_rq 300)
  | 1%nat => GenJob a_cmm (a_rq 400)
  | 3%nat => DecJob a_cmm (mk_dec_request 0x0578 [edk1; edk2] toy_ctx)
  | 4%nat | 5%nat => DecJob b_cmm (mk_dec_request 0x0578 [edk2; edk1] (rev toy_ctx))
  | _ => ClearJob
  end.
Definition t_moves : list move :=
  moves 1 0 10 (RMem None) ++ moves 1 0 11 RUnit ++ moves 1 0 12 (REnc a_ctx (Ok a_mat)) ++ moves 4 0 14 RUnit
  ++ moves 1 1 15 (RMem None) ++ moves 2 1 20 RUnit ++ moves 1 1 30 (RClock (Some 30)) ++ moves 6 1 31 RUnit
  ++ moves 1 2 32 (RMem None) ++ moves 2 2 32 RUnit ++ moves 1 2 33 (RClock (Some 33)) ++ moves 6 2 34 RUnit
  ++ moves 1 3 40 (RMem None) ++ moves 1 3 41 RUnit ++ moves 1 3 42 (RDec (Ok a_dmat)) ++ moves 4 3 43 RUnit
  ++ moves 1 4 50 (RMem None) ++ moves 3 4 51 RUnit ++ moves 1 5 52 (RMem None) ++ moves 3 5 53 RUnit.
Definition t_at (n : nat) := play toy_io (firstn n t_moves) (start len_hash t_jobs) [] (new_cache 10).
Definition t_part (j : nat) : list event := filter (fun e => Nat.eqb (ev_call e) j) (hist_of (t_at 42)).
Definition tt1 : list event := t_part 0.
Definition tt2 : list event := t_part 1.
Definition tt3 : list event := t_part 2.
Definition tt4 : list event := t_part 3.
Definition tt5 : list event := t_part 4.
Definition tt6 : list event := t_part 5.

Lemma t_follows : forall n, match t_at n with
  Some (pr, h, c) => exec toy_io len_hash locks 10 t_jobs h c /\ (forall j, follows (prog_of len_hash (t_jobs j)) (trace j h) (pr j))
  | None => True end.
Proof.
  intros n. unfold t_at. destruct (play _ _ _ _ _) as [[[pr h] c]|] eqn:E; [|exact Logic.I].
  eapply play_sound; [|apply exec_nil| |exact E].
  - assert (H : forallb (fun x : move => ch_lock (snd x)) t_moves = true) by (vm_compute; reflexivity).
    intros x J. rewrite forallb_forall in H. apply H. revert J. clear. revert n.
    induction t_moves as [|y l IH]; intros [|n] J; cbn in *; try contradiction. destruct J as [->|J]; eauto.
  - intros j. apply follows_nil.
Qed.
Lemma t_exec : forall n h, match t_at n with Some (_, h', _) => h' = h | None => False end ->
  exists c, exec toy_io len_hash locks 10 t_jobs h c.
Proof. intros n h H. pose proof (t_follows n) as F. destruct (t_at n) as [[[pr h'] c]|]; [|contradiction]. subst. exists c. apply F. Qed.
Lemma t_returns : forall n h j r, match t_at n with Some (pr, h', _) => h' = h /\ pr j = Ret r | None => False end ->
  returns len_hash t_jobs h j r.
Proof.
  intros n h j r H. pose proof (t_follows n) as F.
  destruct (t_at n) as [[[pr h'] c]|]; [|contradiction]. destruct H as (-> & R). unfold returns. rewrite <- R. apply F.
Qed.
Lemma t_alone : forall j, alone j (t_part j).
Proof. intros j. exact (filter_alone j _). Qed.

Lemma many_enc_example : (exists c, exec toy_io len_hash locks 10 t_jobs ([] ++ tt1 ++ concat [tt2; tt3]) c)
  /\ Forall2 alone [0%nat; 1%nat; 2%nat] [tt1; tt2; tt3] /\ Forall (smooth 10 34) tt1 /\ Forall (Forall (smooth 10 34)) [tt2; tt3]
  /\ returns len_hash t_jobs ([] ++ tt1) 0 (JEnc a_ctx (COk a_mat)) /\ asked_upstream ([] ++ tt1) 0 /\ enc_resumes toy_io a_mat
  /\ 34 < 10 + cm_ttl a_cmm /\ same_enc_request a_cmm a_cmm (a_rq 300) (a_rq 400)
  /\ asked_bytes t_jobs [0%nat; 1%nat; 2%nat] = cm_limit_bytes a_cmm /\ Nlen [0%nat; 1%nat; 2%nat] = cm_limit_msgs a_cmm
  /\ returns len_hash t_jobs ([] ++ tt1 ++ concat [tt2; tt3]) 1 (JEnc a_ctx' (COk a_mat))
  /\ returns len_hash t_jobs ([] ++ tt1 ++ concat [tt2; tt3]) 2 (JEnc a_ctx' (COk a_mat)).
Proof.
  split; [apply (t_exec 27); vm_compute; reflexivity|].
  split; [repeat constructor; apply t_alone|].
  split; [apply smooth_sound; vm_compute; reflexivity|].
  split; [constructor; [|constructor; [|constructor]]; apply smooth_sound; vm_compute; reflexivity|].
  split; [apply (t_returns 7); vm_compute; split; reflexivity|].
  split; [apply asked_b; vm_compute; reflexivity|].
  split. { intros sc E. assert (sc = mk_sigctx [5; 5] []) as -> by (cbn in E; congruence). eexists _, _. split; reflexivity. }
  split; [vm_compute; reflexivity|].
  split; [split; [reflexivity|split; [reflexivity|]]; intros k v; reflexivity|].
  split; [reflexivity|]. split; [reflexivity|].
  split; apply (t_returns 27); vm_compute; split; reflexivity.
Qed.

Lemma many_dec_example : (exists c, exec toy_io len_hash locks 10 t_jobs ((tt1 ++ tt2 ++ tt3) ++ tt4 ++ concat [tt5; tt6]) c)
  /\ Forall2 alone [3%nat; 4%nat; 5%nat] [tt4; tt5; tt6]
  /\ (forall j, In j [3%nat; 4%nat; 5%nat] -> trace j (tt1 ++ tt2 ++ tt3) = [])
  /\ Forall (smooth 40 53) tt4 /\ Forall (Forall (smooth 40 53)) [tt5; tt6]
  /\ returns len_hash t_jobs ((tt1 ++ tt2 ++ tt3) ++ tt4) 3 (JDec (COk a_dmat))
  /\ asked_upstream ((tt1 ++ tt2 ++ tt3) ++ tt4) 3 /\ dec_resumes toy_io a_dmat
  /\ 53 < 40 + cm_ttl a_cmm /\ 53 < 40 + cm_ttl b_cmm
  /\ same_dec_request a_cmm b_cmm (mk_dec_request 0x0578 [edk1; edk2] toy_ctx)
                                  (mk_dec_request 0x0578 [edk2; edk1] (rev toy_ctx))
  /\ returns len_hash t_jobs ((tt1 ++ tt2 ++ tt3) ++ tt4 ++ concat [tt5; tt6]) 4 (JDec (COk a_dmat))
  /\ returns len_hash t_jobs ((tt1 ++ tt2 ++ tt3) ++ tt4 ++ concat [tt5; tt6]) 5 (JDec (COk a_dmat)).
Proof.
  split; [apply (t_exec 42); vm_compute; reflexivity|].
  split; [repeat constructor; apply t_alone|].
  split. { intros j J. repeat (destruct J as [<-|J]; [vm_compute; reflexivity|]). destruct J. }
  split; [apply smooth_sound; vm_compute; reflexivity|].
  split; [constructor; [|constructor; [|constructor]]; apply smooth_sound; vm_compute; reflexivity|].
  split; [apply (t_returns 34); vm_compute; split; reflexivity|].
  split; [apply asked_b; vm_compute; reflexivity|].
  split. { intros sc E. assert (sc = mk_sigctx [6; 6] []) as -> by (cbn in E; congruence). eexists _, _. split; reflexivity. }
  split; [vm_compute; reflexivity|]. split; [vm_compute; reflexivity|]. split; [apply a_same|].
  split; apply (t_returns 42); vm_compute; split; reflexivity.
Qed.
