(** Concrete histories of the materials cache and the caching CMM. *)
From Verif Require Import Base BaseProofs AlgModel EncCtxModel HdrModel CryptoModel SessionModel KeyringModel
  WireSpec CacheModel CacheSpec CachingModel CachingSpec CacheProofs CachingProofs SessionExamples StreamExamples.
From Coq Require Import Permutation PeanoNat.
Import List ListNotations.
Open Scope list_scope. Open Scope N_scope.

(** Playing a list of cache operations; [None] if an operation lacks its handle. *)
Fixpoint play_ops (io : sigio) (l : list (cop * choice)) (h : list (cop * resp)) (c : cache)
  : option (list (cop * resp) * cache) :=
  match l with
  | [] => Some (h, c)
  | (o, ch) :: l' =>
      if match uses o with None => true | Some p => Nat.ltb (released h p) (acquired h p) end
      then match cstep io ch o c with
           | None => None
           | Some (c', r) => play_ops io l' (h ++ [(o, r)]) c'
           end
      else None
  end.

Lemma legal_snoc : forall h o r, legal h -> (forall p, uses o = Some p -> held h p) -> legal (h ++ [(o, r)]).
Proof.
  intros h o r L H h1 o' r' h2 E p U. destruct h2 as [|x h2] using rev_ind.
  - apply app_inj_tail in E. destruct E as (-> & E). injection E as -> ->. auto.
  - clear IHh2. change ((o', r') :: h2 ++ [x]) with (((o', r') :: h2) ++ [x]) in E. rewrite app_assoc in E.
    apply app_inj_tail in E. destruct E as (-> & _). eapply L; eauto.
Qed.

Lemma play_ops_sound : forall io (P : choice -> Prop) c0 l h c h' c', (forall x, In x l -> P (snd x)) ->
  runs io P c0 h c -> legal h -> play_ops io l h c = Some (h', c') -> runs io P c0 h' c' /\ legal h'.
Proof.
  intros io P c0. induction l as [|(o, ch) l IH]; intros h c h' c' HP R L E; cbn [play_ops] in E.
  - injection E as <- <-. auto.
  - destruct (match uses o with None => true | Some p => _ end) eqn:U; [|discriminate].
    destruct (cstep io ch o c) as [[c1 r]|] eqn:S; [|discriminate].
    eapply IH; [| | |exact E].
    + intros x J. apply HP. now right.
    + econstructor; eauto. apply (HP (o, ch)). now left.
    + apply legal_snoc; auto. intros p UP. rewrite UP in U. now apply Nat.ltb_lt in U.
Qed.

(** Playing interleaved calls.  A move: which call, the answer if it is not the cache's, the
    environment. *)
Definition move : Type := nat * resp * choice.
Fixpoint play (io : sigio) (l : list move) (pr : nat -> prog) (h : list event) (c : cache)
  : option ((nat -> prog) * list event * cache) :=
  match l with
  | [] => Some (pr, h, c)
  | (j, a, ch) :: l' =>
      match pr j with
      | Ret _ => None
      | Do o k =>
          match (match o with
                 | XCache o => cstep io ch o c
                 | XClock => match a with RClock _ => Some (c, a) | _ => None end
                 | XMem => match a with RMem _ => Some (c, a) | _ => None end
                 | XUpEnc _ => match a with REnc _ _ => Some (c, a) | _ => None end
                 | XUpDec _ => match a with RDec _ => Some (c, a) | _ => None end
                 end) with
          | None => None
          | Some (c', r) => play io l' (upd pr j (k r)) (h ++ [mk_ev j o r ch]) c'
          end
      end
  end.

Lemma play_sound : forall io sha (P : choice -> Prop) cap jobs l pr h c pr' h' c', (forall x, In x l -> P (snd x)) ->
  exec io sha P cap jobs h c -> (forall j, follows (prog_of sha (jobs j)) (trace j h) (pr j)) ->
  play io l pr h c = Some (pr', h', c') ->
  exec io sha P cap jobs h' c' /\ forall j, follows (prog_of sha (jobs j)) (trace j h') (pr' j).
Proof.
  intros io sha P cap jobs. induction l as [|((j, a), ch) l IH]; intros pr h c pr' h' c' HP E FO R; cbn [play] in R.
  - injection R as <- <- <-. auto.
  - destruct (pr j) as [|o k] eqn:PJ; [discriminate|].
    set (A := match o with XCache _ => _ | _ => _ end) in R.
    destruct A as [[c1 r]|] eqn:EA; [|discriminate]. unfold A in EA. clear A.
    assert (AN : answers io ch o c c1 r).
    { destruct o; cbn [answers]; auto; destruct a; try discriminate; injection EA as <- <-; eauto. }
    assert (FJ : follows (prog_of sha (jobs j)) (trace j h) (Do o k)) by (rewrite <- PJ; apply FO).
    eapply IH; [| | |exact R].
    + intros x J. apply HP. now right.
    + econstructor; eauto. apply (HP ((j, a), ch)). now left.
    + intros i. unfold upd. destruct (Nat.eqb_spec i j) as [->|NE].
      * rewrite trace_snoc_same. now constructor.
      * rewrite trace_snoc_other by auto. apply FO.
Qed.

Definition start (sha : list N -> list N) (jobs : nat -> job) : nat -> prog := fun j => prog_of sha (jobs j).
Lemma play_exec : forall io sha (P : choice -> Prop) cap jobs l pr h c, (forall x, In x l -> P (snd x)) ->
  play io l (start sha jobs) [] (new_cache cap) = Some (pr, h, c) ->
  exec io sha P cap jobs h c /\ forall j, follows (prog_of sha (jobs j)) (trace j h) (pr j).
Proof.
  intros. eapply play_sound; eauto; [constructor|]. intros j. constructor.
Qed.

(** An environment in which nothing fails and the time is [t]. *)
Definition env_at (t : N) : choice := mk_choice true (Some t) (Some t) true true true None.
Definition lock_fails : choice := mk_choice false (Some 0) (Some 0) true true true None.

(** Signature keys: the key is the context's private part. *)
Definition toy_io : sigio := mk_sigio
  (fun sc => Ok (sc_key sc)) (fun _ k => Ok (Some (mk_sigctx k [])))
  (fun sc => Ok (sc_key sc)) (fun _ k => Ok (Some (mk_sigctx k []))).

(** A 64-byte "hash" without collisions among strings of different lengths below 256. *)
Definition len_hash (x : list N) : list N := repeat (Nlen x mod 256) 64.

Definition ok {A} (x : option A) : bool := match x with Some _ => true | None => false end.
Definition any_env (_ : choice) : Prop := True.
Definition hist_of (r : option ((nat -> prog) * list event * cache)) : list event :=
  match r with Some (_, h, _) => h | None => [] end.
Definition progs_of (r : option ((nat -> prog) * list event * cache)) : nat -> prog :=
  match r with Some (pr, _, _) => pr | None => fun _ => Ret JStuck end.
Lemma result_exec : forall io sha (P : choice -> Prop) cap jobs l, (forall x, In x l -> P (snd x)) ->
  let r := play io l (start sha jobs) [] (new_cache cap) in ok r = true ->
  (exists c, exec io sha P cap jobs (hist_of r) c)
  /\ forall j, follows (prog_of sha (jobs j)) (trace j (hist_of r)) (progs_of r j).
Proof.
  intros io sha P cap jobs l HP. cbv zeta. destruct (play io l (start sha jobs) [] (new_cache cap)) as [[[pr h] c]|] eqn:R; [|discriminate].
  intros _. destruct (play_exec _ _ _ _ _ _ _ _ _ HP R) as (E & F). cbn [hist_of progs_of]. eauto.
Qed.
Definition ohist_of (r : option (list (cop * resp) * cache)) : list (cop * resp) :=
  match r with Some (h, _) => h | None => [] end.
Definition ocache_of (r : option (list (cop * resp) * cache)) : cache :=
  match r with Some (_, c) => c | None => new_cache 0 end.
Lemma legal_nil : legal [].
Proof. intros h1 o r h2 E. destruct h1; discriminate. Qed.
Lemma result_runs : forall io cap l, let r := play_ops io l [] (new_cache cap) in ok r = true ->
  runs io any_env (new_cache cap) (ohist_of r) (ocache_of r) /\ legal (ohist_of r).
Proof.
  intros io cap l. cbv zeta. destruct (play_ops io l [] (new_cache cap)) as [[h c]|] eqn:R; [|discriminate].
  intros _. eapply play_ops_sound; [|constructor|exact legal_nil|exact R]. intros; exact Logic.I.
Qed.

(** ** Two calls for the same request, the second served from the cache; two decryptions that differ
    in the order of the EDKs. *)
Definition part_id : list N := repeat 7 64.
Definition a_cmm : caching := mk_caching part_id 3 1000 100.
Definition b_cmm : caching := mk_caching part_id 5 1200 UINT64_MAX.
Definition a_rq (n : N) : enc_request := mk_enc_request toy_ctx 0x0578 n CP_REQUIRE_REQUIRE.
Definition a_ctx : enc_ctx := ([112; 107], [42]) :: toy_ctx.
Definition a_mat : enc_mat := mk_enc_mat (repeat 3 32) [] [toy_edk] (Some (mk_sigctx [5; 5] [])) 0x0578.
Definition edk1 : edk := mk_edk [1] [2] [3; 4].
Definition edk2 : edk := mk_edk [1] [2] [3; 4; 5; 6].
Definition a_dmat : dec_mat := mk_dec_mat (repeat 3 32) [] (Some (mk_sigctx [6; 6] [])) 0x0578.
Definition a_jobs (j : nat) : job :=
  match j with
  | 0%nat => GenJob a_cmm (a_rq 300)
  | 1%nat => GenJob a_cmm (a_rq 400)
  | 2%nat => DecJob a_cmm (mk_dec_request 0x0578 [edk1; edk2] toy_ctx)
  | 3%nat => DecJob b_cmm (mk_dec_request 0x0578 [edk2; edk1] (rev toy_ctx))
  | 4%nat => GenJob b_cmm (a_rq 300)
  | 5%nat => GenJob a_cmm (a_rq 1)
  | _ => ClearJob
  end.
(** [n] moves of call [j] at time [t], with answer [a] to whatever is not asked of the cache. *)
Definition moves (n : nat) (j : nat) (t : N) (a : resp) : list move := repeat (j, a, env_at t) n.
Definition a_moves : list move :=
  moves 1 0 10 (RMem None) ++ moves 1 2 10 (RMem None) ++ moves 1 0 10 RUnit ++ moves 1 2 11 RUnit
  ++ moves 1 0 12 (REnc a_ctx (Ok a_mat)) ++ moves 1 2 13 (RDec (Ok a_dmat)) ++ moves 4 0 14 RUnit
  ++ moves 1 1 15 (RMem None) ++ moves 4 2 16 RUnit ++ moves 1 4 17 (RMem None) ++ moves 2 1 20 RUnit
  ++ moves 1 4 20 RUnit ++ moves 1 1 30 (RClock (Some 30)) ++ moves 1 4 31 RUnit ++ moves 6 1 31 RUnit ++ moves 4 4 32 RUnit
  ++ moves 1 3 33 (RMem None) ++ moves 3 3 33 RUnit.
Definition a_result := play toy_io a_moves (start len_hash a_jobs) [] (new_cache 10).
Definition a_hist : list event := hist_of a_result.
Definition a_progs : nat -> prog := progs_of a_result.

Lemma all_any : forall (l : list move) x, In x l -> any_env (snd x).
Proof. intros. exact Logic.I. Qed.
Lemma a_locks : forall x, In x a_moves -> locks (snd x).
Proof.
  assert (H : forallb (fun x : move => ch_lock (snd x)) a_moves = true) by (vm_compute; reflexivity).
  intros x J. rewrite forallb_forall in H. exact (H x J).
Qed.
Lemma a_runs : exists c, exec toy_io len_hash locks 10 a_jobs a_hist c
  /\ forall j, follows (prog_of len_hash (a_jobs j)) (trace j a_hist) (a_progs j).
Proof.
  destruct (result_exec toy_io len_hash locks 10 a_jobs a_moves a_locks) as ((c & E) & F); [vm_compute; reflexivity|].
  exists c. split; [exact E|exact F].
Qed.

Ltac ndup := repeat constructor; cbn; intuition discriminate.
Lemma toy_ctx_table : distinct_keys toy_ctx. Proof. unfold distinct_keys. ndup. Qed.
Lemma toy_ctx_table' : distinct_keys (rev toy_ctx). Proof. unfold distinct_keys. ndup. Qed.
Lemma upstream_tables : forall h,
  Forall (fun e => match ev_op e, ev_resp e with XUpEnc _, REnc ctx _ => distinct_keys ctx | _, _ => True end) h ->
  forall j rq ctx r, In (XUpEnc rq, REnc ctx r) (trace j h) -> distinct_keys ctx.
Proof.
  intros h H j rq ctx r J. apply in_trace in J. destruct J as (ch & J). rewrite Forall_forall in H. exact (H _ J).
Qed.
Lemma a_tables : tables a_jobs a_hist.
Proof.
  split; [|split].
  - intros j m rq E. do 6 (destruct j as [|j]; [first [discriminate E | injection E as <- <-; exact toy_ctx_table]|]). discriminate.
  - intros j m rq E.
    do 6 (destruct j as [|j]; [first [discriminate E | injection E as <- <-; exact toy_ctx_table | injection E as <- <-; exact toy_ctx_table']|]).
    discriminate.
  - apply upstream_tables. vm_compute. repeat constructor; cbn; intuition discriminate.
Qed.
Lemma a_typed : typed a_jobs.
Proof.
  split; intros j m rq E;
  do 6 (destruct j as [|j]; [first [discriminate E | injection E as <- <-; vm_compute; auto]|]); discriminate.
Qed.

(** Checking [good_hash] by computation. *)
Definition good_on (sha : list N -> list N) (l : list (list N)) : bool :=
  forallb (fun x => Nat.eqb (length (sha x)) 64 &&
    forallb (fun y => implb (bytes_eqb (sha x) (sha y)) (bytes_eqb x y)) l) l.
Lemma good_on_sound : forall sha l l', good_on sha l = true -> (forall x, In x l' -> In x l) -> good_hash sha l'.
Proof.
  intros sha l l' H I. unfold good_on in H. rewrite forallb_forall in H. split.
  - intros x J. specialize (H x (I x J)). apply Bool.andb_true_iff in H. now apply Nat.eqb_eq.
  - intros x y Jx Jy E. specialize (H x (I x Jx)). apply Bool.andb_true_iff in H. destruct H as (_ & H).
    rewrite forallb_forall in H. specialize (H y (I y Jy)).
    assert (B : bytes_eqb (sha x) (sha y) = true) by (apply bytes_eqb_spec; exact E). rewrite B in H. now apply bytes_eqb_spec.
Qed.
Definition a_hashed : list (list N) := flat_map (fun j => hashed_by len_hash (a_jobs j)) (seq 0 6).
Lemma a_no_collision : no_collision len_hash a_jobs.
Proof.
  assert (G : good_on len_hash a_hashed = true) by (vm_compute; reflexivity).
  assert (I : forall j x, In x (hashed_by len_hash (a_jobs j)) -> In x a_hashed).
  { intros j x J. unfold a_hashed. apply in_flat_map.
    do 6 (destruct j as [|j]; [eexists; split; [|exact J]; cbn; auto 10|]). contradiction J. }
  intros j1 j2. apply (good_on_sound _ a_hashed); [exact G|].
  intros x J. apply in_app_or in J. destruct J; eauto.
Qed.

(** Never more calls in progress than there are calls. *)
Lemma overlap_calls : forall n sha jobs h, forallb (fun e => Nat.ltb (ev_call e) n) h = true ->
  overlap_at_most n sha jobs h.
Proof.
  intros n sha jobs h F h1 h2 l E ND IP. rewrite forallb_forall in F.
  rewrite <- (seq_length n 0). apply NoDup_incl_length; [exact ND|]. intros j J. apply in_seq.
  destruct (IP j J) as (T & _). destruct (trace j h1) as [|[o r] t] eqn:ET; [contradiction|].
  assert (JT : In (o, r) (trace j h1)) by (rewrite ET; now left).
  apply in_trace in JT. destruct JT as (ch & JT).
  specialize (F (mk_ev j o r ch)). rewrite E in F. specialize (F (in_or_app _ _ _ (or_introl JT))).
  apply Nat.ltb_lt in F. cbn in F. split; [apply Nat.le_0_l|exact F].
Qed.
Lemma a_overlap : overlap_at_most 5 len_hash a_jobs a_hist.
Proof. apply overlap_calls. vm_compute. reflexivity. Qed.
Lemma a_limits : within_limits a_jobs 1200 5.
Proof.
  intros j m rq E. do 6 (destruct j as [|j]; [first [discriminate E | injection E as <- <-; vm_compute; split; discriminate]|]). discriminate.
Qed.

(** The cached context is copied into the request's table. *)
Definition a_ctx' : enc_ctx := toy_ctx ++ [([112; 107], [42])].
Lemma a_answers : a_progs 0 = Ret (JEnc a_ctx (COk a_mat)) /\ a_progs 1 = Ret (JEnc a_ctx' (COk a_mat))
  /\ a_progs 2 = Ret (JDec (COk a_dmat)) /\ a_progs 3 = Ret (JDec (COk a_dmat)) /\ a_progs 4 = Ret (JEnc a_ctx' (COk a_mat)).
Proof. vm_compute. repeat split. Qed.
Lemma a_served1 : served a_hist 1 0.
Proof. exists toy_ctx, a_ctx', a_mat. vm_compute. auto 20. Qed.
Lemma a_served4 : served a_hist 4 0.
Proof. exists toy_ctx, a_ctx', a_mat. vm_compute. auto 20. Qed.
Lemma a_served3 : served_dec a_hist 3 1.
Proof. exists a_dmat. vm_compute. auto 20. Qed.
Lemma a_put : exists id ch, In (mk_ev 0 (XCache (KPutEnc a_mat 300 1 a_ctx id)) (RPut (Some 0%nat)) ch) a_hist.
Proof. do 2 eexists. vm_compute. do 6 right. left. reflexivity. Qed.

(** ** Usage counters that wrap: two concurrent calls of the largest allowed size. *)
Definition w_cmm : caching := mk_caching part_id MAX_LIMIT_MESSAGES INT64_MAX UINT64_MAX.
Definition w_jobs (j : nat) : job :=
  match j with 0%nat => GenJob w_cmm (a_rq 10) | 1%nat | 2%nat => GenJob w_cmm (a_rq INT64_MAX) | _ => ClearJob end.
Definition w_start : list move :=
  moves 1 0 10 (RMem None) ++ moves 1 0 10 RUnit ++ moves 1 0 10 (REnc a_ctx (Ok a_mat)) ++ moves 2 0 10 RUnit.
Definition w_moves : list move :=
  w_start ++ moves 1 1 11 (RMem None) ++ moves 1 2 11 (RMem None) ++ moves 2 1 11 RUnit ++ moves 2 2 11 RUnit
  ++ moves 1 1 11 RUnit ++ moves 4 2 11 RUnit.
Definition w_result := play toy_io w_moves (start len_hash w_jobs) [] (new_cache 10).
Definition w_hist : list event := hist_of w_result.
Lemma w_runs : exists c, exec toy_io len_hash locks 10 w_jobs w_hist c.
Proof.
  refine (proj1 (result_exec toy_io len_hash locks 10 w_jobs w_moves _ _)); [|vm_compute; reflexivity].
  assert (H : forallb (fun x : move => ch_lock (snd x)) w_moves = true) by (vm_compute; reflexivity).
  intros x J. rewrite forallb_forall in H. exact (H x J).
Qed.
Lemma w_served : served w_hist 2 0.
Proof. exists toy_ctx, a_ctx', a_mat. vm_compute. auto 20. Qed.

(** ** One call at a time, but locking the mutex fails when the used-up entry should be removed. *)
Definition v_moves : list move :=
  w_start ++ moves 1 1 11 (RMem None) ++ moves 4 1 11 RUnit ++ [(1%nat, RUnit, lock_fails)]
  ++ moves 1 1 11 (REnc [] (Err E_KMS_FAILURE)) ++ moves 1 2 12 (RMem None) ++ moves 6 2 12 RUnit.
Definition v_result := play toy_io v_moves (start len_hash w_jobs) [] (new_cache 10).
Definition v_hist : list event := hist_of v_result.
Lemma v_runs : exists c, exec toy_io len_hash any_env 10 w_jobs v_hist c.
Proof. refine (proj1 (result_exec toy_io len_hash any_env 10 w_jobs v_moves (all_any _) _)). vm_compute. reflexivity. Qed.
Lemma v_served : served v_hist 2 0.
Proof. exists toy_ctx, a_ctx', a_mat. vm_compute. auto 30. Qed.
Lemma w_put : exists id ch, In (mk_ev 0 (XCache (KPutEnc a_mat 10 1 a_ctx id)) (RPut (Some 0%nat)) ch) w_hist.
Proof. do 2 eexists. vm_compute. do 3 right. left. reflexivity. Qed.
Lemma v_put : exists id ch, In (mk_ev 0 (XCache (KPutEnc a_mat 10 1 a_ctx id)) (RPut (Some 0%nat)) ch) v_hist.
Proof. do 2 eexists. vm_compute. do 3 right. left. reflexivity. Qed.

(** Checking, along the way, how many of the first [n] calls are in progress. *)
Definition busy (n : nat) (pr : nat -> prog) (h : list event) : nat :=
  length (filter (fun j => match trace j h, pr j with _ :: _, Do _ _ => true | _, _ => false end) (seq 0 n)).
Fixpoint play_busy (io : sigio) (K n : nat) (l : list move) (pr : nat -> prog) (h : list event) (c : cache) : bool :=
  (Nat.leb (busy n pr h) K && forallb (fun e => Nat.ltb (ev_call e) n) h &&
  match l with
  | [] => true
  | x :: l' => match play io [x] pr h c with Some (pr', h', c') => play_busy io K n l' pr' h' c' | None => false end
  end)%bool.

Lemma overlap_snoc : forall K sha jobs h e, overlap_at_most K sha jobs h ->
  (forall l, NoDup l -> (forall j, In j l -> in_progress sha jobs (h ++ [e]) j) -> (length l <= K)%nat) ->
  overlap_at_most K sha jobs (h ++ [e]).
Proof.
  intros K sha jobs h e O H h1 h2 l E ND IP. destruct h2 as [|x h2] using rev_ind.
  - rewrite app_nil_r in E. subst h1. auto.
  - rewrite app_assoc in E. apply app_inj_tail in E. destruct E as (E & _). eapply O; eauto.
Qed.
Lemma busy_bound : forall n sha jobs pr h, (forall j, follows (prog_of sha (jobs j)) (trace j h) (pr j)) ->
  forallb (fun e => Nat.ltb (ev_call e) n) h = true ->
  forall l, NoDup l -> (forall j, In j l -> in_progress sha jobs h j) -> (length l <= busy n pr h)%nat.
Proof.
  intros n sha jobs pr h FO F l ND IP. unfold busy. apply NoDup_incl_length; [exact ND|].
  intros j J. destruct (IP j J) as (T & o & k & FD). apply filter_In. split.
  - apply in_seq. destruct (trace j h) as [|[o1 r1] t] eqn:ET; [contradiction|].
    assert (JT : In (o1, r1) (trace j h)) by (rewrite ET; now left).
    apply in_trace in JT. destruct JT as (ch & JT). rewrite forallb_forall in F.
    specialize (F _ JT). apply Nat.ltb_lt in F. cbn in F. split; [apply Nat.le_0_l|exact F].
  - rewrite (follows_fun _ _ _ (FO j) _ FD). destruct (trace j h); [contradiction|reflexivity].
Qed.
Lemma play_busy_sound : forall io sha (P : choice -> Prop) cap jobs K n l pr h c,
  (forall x, In x l -> P (snd x)) -> exec io sha P cap jobs h c ->
  (forall j, follows (prog_of sha (jobs j)) (trace j h) (pr j)) -> overlap_at_most K sha jobs h ->
  play_busy io K n l pr h c = true ->
  exists pr' h' c', play io l pr h c = Some (pr', h', c') /\ overlap_at_most K sha jobs h'.
Proof.
  intros io sha P cap jobs K n. induction l as [|x l IH]; intros pr h c HP E FO O B.
  - cbn. eauto.
  - cbn [play_busy] in B. apply Bool.andb_true_iff in B. destruct B as (_ & B).
    destruct (play io (@cons move x []) pr h c) as [[[pr1 h1] c1]|] eqn:S; [|discriminate].
    assert (HPx : forall y, In y [x] -> P (snd y)) by (intros y [<-|[]]; apply HP; now left).
    destruct (play_sound _ _ _ _ _ _ _ _ _ _ _ _ HPx E FO S) as (E1 & FO1).
    assert (O1 : overlap_at_most K sha jobs h1).
    { assert (EH : exists e, h1 = h ++ [e]).
      { destruct x as ((j, a), ch). cbn [play] in S. destruct (pr j) as [|o k]; [discriminate|].
        set (A := match o with XCache _ => _ | _ => _ end) in S. destruct A as [[c2 r]|]; [|discriminate].
        injection S as _ <- _. eauto. }
      destruct EH as (e & ->). apply overlap_snoc; [exact O|]. intros l0 ND IP.
      destruct l as [|y l]; cbn [play_busy] in B; apply Bool.andb_true_iff in B; destruct B as (B & _);
        apply Bool.andb_true_iff in B; destruct B as (B1 & B2); apply Nat.leb_le in B1;
        (eapply Nat.le_trans; [|exact B1]); apply (busy_bound n sha jobs); auto. }
    assert (HPl : forall y, In y l -> P (snd y)) by (intros y J; apply HP; now right).
    destruct (IH _ _ _ HPl E1 FO1 O1 B) as (pr' & h' & c' & S' & O').
    exists pr', h', c'. split; [|exact O'].
    clear -S S'. destruct x as ((j, a), ch). cbn [play] in *. destruct (pr j) as [|o k]; [discriminate|].
    set (A := match o with XCache _ => _ | _ => _ end) in *. destruct A as [[c2 r]|]; [|discriminate].
    injection S as -> -> ->. exact S'.
Qed.
Lemma overlap_nil : forall K sha jobs, overlap_at_most K sha jobs [].
Proof.
  intros K sha jobs h1 h2 l E ND IP. destruct h1; [|discriminate]. destruct l as [|j l]; [apply Nat.le_0_l|].
  destruct (IP j (or_introl eq_refl)) as (T & _). now contradiction T.
Qed.
Lemma v_overlap : overlap_at_most 1 len_hash w_jobs v_hist.
Proof.
  assert (B : play_busy toy_io 1 3 v_moves (start len_hash w_jobs) [] (new_cache 10) = true) by (vm_compute; reflexivity).
  destruct (play_busy_sound toy_io len_hash any_env 10 w_jobs 1 3 v_moves (start len_hash w_jobs) [] (new_cache 10) (all_any _)
    (exec_nil _ _ _ _ _) (fun j => follows_nil _) (overlap_nil _ _ _) B) as (pr & h & c & R & O).
  unfold v_hist, v_result. rewrite R. exact O.
Qed.
Lemma w_overlap : overlap_at_most 2 len_hash w_jobs w_hist.
Proof.
  assert (B : play_busy toy_io 2 3 w_moves (start len_hash w_jobs) [] (new_cache 10) = true) by (vm_compute; reflexivity).
  destruct (play_busy_sound toy_io len_hash any_env 10 w_jobs 2 3 w_moves (start len_hash w_jobs) [] (new_cache 10) (all_any _)
    (exec_nil _ _ _ _ _) (fun j => follows_nil _) (overlap_nil _ _ _) B) as (pr & h & c & R & O).
  unfold w_hist, w_result. rewrite R. exact O.
Qed.

(** ** A suite without key derivation, cached and served. *)
Definition n_rq : enc_request := mk_enc_request toy_ctx ALG_AES128_NO_KDF 5 CP_FORBID_ALLOW.
Definition n_mat : enc_mat := mk_enc_mat (repeat 3 16) [] [toy_edk] None ALG_AES128_NO_KDF.
Definition n_jobs (j : nat) : job := match j with 0%nat | 1%nat => GenJob w_cmm n_rq | _ => ClearJob end.
Definition n_moves : list move :=
  moves 1 0 10 (RMem None) ++ moves 1 0 10 RUnit ++ moves 1 0 10 (REnc toy_ctx (Ok n_mat)) ++ moves 2 0 10 RUnit
  ++ moves 1 1 11 (RMem None) ++ moves 6 1 11 RUnit.
Definition n_result := play toy_io n_moves (start len_hash n_jobs) [] (new_cache 10).
Definition n_hist : list event := hist_of n_result.
Lemma n_runs : exists c, exec toy_io len_hash any_env 10 n_jobs n_hist c.
Proof. refine (proj1 (result_exec toy_io len_hash any_env 10 n_jobs n_moves (all_any _) _)). vm_compute. reflexivity. Qed.
Lemma n_served : In (XCache (KGetEnc 0 toy_ctx), REnc toy_ctx (Ok n_mat)) (trace 1 n_hist).
Proof. vm_compute. auto 20. Qed.

(** ** A signing key that cannot be reloaded: the cached public key is left in the context passed on
    to the upstream CMM. *)
Definition f_io : sigio := mk_sigio (si_priv toy_io) (fun _ _ => Err E_CRYPTO_UNKNOWN) (si_pub toy_io) (si_verify toy_io).
Definition f_ctx : enc_ctx := (EC_PUBLIC_KEY_FIELD, [42]) :: toy_ctx.
Definition f_moves : list move :=
  moves 1 0 10 (RMem None) ++ moves 1 0 10 RUnit ++ moves 1 0 10 (REnc f_ctx (Ok a_mat)) ++ moves 4 0 10 RUnit
  ++ moves 1 1 11 (RMem None) ++ moves 2 1 11 RUnit ++ moves 1 1 11 (RClock (Some 11)) ++ moves 6 1 11 RUnit
  ++ moves 1 1 11 (REnc (toy_ctx ++ [(EC_PUBLIC_KEY_FIELD, [42])]) (Err E_RESERVED_NAME)).
Definition f_result := play f_io f_moves (start len_hash a_jobs) [] (new_cache 10).
Definition f_hist : list event := hist_of f_result.
Definition f_progs : nat -> prog := progs_of f_result.
Lemma f_runs : exists c, exec f_io len_hash any_env 10 a_jobs f_hist c
  /\ forall j, follows (prog_of len_hash (a_jobs j)) (trace j f_hist) (f_progs j).
Proof.
  destruct (result_exec f_io len_hash any_env 10 a_jobs f_moves (all_any _)) as ((c & E) & F); [vm_compute; reflexivity|].
  exists c. split; [exact E|exact F].
Qed.
Definition f_rq : enc_request := mk_enc_request (toy_ctx ++ [(EC_PUBLIC_KEY_FIELD, [42])]) 0x0578 400 CP_REQUIRE_REQUIRE.
Lemma f_asked : In (XUpEnc f_rq, REnc (rq_ctx f_rq) (Err E_RESERVED_NAME)) (trace 1 f_hist).
Proof. vm_compute. auto 20. Qed.

(** ** Cache histories *)
Definition put_at_time (t : N) (k : N) : cop * choice := (KPutEnc a_mat 1 1 toy_ctx [k], env_at t).
(** Nine entries expire at the same time. *)
Definition nine : list N := [0; 1; 2; 3; 4; 5; 6; 7; 8].
Definition e_ops : list (cop * choice) :=
  map (put_at_time 1) nine ++ map (fun k => (KHint (N.to_nat k) 5, env_at 2)) nine.
Definition e_result := play_ops toy_io e_ops [] (new_cache 100).
Definition e_hist : list (cop * resp) := ohist_of e_result.
Definition e_cache : cache := ocache_of e_result.
Lemma e_runs : runs toy_io any_env (new_cache 100) e_hist e_cache /\ legal e_hist.
Proof. refine (result_runs toy_io 100 e_ops _). vm_compute. reflexivity. Qed.

(** A busy history: capacity 2, three puts (one evicted while held), a find, a hint, expiry, an
    invalidating release. *)
Definition b_ops : list (cop * choice) :=
  [put_at_time 1 0; put_at_time 2 1; (KRelease 0 false, env_at 3); (KFind [0], env_at 4); put_at_time 5 2;
   (KRelease 1 false, env_at 6); (KHint 0 8, env_at 7); (KFind [2], env_at 9); (KRelease 2 true, env_at 9)].
Definition b_result := play_ops toy_io b_ops [] (new_cache 2).
Definition b_hist : list (cop * resp) := ohist_of b_result.
Definition b_cache : cache := ocache_of b_result.
Lemma b_runs : runs toy_io any_env (new_cache 2) b_hist b_cache /\ legal b_hist.
Proof. refine (result_runs toy_io 2 b_ops _). vm_compute. reflexivity. Qed.

(** The same history up to the put that evicts. *)
Definition l_ops : list (cop * choice) := firstn 4 b_ops.
Definition l_result := play_ops toy_io l_ops [] (new_cache 2).
Definition l_hist : list (cop * resp) := ohist_of l_result.
Definition l_cache : cache := ocache_of l_result.
Lemma l_runs : runs toy_io any_env (new_cache 2) l_hist l_cache /\ legal l_hist.
Proof. refine (result_runs toy_io 2 l_ops _). vm_compute. reflexivity. Qed.

(** ** A cache whose mutex cannot be locked. *)
Definition g_moves : list move := map (fun a => (0%nat, a, lock_fails)) [RMem None; RUnit; REnc a_ctx (Ok a_mat); RUnit].
Definition g_result := play toy_io g_moves (start len_hash a_jobs) [] (new_cache 10).
Definition g_hist : list event := hist_of g_result.
Lemma g_runs : (exists c, exec toy_io len_hash (fun ch => ch_lock ch = false) 10 a_jobs g_hist c)
  /\ returns len_hash a_jobs g_hist 0 (JEnc a_ctx (COk a_mat)).
Proof.
  destruct (result_exec toy_io len_hash (fun ch => ch_lock ch = false) 10 a_jobs g_moves) as (E & F).
  - intros x J. repeat (destruct J as [<-|J]; [reflexivity|]). destruct J.
  - vm_compute. reflexivity.
  - split; [exact E|]. pose proof (F 0%nat) as G.
    assert (R : progs_of g_result 0 = Ret (JEnc a_ctx (COk a_mat))) by (vm_compute; reflexivity).
    unfold returns. rewrite <- R. exact G.
Qed.
