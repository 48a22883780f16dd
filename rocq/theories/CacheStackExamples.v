(** Example data for C76: one writer and one reader, each behind a cache of its own. *)
From Verif Require Import Base BaseProofs AlgModel EncCtxModel HdrModel FrameModel CryptoModel KeyringModel WireSpec KeyringSpec
  CacheModel CacheSpec CachingModel CachingSpec CacheProofs CachingProofs CacheExamples.
From Verif Require Import SessionModel SessionSpec SuiteSpec StreamSpec LiveSpec StackSpec SessionTheorems SessionExamples StreamExamples LiveExamples
  KeyringExamples StackTheorems StackKeyrings StackExamples CacheStackSpec CacheStackProofs.
From Coq Require Import Permutation.
Import List.
Open Scope list_scope.
Open Scope N_scope.

(** A 64-byte "hash". *)
Definition k_hash (x : list N) : list N := repeat (fold_left (fun a y => (a * 1000003 + y + 1) mod 2305843009213693951) x 7) 64.
Definition k_ctx : enc_ctx := [([98], [1])].
Definition k_conf : list op := [OSetFrame 4; OCtx k_ctx; OSetSize 0 10].

(** The writer: call 0 encrypts another message and fills the cache, call 1 is served from it. *)
Definition k_cmm : caching := mk_caching part_id 3 1000 100.
Definition k_rq0 : enc_request := mk_enc_request k_ctx 0 300 CP_REQUIRE_REQUIRE.
Definition k_rq : enc_request := mk_enc_request k_ctx 0 10 CP_REQUIRE_REQUIRE.
Definition k_jobs (j : nat) : job := match j with 0%nat => GenJob k_cmm k_rq0 | 1%nat => GenJob k_cmm k_rq | _ => ClearJob end.
Definition k_up : enc_ctx * res enc_mat := Eval vm_compute in e_gen st_e k_rq0.
Definition k_moves : list move :=
  moves 1 0 10 (RMem None) ++ moves 1 0 10 RUnit ++ moves 1 0 12 (REnc (fst k_up) (snd k_up)) ++ moves 4 0 14 RUnit
  ++ moves 1 1 15 (RMem None) ++ moves 2 1 20 RUnit ++ moves 1 1 30 (RClock (Some 30)) ++ moves 6 1 31 RUnit.
Definition k_result := play toy_io k_moves (start k_hash k_jobs) [] (new_cache 10).
Definition k_hist : list CachingSpec.event := hist_of k_result.
Definition enc_of (p : prog) : enc_ctx * res enc_mat := match p with Ret (JEnc ctx (COk em)) => (ctx, Ok em) | _ => ([], Err E_STALE) end.
Definition dec_of (p : prog) : res dec_mat := match p with Ret (JDec (COk dm)) => Ok dm | _ => Err E_STALE end.
Definition mat_of (r : res enc_mat) : enc_mat := match r with Ok em => em | Err _ => mk_enc_mat [] [] [] None 0 end.
Definition k_gen : enc_ctx * res enc_mat := Eval vm_compute in enc_of (progs_of k_result 1).
Definition k_mat : enc_mat := Eval vm_compute in mat_of (snd k_gen).

(** The reader: call 0 opens the message with the keys in another order, calls 1 and 2 are served from the cache, for both
    orders of the context. *)
Definition k_sctx : enc_ctx := Eval vm_compute in fst k_gen.
Definition k_drq (f : list edk -> list edk) (c : enc_ctx) : dec_request := mk_dec_request 0x0578 (f (em_edks k_mat)) c.
Definition k_djobs (j : nat) : job :=
  match j with
  | 0%nat => DecJob k_cmm (k_drq (@rev edk) k_sctx)
  | 1%nat => DecJob k_cmm (k_drq (fun l => l) k_sctx)
  | 2%nat => DecJob k_cmm (k_drq (fun l => l) (rev k_sctx))
  | _ => ClearJob
  end.
Definition k_dup : res dec_mat := Eval vm_compute in e_dec st_e (k_drq (@rev edk) k_sctx).
Definition k_dmoves : list move :=
  moves 1 0 10 (RMem None) ++ moves 1 0 11 RUnit ++ moves 1 0 12 (RDec k_dup) ++ moves 4 0 13 RUnit
  ++ moves 1 1 20 (RMem None) ++ moves 2 1 20 RUnit ++ moves 1 1 20 (RClock (Some 20)) ++ moves 3 1 20 RUnit
  ++ moves 1 2 30 (RMem None) ++ moves 2 2 30 RUnit ++ moves 1 2 30 (RClock (Some 30)) ++ moves 3 2 30 RUnit.
Definition k_dresult := play toy_io k_dmoves (start k_hash k_djobs) [] (new_cache 10).
Definition k_dhist : list CachingSpec.event := hist_of k_dresult.
Definition k_dec : res dec_mat := Eval vm_compute in dec_of (progs_of k_dresult 1).

Definition rq_eq_dec (a b : enc_request) : {a = b} + {a <> b}.
Proof. repeat (decide equality; try apply N.eq_dec). Defined.

(** The sessions' environments. *)
Definition k_env : env := mk_env false false (fun rq => if rq_eq_dec rq k_rq then k_gen else ([], Err E_STALE)) (fun _ => k_dec)
  (e_rand st_e) (e_sign st_e) 0.
Definition k_writers (ec : ecdsa) (ke : keyring) : Prop := ec = st_ec /\ ke = st_write.
Definition k_readers (kd : keyring) : Prop := kd = st_read.

Definition jenc (r : enc_ctx * res enc_mat) : jres := match snd r with Ok m => JEnc (fst r) (COk m) | Err x => JEnc (fst r) (CErr x) end.
Definition jdec (r : res dec_mat) : cres dec_mat := match r with Ok x => COk x | Err x => CErr x end.

Lemma k_same_keys : same_keys toy_io.
Proof. split; intros alg sc k x E1 E2; cbn in E1, E2; injection E1 as <-; now injection E2 as <-. Qed.

Lemma k_runs : (exists c, CachingSpec.exec toy_io k_hash any_env 10 k_jobs k_hist c) /\
  forall j, follows (prog_of k_hash (k_jobs j)) (trace j k_hist) (progs_of k_result j).
Proof. apply (result_exec toy_io k_hash any_env 10 k_jobs k_moves); [apply all_any|]. vm_compute. reflexivity. Qed.
Lemma k_druns : (exists c, CachingSpec.exec toy_io k_hash any_env 10 k_djobs k_dhist c) /\
  forall j, follows (prog_of k_hash (k_djobs j)) (trace j k_dhist) (progs_of k_dresult j).
Proof. apply (result_exec toy_io k_hash any_env 10 k_djobs k_dmoves); [apply all_any|]. vm_compute. reflexivity. Qed.

Lemma no_collision_on : forall sha n jobs, (forall j, (n <= j)%nat -> jobs j = ClearJob) ->
  good_on sha (flat_map (fun j => hashed_by sha (jobs j)) (seq 0 n)) = true -> no_collision sha jobs.
Proof.
  intros sha n jobs C G.
  assert (I : forall j x, In x (hashed_by sha (jobs j)) -> In x (flat_map (fun j => hashed_by sha (jobs j)) (seq 0 n))).
  { intros j x J. apply in_flat_map. destruct (Compare_dec.le_gt_dec n j) as [L|L]; [rewrite (C _ L) in J; destruct J|].
    exists j. split; [|exact J]. apply in_seq. lia. }
  intros j1 j2. eapply good_on_sound; [exact G|]. intros x J. apply in_app_or in J. destruct J; eauto.
Qed.
Lemma k_sctx_is : k_sctx = [([98], [1]); (reserved_key, [80; 81])].
Proof. vm_compute. reflexivity. Qed.

Lemma k_execution : execution toy_io k_hash 10 k_jobs k_hist.
Proof.
  split; [exists any_env; exact (proj1 k_runs)|]. split; [|split].
  - split; [|split].
    + intros j m rq E. do 2 (destruct j as [|j]; [injection E as <- <-; unfold distinct_keys; ndup|]). discriminate.
    + intros j m rq E. do 2 (destruct j as [|j]; [discriminate|]). discriminate.
    + apply upstream_tables. vm_compute. repeat constructor; cbn; intuition discriminate.
  - split; intros j m rq E; do 2 (destruct j as [|j]; [first [discriminate E | injection E as <- <-; vm_compute; auto]|]); discriminate.
  - apply (no_collision_on _ 2); [|vm_compute; reflexivity]. intros [|[|j]] L; try lia. reflexivity.
Qed.
Lemma k_tables : forall c, c = k_sctx \/ c = rev k_sctx -> distinct_keys c.
Proof. intros c [-> | ->]; rewrite k_sctx_is; unfold distinct_keys; cbn [rev app map fst]; ndup. Qed.
Lemma k_dexecution : execution toy_io k_hash 10 k_djobs k_dhist.
Proof.
  split; [exists any_env; exact (proj1 k_druns)|]. split; [|split].
  - split; [|split].
    + intros j m rq E. do 3 (destruct j as [|j]; [discriminate|]). discriminate.
    + intros j m rq E. do 3 (destruct j as [|j]; [injection E as <- <-; apply k_tables; auto|]). discriminate.
    + apply upstream_tables. vm_compute. repeat constructor; cbn; intuition discriminate.
  - split; intros j m rq E; do 3 (destruct j as [|j]; [first [discriminate E | injection E as <- <-; vm_compute; auto]|]); discriminate.
  - apply (no_collision_on _ 3); [|vm_compute; reflexivity]. intros [|[|[|j]]] L; try lia. reflexivity.
Qed.

Lemma trace_forall : forall (Q : xop -> resp -> Prop) h, Forall (fun e => Q (ev_op e) (ev_resp e)) h -> forall j o r, In (o, r) (trace j h) -> Q o r.
Proof. intros Q h F j o r J. apply in_trace in J. destruct J as (ch & J). rewrite Forall_forall in F. exact (F _ J). Qed.
Definition k_wrote (o : xop) (r : resp) : Prop :=
  match o, r with XUpEnc rq, REnc ctx r => rq = k_rq0 /\ ctx = fst k_up /\ r = snd k_up | _, _ => True end.
Lemma k_writes : default_generates k_writers k_hist.
Proof.
  assert (F : Forall (fun e => k_wrote (ev_op e) (ev_resp e)) k_hist) by (vm_compute; repeat constructor).
  intros j rq ctx r J. destruct (trace_forall k_wrote _ F _ _ _ J) as (-> & -> & ->).
  split; [unfold distinct_keys; ndup|]. split; [repeat (apply Forall_cons; [split; bytes|]); constructor|].
  exists st_ec, st_write, None. split; [split; reflexivity|]. split; vm_compute; reflexivity.
Qed.
Definition k_read (o : xop) (r : resp) : Prop :=
  match o, r with XUpDec rq, RDec r => rq = k_drq (@rev edk) k_sctx /\ r = k_dup | XMem, RMem (Some _) => False | _, _ => True end.
Lemma k_read_all : Forall (fun e => k_read (ev_op e) (ev_resp e)) k_dhist.
Proof. vm_compute. repeat constructor. Qed.
Lemma k_reads : default_decrypts st_ec k_readers k_dhist.
Proof.
  intros j rq r J. destruct (trace_forall k_read _ k_read_all _ _ _ J) as (-> & ->).
  exists st_read, None. split; [reflexivity|]. vm_compute. reflexivity.
Qed.
(** No call of the reader runs out of memory. *)
Lemma k_memory : forall j x, ~ In (XMem, RMem (Some x)) (trace j k_dhist).
Proof. intros j x J. exact (trace_forall k_read _ k_read_all _ _ _ J). Qed.

Lemma k_returns : progs_of k_result 1 = Ret (jenc k_gen).
Proof. vm_compute. reflexivity. Qed.
Lemma k_dreturns : forall j, (j = 1 \/ j = 2)%nat -> progs_of k_dresult j = Ret (JDec (jdec k_dec)).
Proof. intros j [-> | ->]; vm_compute; reflexivity. Qed.

Lemma k_env_ok : cached_env toy_cr toy_io k_hash k_writers st_ec 0x0578 k_env.
Proof.
  split; [|split].
  - intros rq ctx em E. cbn [k_env e_gen] in E. destruct (rq_eq_dec rq k_rq) as [->|]; [|discriminate].
    exists 10, k_jobs, k_hist, 1%nat, k_cmm. split; [exact k_execution|]. split; [exact k_writes|]. split; [reflexivity|].
    replace (JEnc ctx (COk em)) with (jenc k_gen) by (rewrite E; reflexivity).
    unfold returns. rewrite <- k_returns. apply k_runs.
  - exact (proj1 (proj2 st_stack)).
  - intros ec ke [-> ->]. exact (proj2 (proj2 st_stack)).
Qed.

(** ** The sessions *)
Definition k_ops : list op := k_conf ++ [OProcess k_env 2000 [10; 11; 12; 13; 14; 15]; OProcess k_env 2000 [14; 15; 16; 17; 18; 19]].
Definition k_w : world := fst (run toy_cr (new_world M_ENCRYPT) k_ops).

Lemma k_asked : forall rq, asks k_w rq -> exists c, Permutation c k_sctx /\ rq = mk_dec_request 0x0578 (em_edks k_mat) c.
Proof.
  intros rq (rq0 & ctx & em & c & J & P & ->).
  assert (F : Forall (fun e => match e with EvGen _ ctx em => ctx = k_sctx /\ em = k_mat | _ => True end) (w_log k_w)) by (vm_compute; repeat constructor).
  rewrite Forall_forall in F. destruct (F _ J) as [-> ->]. exists c. split; [exact P|]. vm_compute. reflexivity.
Qed.
Lemma k_env_reads : decrypts_cached toy_io k_hash st_ec k_readers (asks k_w) k_env.
Proof.
  intros rq A. destruct (k_asked _ A) as (c & P & ->).
  assert (C : c = k_sctx \/ c = rev k_sctx).
  { rewrite k_sctx_is in *. symmetry in P. apply Permutation_length_2_inv in P. exact P. }
  assert (R : forall j, (j = 1 \/ j = 2)%nat -> returns k_hash k_djobs k_dhist j (JDec (jdec k_dec))).
  { intros j J. unfold returns. rewrite <- (k_dreturns _ J). apply k_druns. }
  destruct C as [-> | ->].
  - exists 10, k_djobs, k_dhist, 1%nat, k_cmm, (jdec k_dec).
    split; [exact k_dexecution|]. split; [exact k_reads|]. split; [apply k_memory|]. split; [reflexivity|]. split; [apply R; auto|]. vm_compute. reflexivity.
  - exists 10, k_djobs, k_dhist, 2%nat, k_cmm, (jdec k_dec).
    split; [exact k_dexecution|]. split; [exact k_reads|]. split; [apply k_memory|]. split; [reflexivity|]. split; [apply R; auto|]. vm_compute. reflexivity.
Qed.

Lemma k_match : keyrings_match k_writers k_readers st_ec 0x0578 3.
Proof.
  intros ec ke [-> ->]. split; [|split].
  - split; [intros sc pub E|intros pub vk E]; cbn in E; [injection E as <- _|injection E as <-]; reflexivity.
  - apply st_tidy.
  - intros kd ->. unfold st_write, st_read. 
    exact (multi_recovers_any toy_cr st_rsa _ _ good_mem _ _ good_mem 0x0578 toy_sizes toy_inverts toy_bytes st_rsa_bytes st_write_ok st_read_ok st_rights).
Qed.
