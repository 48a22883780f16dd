(** Helpers for the examples of Prop_Stream.v. *)
From Verif Require Import Base AlgModel EncCtxModel HdrModel FrameModel CryptoModel SessionModel
  BaseProofs WireSpec SessionSpec StreamSpec SessionTheorems SessionExamples.
From Coq Require Import Permutation ZArith ZifyBool ZifyNat ZifyN.
Import List.
Open Scope list_scope.
Open Scope N_scope.

Lemma toy_inverts : dec_inverts toy_cr.
Proof.
  intros k iv a p c t E. cbn in E |- *. injection E as <- <-.
  now rewrite (proj2 (bytes_eqb_spec _ _) eq_refl).
Qed.
Lemma toy_updates : updates_ok toy_cr.
Proof. intros sc b. reflexivity. Qed.
Lemma toy_unwraps : forall mode ctx alg tr, In alg v1_suites \/ In alg v2_suites -> (mode = M_DECRYPT_UNSIGNED -> ~ In alg signed_suites) ->
  unwraps mode ctx (mk_enc_mat (toy_key alg) tr [toy_edk] (toy_sig alg) alg) (toy_sig alg) (toy_env alg).
Proof. intros mode ctx alg tr K U c _. eexists. split; [reflexivity|]. cbn. auto. Qed.

(** Hypotheses about logs as tests. *)
Definition event_all (f : event -> bool) (log : list event) : bool := forallb f log.

Definition ideal_test (dlog elog : list event) : bool :=
  forallb (fun ev => match ev with
    | EvOpen k iv a c t p => existsb (fun ev' => match ev' with
        | EvSeal k' iv' a' p' c' t' => bytes_eqb k k' && bytes_eqb iv iv' && bytes_eqb a a' && bytes_eqb p p' && bytes_eqb c c' && bytes_eqb t t'
        | _ => false end) elog
    | _ => true end) dlog.
Lemma ideal_test_ok : forall dlog elog, ideal_test dlog elog = true ->
  forall key iv aad ct tag pt, In (EvOpen key iv aad ct tag pt) dlog -> In (EvSeal key iv aad pt ct tag) elog.
Proof.
  intros dlog elog T key iv aad ct tag pt I. unfold ideal_test in T. rewrite forallb_forall in T. specialize (T _ I). cbn in T.
  apply existsb_exists in T. destruct T as [ev [J T]]. destruct ev; try discriminate.
  repeat (apply andb_prop in T; destruct T as [T ?]).
  repeat match goal with H : bytes_eqb _ _ = true |- _ => apply bytes_eqb_spec in H end. subst. exact J.
Qed.

Definition gens (log : list event) : list (enc_ctx * enc_mat) := concat (map (fun ev => match ev with EvGen _ c m => [(c, m)] | _ => [] end) log).
Lemma in_gens : forall log rq c m, In (EvGen rq c m) log -> In (c, m) (gens log).
Proof. intros log rq c m I. apply in_concat. exists [(c, m)]. split; [|now left]. now apply (in_map (fun ev => match ev with EvGen _ c m => [(c, m)] | _ => [] end) _ _ I). Qed.
Definition rands (log : list event) : list (list N) := concat (map (fun ev => match ev with EvRand m => [m] | _ => [] end) log).
Lemma in_rands : forall log m, In (EvRand m) log -> In m (rands log).
Proof. intros log m I. apply in_concat. exists [m]. split; [|now left]. now apply (in_map (fun ev => match ev with EvRand m => [m] | _ => [] end) _ _ I). Qed.
Definition signs (log : list event) : list (sigctx * list N) := concat (map (fun ev => match ev with EvSign c m => [(c, m)] | _ => [] end) log).
Lemma in_signs : forall log c m, In (EvSign c m) log -> In (c, m) (signs log).
Proof. intros log c m I. apply in_concat. exists [(c, m)]. split; [|now left]. now apply (in_map (fun ev => match ev with EvSign c m => [(c, m)] | _ => [] end) _ _ I). Qed.
Definition unwrapped (log : list event) : list (dec_request * dec_mat) := concat (map (fun ev => match ev with EvUnwrap c m => [(c, m)] | _ => [] end) log).
Lemma in_unwrapped : forall log c m, In (EvUnwrap c m) log -> In (c, m) (unwrapped log).
Proof. intros log c m I. apply in_concat. exists [(c, m)]. split; [|now left]. now apply (in_map (fun ev => match ev with EvUnwrap c m => [(c, m)] | _ => [] end) _ _ I). Qed.

(** The same message, encrypted byte by byte and with the size declared first. *)
Definition toy_slow_ops (alg fs : N) (c : cpolicy) : list op :=
  [OSetPolicy c; OSetFrame fs; OCtx toy_ctx; OSetSize 0 10; OProcess (toy_env alg) 0 []; OProcess (toy_env alg) 100 [10; 11];
   OProcess (toy_env alg) 1000 [10; 11; 12; 13]; OProcess (toy_env alg) 37 [14; 15; 16; 17; 18];
   OProcess (toy_env alg) 38 [14; 15; 16; 17; 18; 19]; OProcess (toy_env alg) 60 [18; 19]; OProcess (toy_env alg) 200 []].
Definition toy_slow (alg fs : N) (c : cpolicy) : world := fst (run toy_cr (new_world M_ENCRYPT) (toy_slow_ops alg fs c)).

Lemma single_gens : forall l1 l2 x, gens l1 = [x] -> gens l2 = [x] ->
  forall rq1 c1 em1 rq2 c2 em2, In (EvGen rq1 c1 em1) l1 -> In (EvGen rq2 c2 em2) l2 ->
  c1 = c2 /\ em_alg em1 = em_alg em2 /\ em_key em1 = em_key em2 /\ em_edks em1 = em_edks em2 /\ em_sig em1 = em_sig em2.
Proof.
  intros l1 l2 x G1 G2 rq1 c1 em1 rq2 c2 em2 I J. apply in_gens in I, J. rewrite G1 in I. rewrite G2 in J.
  destruct I as [I|[]], J as [J|[]]. subst x. injection J as -> ->. auto.
Qed.
Lemma single_rands : forall l1 l2 x, rands l1 = [x] -> rands l2 = [x] ->
  forall a b, In (EvRand a) l1 -> In (EvRand b) l2 -> a = b.
Proof.
  intros l1 l2 x G1 G2 a b I J. apply in_rands in I, J. rewrite G1 in I. rewrite G2 in J.
  destruct I as [I|[]], J as [J|[]]. congruence.
Qed.
Lemma single_signs : forall l1 l2, signs l1 = signs l2 -> length (signs l2) = 1%nat ->
  forall sc a b, In (EvSign sc a) l1 -> In (EvSign sc b) l2 -> a = b.
Proof.
  intros l1 l2 E L sc a b I J. apply in_signs in I, J. rewrite E in I. destruct (signs l2) as [|x [|]]; try discriminate.
  destruct I as [I|[]], J as [J|[]]. congruence.
Qed.

(** Message [msg] with byte number [n] replaced. *)
Definition tamper (n : nat) (x : N) (msg : list N) : list N := firstn n msg ++ [x] ++ skipn (S n) msg.

(** ** C13 *)
Definition toy_mat (alg : N) : enc_mat := mk_enc_mat (toy_key alg) [] [toy_edk] (toy_sig alg) alg.

Fixpoint pieces (w : world) (e : env) (msg : list N) (calls : list (N * nat)) : list opres * world :=
  match calls with
  | [] => ([], w)
  | (cap, n) :: calls' =>
    let (w1, r) := exec toy_cr w (OProcess e cap (firstn n (skipn (length (w_in w)) msg))) in
    let (rs, w2) := pieces w1 e msg calls' in (r :: rs, w2)
  end.
Fixpoint pieces_ok (w : world) (e : env) (msg : list N) (calls : list (N * nat)) : bool :=
  bytes_eqb (w_in w) (firstn (length (w_in w)) msg) &&
  match calls with
  | [] => true
  | (cap, n) :: calls' => pieces_ok (fst (exec toy_cr w (OProcess e cap (firstn n (skipn (length (w_in w)) msg))))) e msg calls'
  end.
Lemma pieces_feed : forall (good : env -> Prop) e msg calls w, good e -> pieces_ok w e msg calls = true ->
  feed toy_cr good msg w (fst (pieces w e msg calls)) (snd (pieces w e msg calls)).
Proof.
  intros good e msg calls. induction calls as [|[cap n] calls IH]; intros w G T; [constructor|].
  cbn [pieces_ok pieces] in *. apply andb_prop in T. destruct T as [T1 T2]. apply bytes_eqb_spec in T1.
  destruct (exec toy_cr w (OProcess e cap (firstn n (skipn (length (w_in w)) msg)))) as [w1 r] eqn:X. cbn [fst] in T2.
  specialize (IH w1 G T2). destruct (pieces w1 e msg calls) as [rs w2]. cbn [fst snd] in *.
  econstructor; [exact G| |exact X|exact IH].
  exists (skipn n (skipn (length (w_in w)) msg)).
  rewrite <- app_assoc, (firstn_skipn n). rewrite <- (firstn_skipn (length (w_in w)) msg) at 1. now rewrite <- T1.
Qed.

Lemma toy_verifies : forall alg log, forallb (fun ev => match ev with
    | EvSign sc sg => bytes_eqb sg [toy_sum ([5; 5] ++ sc_data sc)] | _ => true end) log = true ->
  In alg signed_suites -> signatures_verify toy_cr (toy_mat alg) (toy_sig alg) log.
Proof.
  intros alg log T I sc sg J. rewrite forallb_forall in T. specialize (T _ J). cbn beta iota in T. apply bytes_eqb_spec in T.
  exists (mk_sigctx [5; 5] []). unfold toy_mat, toy_sig. cbn [em_sig].
  replace (existsb (N.eqb alg) signed_suites) with true.
  2:{ symmetry. apply existsb_exists. exists alg. split; [exact I|apply N.eqb_refl]. }
  split; [reflexivity|]. split; [rewrite T; reflexivity|]. split; [intros sc0 E; injection E as <-; reflexivity|].
  subst sg. cbn [cr_verify toy_cr sc_key sc_data]. apply bytes_eqb_spec. reflexivity.
Qed.

Lemma bytesb_ok : forall l, forallb (fun b => b <? 256) l = true -> bytes_ok l.
Proof. intros l T. unfold bytes_ok. rewrite forallb_forall in T. apply Forall_forall. intros x I. specialize (T _ I). now apply N.ltb_lt in T. Qed.

Lemma toy_feed_example : let w := toy_enc 0x0578 4 CP_REQUIRE_REQUIRE in
  let wd := fst (run toy_cr (new_world M_DECRYPT) [OSetMax 1]) in
  let em := toy_mat 0x0578 in let vk := toy_sig 0x0578 in
  exists rq rs wd', crypto_sizes toy_cr /\ dec_inverts toy_cr /\ updates_ok toy_cr /\
  history toy_cr M_ENCRYPT (toy_enc_ops 0x0578 4 CP_REQUIRE_REQUIRE) w /\ s_mode (w_s w) = M_ENCRYPT /\
  is_done (w_s w) = true /\ In (EvGen rq toy_ctx em) (w_log w) /\ distinct_keys toy_ctx /\ Nlen (em_edks em) <= 65535 /\
  Forall edk_fits (em_edks em) /\ signatures_verify toy_cr em vk (w_log w) /\ bytes_ok (w_out w) /\
  history toy_cr M_DECRYPT [OSetMax 1] wd /\ is_decrypt_mode (s_mode (w_s wd)) = true /\ s_state (w_s wd) = ST_CONFIG /\
  policy_permits_decrypt (s_policy (w_s wd)) (em_alg em) /\ Nlen (em_edks em) <= s_max (w_s wd) /\
  feed toy_cr (unwraps (s_mode (w_s wd)) toy_ctx em vk) (w_out w) wd rs wd' /\
  length rs = 5%nat /\ is_done (w_s wd') = true /\ w_out wd' = [10; 11; 12; 13; 14; 15; 16; 17; 18; 19].
Proof.
  cbn zeta.
  pose (p := pieces (fst (run toy_cr (new_world M_DECRYPT) [OSetMax 1])) (toy_env 0x0578) (w_out (toy_enc 0x0578 4 CP_REQUIRE_REQUIRE))
    [(0, 60%nat); (3, 140%nat); (4, 100%nat); (1000, 70%nat); (1000, 1000%nat)]).
  eexists. exists (fst p), (snd p).
  split; [exact toy_sizes|]. split; [exact toy_inverts|]. split; [exact toy_updates|].
  split; [apply toy_history; vm_compute; reflexivity|]. split; [vm_compute; reflexivity|]. split; [vm_compute; reflexivity|].
  split; [vm_compute; left; reflexivity|]. split; [repeat constructor; cbn; intuition discriminate|].
  split; [vm_compute; discriminate|]. split; [repeat constructor; vm_compute; discriminate|].
  split; [apply toy_verifies; [vm_compute; reflexivity|cbn; auto 10]|].
  split; [apply bytesb_ok; vm_compute; reflexivity|]. split; [apply toy_history; vm_compute; reflexivity|].
  split; [reflexivity|]. split; [reflexivity|]. split; [vm_compute; auto|]. split; [vm_compute; discriminate|].
  split; [|split; [vm_compute; reflexivity|split; vm_compute; reflexivity]].
  apply pieces_feed; [|vm_compute; reflexivity].
  apply toy_unwraps; [right; cbn; auto|discriminate].
Qed.

(** ** C14 *)
Lemma toy_two_schedules : let ops1 := toy_slow_ops 0x0578 4 CP_REQUIRE_REQUIRE in let w1 := toy_slow 0x0578 4 CP_REQUIRE_REQUIRE in
  let ops2 := toy_enc_ops 0x0578 4 CP_REQUIRE_REQUIRE in let w2 := toy_enc 0x0578 4 CP_REQUIRE_REQUIRE in
  history toy_cr M_ENCRYPT ops1 w1 /\ history toy_cr M_ENCRYPT ops2 w2 /\
  s_mode (w_s w1) = M_ENCRYPT /\ s_mode (w_s w2) = M_ENCRYPT /\ is_done (w_s w1) = true /\ is_done (w_s w2) = true /\
  s_fsize (w_s w1) = s_fsize (w_s w2) /\
  (forall rq1 c1 em1 rq2 c2 em2, In (EvGen rq1 c1 em1) (w_log w1) -> In (EvGen rq2 c2 em2) (w_log w2) ->
     c1 = c2 /\ em_alg em1 = em_alg em2 /\ em_key em1 = em_key em2 /\ em_edks em1 = em_edks em2 /\ em_sig em1 = em_sig em2) /\
  (forall a b, In (EvRand a) (w_log w1) -> In (EvRand b) (w_log w2) -> a = b) /\
  (forall sc a b, In (EvSign sc a) (w_log w1) -> In (EvSign sc b) (w_log w2) -> a = b) /\
  w_in w1 = w_in w2 /\ s_known (w_s w1) = true /\ s_precise (w_s w1) = Nlen (w_in w2) /\ Nlen (w_out w1) = 239.
Proof.
  cbn zeta.
  assert (G1 : gens (w_log (toy_slow 0x0578 4 CP_REQUIRE_REQUIRE)) = [(toy_ctx, toy_mat 0x0578)]) by (vm_compute; reflexivity).
  assert (G2 : gens (w_log (toy_enc 0x0578 4 CP_REQUIRE_REQUIRE)) = [(toy_ctx, toy_mat 0x0578)]) by (vm_compute; reflexivity).
  assert (R1 : rands (w_log (toy_slow 0x0578 4 CP_REQUIRE_REQUIRE)) = [repeat 7 32]) by (vm_compute; reflexivity).
  assert (R2 : rands (w_log (toy_enc 0x0578 4 CP_REQUIRE_REQUIRE)) = [repeat 7 32]) by (vm_compute; reflexivity).
  assert (S : signs (w_log (toy_slow 0x0578 4 CP_REQUIRE_REQUIRE)) = signs (w_log (toy_enc 0x0578 4 CP_REQUIRE_REQUIRE)))
    by (vm_compute; reflexivity).
  assert (L : length (signs (w_log (toy_enc 0x0578 4 CP_REQUIRE_REQUIRE))) = 1%nat) by (vm_compute; reflexivity).
  split; [apply toy_history; vm_compute; reflexivity|]. split; [apply toy_history; vm_compute; reflexivity|].
  do 5 (split; [vm_compute; reflexivity|]).
  split; [exact (single_gens _ _ _ G1 G2)|]. split; [exact (single_rands _ _ _ R1 R2)|]. split; [exact (single_signs _ _ S L)|].
  repeat split; vm_compute; reflexivity.
Qed.

(** ** C15 *)
Lemma toy_two_decryptions : let stream := w_out (toy_enc 0x0578 4 CP_REQUIRE_REQUIRE) in
  let ops1 := toy_dec_ops 0x0578 158 CP_REQUIRE_REQUIRE stream in let w1 := toy_dec 0x0578 158 CP_REQUIRE_REQUIRE stream in
  let ops2 := [OProcess (toy_env 0x0578) 4 (firstn 170 stream)] in let w2 := fst (run toy_cr (new_world M_DECRYPT) ops2) in
  history toy_cr M_DECRYPT ops1 w1 /\ history toy_cr M_DECRYPT ops2 w2 /\
  is_decrypt_mode (s_mode (w_s w1)) = true /\ is_decrypt_mode (s_mode (w_s w2)) = true /\
  prefix (w_in w1) stream /\ prefix (w_in w2) stream /\
  (forall rq dm1 dm2, In (EvUnwrap rq dm1) (w_log w1) -> In (EvUnwrap rq dm2) (w_log w2) -> dm_key dm1 = dm_key dm2) /\
  is_done (w_s w1) = true /\ w_out w2 = [10; 11; 12; 13].
Proof.
  cbn zeta. set (stream := w_out (toy_enc _ _ _)).
  assert (U1 : map (fun x => dm_key (snd x)) (unwrapped (w_log (toy_dec 0x0578 158 CP_REQUIRE_REQUIRE stream))) = [toy_key 0x0578])
    by (vm_compute; reflexivity).
  assert (U2 : map (fun x => dm_key (snd x)) (unwrapped (w_log (fst (run toy_cr (new_world M_DECRYPT) [OProcess (toy_env 0x0578) 4 (firstn 170 stream)]))))
    = [toy_key 0x0578]) by (vm_compute; reflexivity).
  split; [apply toy_history; vm_compute; reflexivity|]. split; [apply toy_history; vm_compute; reflexivity|].
  do 2 (split; [vm_compute; reflexivity|]).
  split; [exists []; vm_compute; reflexivity|]. split; [exists (skipn 158 stream); vm_compute; reflexivity|].
  split; [|split; vm_compute; reflexivity].
  intros rq dm1 dm2 I J. apply in_unwrapped in I, J.
  apply (in_map (fun x => dm_key (snd x))) in I. rewrite U1 in I.
  apply (in_map (fun x => dm_key (snd x))) in J. rewrite U2 in J. destruct I as [I|[]], J as [J|[]]. cbn [snd] in *. congruence.
Qed.

(** ** C16 *)
Lemma toy_tampered : let ops := toy_enc_ops 0x0578 4 CP_REQUIRE_REQUIRE in let w := toy_enc 0x0578 4 CP_REQUIRE_REQUIRE in
  let bad := tamper 175 99 (w_out w) in
  let opsd := [OProcess (toy_env 0x0578) 4 (firstn 165 bad); OProcess (toy_env 0x0578) 100 (skipn 158 bad)] in
  let wd := fst (run toy_cr (new_world M_DECRYPT) opsd) in
  history toy_cr M_ENCRYPT ops w /\ s_mode (w_s w) = M_ENCRYPT /\ is_done (w_s w) = true /\
  history toy_cr M_DECRYPT opsd wd /\ is_decrypt_mode (s_mode (w_s wd)) = true /\
  (forall key iv aad ct tag pt, In (EvOpen key iv aad ct tag pt) (w_log wd) -> In (EvSeal key iv aad pt ct tag) (w_log w)) /\
  (forall rq ctx em rqd dm, In (EvGen rq ctx em) (w_log w) -> In (EvUnwrap rqd dm) (w_log wd) ->
     (In (em_alg em) v2_suites <-> In (dq_alg rqd) v2_suites)) /\
  w_out wd = [10; 11; 12; 13] /\ s_state (w_s wd) = ST_ERROR.
Proof.
  cbn zeta. set (w := toy_enc _ _ _). set (ops := toy_enc_ops _ _ _). set (opsd := [_; _]).
  assert (G : map (fun x => em_alg (snd x)) (gens (w_log w)) = [0x0578]) by (vm_compute; reflexivity).
  assert (U : map (fun x => dq_alg (fst x)) (unwrapped (w_log (fst (run toy_cr (new_world M_DECRYPT) opsd)))) = [0x0578]) by (vm_compute; reflexivity).
  split; [apply toy_history; vm_compute; reflexivity|]. do 2 (split; [vm_compute; reflexivity|]).
  split; [apply toy_history; vm_compute; reflexivity|]. split; [vm_compute; reflexivity|].
  split; [apply ideal_test_ok; vm_compute; reflexivity|].
  split; [|split; vm_compute; reflexivity].
  intros rq ctx em rqd dm I J. apply in_gens in I. apply in_unwrapped in J.
  apply (in_map (fun x => em_alg (snd x))) in I. rewrite G in I.
  apply (in_map (fun x => dq_alg (fst x))) in J. rewrite U in J. destruct I as [I|[]], J as [J|[]]. cbn [fst snd] in *.
  rewrite <- I, <- J. tauto.
Qed.
