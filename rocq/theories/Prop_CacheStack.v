(** Property C76: sessions whose materials come from a caching CMM over the default CMM and keyrings round-trip.
    Specification: CacheStackSpec.v, StackSpec.v, CachingSpec.v, StreamSpec.v and SessionSpec.v.  Example data: CacheStackExamples.v. *)
From Verif Require Import Base AlgModel EncCtxModel HdrModel FrameModel CryptoModel KeyringModel WireSpec KeyringSpec
  CacheModel CacheSpec CachingModel CachingSpec CacheExamples.
From Verif Require Import SessionModel SessionSpec SuiteSpec StreamSpec LiveSpec StackSpec SessionTheorems SessionExamples StreamExamples LiveExamples
  KeyringExamples StackTheorems StackKeyrings StackExamples CacheStackSpec CacheStackProofs CacheStackExamples.
From Coq Require Import Permutation.
Import List.
Open Scope list_scope.
Open Scope N_scope.

(** ** C76 *)
(** As C70_roundtrip_any_buffering, but materials are whatever calls of caching CMMs return, in any executions of any calls
    on caches of any capacity, above default CMMs with the keyrings [W] for writing and [R] for reading.  Whether a call is
    served from the cache or by the keyring, the round trip is the same.  Nothing is assumed about the decryption answers
    but where they come from and that the call does not run out of memory. *)
Theorem C76_roundtrip_through_caches : forall cr m ops w io sha io2 sha2 W R ec2 alg n md opsd wd rs wd',
  crypto_sizes cr -> dec_inverts cr -> updates_ok cr -> crypto_bytes cr -> same_keys io -> same_keys io2 ->
  history cr m ops w -> Forall (stack_op (cached_env cr io sha W ec2 alg)) ops ->
  s_mode (w_s w) = M_ENCRYPT -> is_done (w_s w) = true -> get_alg_id (w_s w) = Some alg ->
  keyrings_match W R ec2 alg n ->
  history cr md opsd wd -> is_decrypt_mode (s_mode (w_s wd)) = true -> s_state (w_s wd) = ST_CONFIG ->
  policy_permits_decrypt (s_policy (w_s wd)) alg -> (s_max (w_s wd) = 0 \/ n <= s_max (w_s wd)) ->
  (s_mode (w_s wd) = M_DECRYPT_UNSIGNED -> ~ In alg signed_suites) ->
  feed cr (decrypts_cached io2 sha2 ec2 R (asks w)) (w_out w) wd rs wd' ->
  bytes_ok (w_out w) /\
  Forall (fun r => o_rc r = POk) rs /\ prefix (w_out wd') (w_in w) /\
  (is_done (w_s wd') = true -> w_in wd' = w_out w /\ w_out wd' = w_in w /\ get_alg_id (w_s wd') = Some alg /\
     exists c c', visible_ctx (w_s w) = Some c /\ visible_ctx (w_s wd') = Some c' /\ Permutation c' c) /\
  (forall e cap input, decrypts_cached io2 sha2 ec2 R (asks w) e -> w_in wd' ++ input = w_out w ->
     Nlen (w_in w) <= Nlen (w_out wd') + cap ->
     let w2 := fst (exec cr wd' (OProcess e cap input)) in is_done (w_s w2) = true /\ w_out w2 = w_in w).
Proof. exact C76_lemma. Qed.
Print Assumptions C76_roundtrip_through_caches.

(** The writer's message is encrypted with materials cached for an earlier message; the reader's cache has an entry from a
    message whose keys were listed in another order.  The message is signed, for two AES keys and an RSA key. *)
Definition k_wd : world := fst (run toy_cr (new_world M_DECRYPT) [OSetMax 3]).
Example C76_example : exists rs wd', same_keys toy_io /\
  history toy_cr M_ENCRYPT k_ops k_w /\ Forall (stack_op (cached_env toy_cr toy_io k_hash k_writers st_ec 0x0578)) k_ops /\
  s_mode (w_s k_w) = M_ENCRYPT /\ is_done (w_s k_w) = true /\ get_alg_id (w_s k_w) = Some 0x0578 /\
  keyrings_match k_writers k_readers st_ec 0x0578 3 /\
  history toy_cr M_DECRYPT [OSetMax 3] k_wd /\ is_decrypt_mode (s_mode (w_s k_wd)) = true /\ s_state (w_s k_wd) = ST_CONFIG /\
  policy_permits_decrypt (s_policy (w_s k_wd)) 0x0578 /\ 3 <= s_max (w_s k_wd) /\ s_mode (w_s k_wd) <> M_DECRYPT_UNSIGNED /\
  feed toy_cr (decrypts_cached toy_io k_hash st_ec k_readers (asks k_w)) (w_out k_w) k_wd rs wd' /\
  length rs = 5%nat /\ is_done (w_s wd') = true /\ w_out wd' = [10; 11; 12; 13; 14; 15; 16; 17; 18; 19] /\
  served k_hist 1 0 /\ served_dec k_dhist 1 0 /\ (forall rq r, ~ In (XUpDec rq, r) (trace 1 k_dhist)).
Proof.
  pose (p := pieces k_wd k_env (w_out k_w) [(0, 60%nat); (3, 370%nat); (4, 100%nat); (1000, 70%nat); (1000, 1000%nat)]).
  exists (fst p), (snd p). split; [exact k_same_keys|].
  split; [apply toy_history; vm_compute; reflexivity|].
  split. { repeat (apply Forall_cons; [cbn [stack_op]; first [exact I|exact k_env_ok|split; [unfold distinct_keys; ndup|repeat (apply Forall_cons; [split; bytes|]); constructor]]|]). constructor. }
  split; [vm_compute; reflexivity|]. split; [vm_compute; reflexivity|]. split; [vm_compute; reflexivity|].
  split; [exact k_match|]. split; [apply toy_history; vm_compute; reflexivity|].
  split; [reflexivity|]. split; [reflexivity|]. split; [vm_compute; auto|]. split; [vm_compute; discriminate|]. split; [discriminate|].
  split; [apply pieces_feed; [exact k_env_reads|vm_compute; reflexivity]|].
  split; [vm_compute; reflexivity|]. split; [vm_compute; reflexivity|]. split; [vm_compute; reflexivity|].
  split; [do 3 eexists; vm_compute; auto 20|]. split; [eexists; vm_compute; auto 20|].
  intros rq r. vm_compute. intuition discriminate.
Qed.

(** Raw keyrings, alone or in a multi-keyring, recover a key from any order of the encrypted data keys, so [keyrings_match]
    is met by them. *)
Theorem C76_raw_keyrings_any_order : forall cr rs x y alg, crypto_sizes cr -> dec_inverts cr -> crypto_bytes cr -> rsa_bytes rs ->
  raw_ok (fst x) -> kenv_ok (snd x) -> raw_ok (fst y) -> counterpart rs (fst x) (fst y) -> kenv_works (snd y) ->
  recovers_any_order (raw_keyring cr rs x) (raw_keyring cr rs y) alg.
Proof. exact raw_recovers_any. Qed.
Print Assumptions C76_raw_keyrings_any_order.
Theorem C76_multi_keyrings_any_order : forall cr rs x l mem y ys mem2 alg, crypto_sizes cr -> dec_inverts cr -> crypto_bytes cr -> rsa_bytes rs ->
  Forall (fun x => raw_ok (fst x) /\ kenv_ok (snd x)) (x :: l) -> Forall (fun y => raw_ok (fst y)) (y :: ys) -> rights rs (x :: l) (y :: ys) ->
  recovers_any_order (raw_multi cr rs x l mem) (raw_multi cr rs y ys mem2) alg.
Proof. exact multi_recovers_any. Qed.
Print Assumptions C76_multi_keyrings_any_order.

Example C76_keyrings_example :
  raw_ok (fst st_aes1) /\ kenv_ok (snd st_aes1) /\ counterpart st_rsa (fst st_aes1) (fst st_aes1) /\ kenv_works (snd st_aes1) /\
  Forall (fun x => raw_ok (fst x) /\ kenv_ok (snd x)) [st_aes1; st_pub; st_aes2] /\ Forall (fun y => raw_ok (fst y)) [st_other; st_priv] /\
  rights st_rsa [st_aes1; st_pub; st_aes2] [st_other; st_priv].
Proof.
  split; [exact (proj1 st_oks)|]. split; [exact st_ke_ok|]. split; [cbn; auto|]. split; [exact st_ke_works|].
  split; [exact st_write_ok|]. split; [exact st_read_ok|exact st_rights].
Qed.
