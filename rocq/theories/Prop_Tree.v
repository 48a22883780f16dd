(** Property C77: keyrings of any shape, mixing raw, KMS and MRK-aware KMS keyrings, recover what keyrings of any other shape wrap.
    Specification: TreeSpec.v, StackSpec.v, KmsSpec.v, KeyringSpec.v, StreamSpec.v and SessionSpec.v.  Example data: TreeExamples.v. *)
From Verif Require Import Base AlgModel EncCtxModel HdrModel FrameModel CryptoModel SessionModel KeyringModel KmsModel
  WireSpec SessionSpec SuiteSpec StreamSpec LiveSpec KeyringSpec KmsSpec StackSpec TreeSpec SessionTheorems SessionExamples StreamExamples LiveExamples
  KeyringExamples StackExamples KmsExamples TreeProofs TreeExamples.
From Coq Require Import Permutation.
Import List.
Open Scope list_scope.
Open Scope N_scope.

(** ** C77 *)
(** What a tree [t] of keyrings wraps, a tree [u] unwraps to the same data key, whatever the order of the encrypted data keys
    and of the pairs of the context, if no keyring of [u] opens an EDK of [t] wrongly and one opens one rightly.  The other
    keyrings of both trees may fail, run out of memory or get no answers. *)
Theorem C77_trees_recover : forall cr rs t u alg, crypto_sizes cr -> dec_inverts cr -> crypto_bytes cr -> rsa_bytes rs ->
  Forall writer_ok (leaves t) -> Forall reader_ok (leaves u) -> tree_rights rs t u ->
  recovers_any_order (tree_keyring cr rs t) (tree_keyring cr rs u) alg.
Proof. exact C77_recovers_lemma. Qed.
Print Assumptions C77_trees_recover.

Definition tr_args : kargs := fst (keyring_on_encrypt (tree_keyring toy_cr st_rsa tr_write) toy_ctx 0x0578 fresh_args).
Example C77_trees_recover_example :
  crypto_sizes toy_cr /\ dec_inverts toy_cr /\ crypto_bytes toy_cr /\ rsa_bytes st_rsa /\
  Forall writer_ok (leaves tr_write) /\ Forall reader_ok (leaves tr_read) /\ tree_rights st_rsa tr_write tr_read /\
  Nlen (ka_edks tr_args) = 5 /\
  da_key (fst (keyring_on_decrypt (tree_keyring toy_cr st_rsa tr_read) (rev (ka_edks tr_args)) (rev toy_ctx) 0x0578 no_dargs)) = Some (mk_kbuf 42 (repeat 5 32)).
Proof.
  split; [exact toy_sizes|]. split; [exact toy_inverts|]. split; [exact toy_bytes|]. split; [exact st_rsa_bytes|].
  split; [exact tr_writers|]. split; [exact tr_readers|]. split; [exact tr_rights|]. split; vm_compute; reflexivity.
Qed.

(** A tree that wraps makes a data key of the right length and exactly one EDK for every raw keyring and for every key of
    every KMS keyring, in the order of the tree, the generator first. *)
Theorem C77_trees_write : forall cr rs t ctx alg a, crypto_sizes cr -> Forall writer_ok (leaves t) -> places t <> [] ->
  keyring_on_encrypt (tree_keyring cr rs t) ctx alg fresh_args = (a, KrOk) ->
  exists b, ka_key a = Some b /\ Nlen (kb_bytes b) = suite_key_len alg /\ bytes_ok (kb_bytes b) /\
    Forall2 (fun q e => written_by (fst q) (snd q) ctx (kb_bytes b) e) (places t) (ka_edks a).
Proof. exact C77_writes_lemma. Qed.
Print Assumptions C77_trees_write.

Example C77_trees_write_example : Forall writer_ok (leaves tr_write) /\
  places tr_write = [(LKms toy_kms tr_env, arn_a); (LKms toy_kms tr_env, arn_b); (LRaw st_aes1, []); (LMrk mrk_k_us tr_env, mrk_us); (LRaw st_pub, [])] /\
  snd (keyring_on_encrypt (tree_keyring toy_cr st_rsa tr_write) toy_ctx 0x0578 fresh_args) = KrOk /\
  map edk_provider_info (ka_edks tr_args) = [arn_a; arn_b; edk_provider_info (nth 2 (ka_edks tr_args) (mk_edk [] [] [])); mrk_us; [107; 51]].
Proof. split; [exact tr_writers|]. split; [reflexivity|]. split; vm_compute; reflexivity. Qed.

(** The EDKs fit into a header; a tree whose keyrings and services work and whose leftmost keyring has a key wraps; and for
    every suite no keyring of the tree dereferences NULL, whatever fails. *)
Theorem C77_trees_work : forall cr rs t alg, crypto_sizes cr -> crypto_bytes cr -> rsa_bytes rs -> suite alg ->
  Forall writer_ok (leaves t) ->
  (places t <> [] -> Nlen (places t) <= 65535 -> tidy (tree_keyring cr rs t) alg (Nlen (places t))) /\
  (crypto_works cr -> Forall (leaf_works rs) (leaves t) -> tree_memory t -> generates t -> wraps (tree_keyring cr rs t) alg).
Proof.
  intros cr rs t alg CS CB RB SU WO. split; [exact (C77_tidy_lemma cr rs t alg CS CB RB WO)|].
  intros CW LW TM GE. exact (C77_wraps_lemma cr rs t alg CS CW SU WO LW TM GE).
Qed.
Print Assumptions C77_trees_work.
Theorem C77_trees_defined : forall cr rs t alg, suite alg ->
  (forall ctx a, snd (keyring_on_encrypt (tree_keyring cr rs t) ctx alg a) <> KrUB) /\
  (forall edks ctx d, snd (keyring_on_decrypt (tree_keyring cr rs t) edks ctx alg d) <> KrUB).
Proof. exact C77_defined_lemma. Qed.
Print Assumptions C77_trees_defined.

Example C77_trees_work_example : crypto_works toy_cr /\ suite 0x0578 /\ Forall writer_ok (leaves tr_write) /\ places tr_write <> [] /\
  Nlen (places tr_write) <= 65535 /\ Forall (leaf_works st_rsa) (leaves tr_write) /\ tree_memory tr_write /\ generates tr_write.
Proof.
  split; [exact toy_works|]. split; [right; cbn; auto|]. split; [exact tr_writers|]. split; [discriminate|]. split; [vm_compute; discriminate|].
  split; [exact tr_works|]. split; [exact tr_memory|vm_compute; discriminate].
Qed.

(** Sessions over the default CMM and trees of keyrings round-trip, in any pieces. *)
Theorem C77_roundtrip_any_buffering : forall cr rs t u m ops w ec ec2 da da2 alg md opsd wd out wd',
  crypto_sizes cr -> dec_inverts cr -> updates_ok cr -> crypto_bytes cr -> rsa_bytes rs ->
  Forall writer_ok (leaves t) -> Forall reader_ok (leaves u) -> tree_rights rs t u -> Nlen (places t) <= 65535 ->
  history cr m ops w -> Forall (stack_op (stack_env cr ec ec2 (mk_default_cmm (tree_keyring cr rs t) da) alg)) ops ->
  s_mode (w_s w) = M_ENCRYPT -> is_done (w_s w) = true -> get_alg_id (w_s w) = Some alg ->
  history cr md opsd wd -> is_decrypt_mode (s_mode (w_s wd)) = true -> s_state (w_s wd) = ST_CONFIG ->
  policy_permits_decrypt (s_policy (w_s wd)) alg -> (s_max (w_s wd) = 0 \/ Nlen (places t) <= s_max (w_s wd)) ->
  (s_mode (w_s wd) = M_DECRYPT_UNSIGNED -> ~ In alg signed_suites) ->
  feed cr (decrypts_with ec2 (mk_default_cmm (tree_keyring cr rs u) da2)) (w_out w) wd out wd' ->
  Forall (fun r => o_rc r = POk) out /\ prefix (w_out wd') (w_in w) /\
  (is_done (w_s wd') = true -> w_in wd' = w_out w /\ w_out wd' = w_in w /\ get_alg_id (w_s wd') = Some alg /\
     exists c c', visible_ctx (w_s w) = Some c /\ visible_ctx (w_s wd') = Some c' /\ Permutation c' c) /\
  (forall e cap input, decrypts_with ec2 (mk_default_cmm (tree_keyring cr rs u) da2) e -> w_in wd' ++ input = w_out w ->
     Nlen (w_in w) <= Nlen (w_out wd') + cap ->
     let w2 := fst (exec cr wd' (OProcess e cap input)) in is_done (w_s w2) = true /\ w_out w2 = w_in w).
Proof. exact C77_roundtrip_lemma. Qed.
Print Assumptions C77_roundtrip_any_buffering.

(** A signed message in three frames for two KMS keys, an AES key, a multi-Region key and an RSA key, read in five calls with
    a replica of the multi-Region key. *)
Definition tr_ops : list op := [OSetFrame 4; OCtx toy_ctx; OProcess tr_e 2000 [10; 11; 12; 13; 14; 15]; OSetSize 0 10;
  OProcess tr_e 2000 [14; 15; 16; 17; 18; 19]].
Definition tr_w : world := fst (run toy_cr (new_world M_ENCRYPT) tr_ops).
Definition tr_wd : world := fst (run toy_cr (new_world M_DECRYPT) [OSetMax 5]).
Example C77_roundtrip_example : exists out wd',
  history toy_cr M_ENCRYPT tr_ops tr_w /\
  Forall (stack_op (stack_env toy_cr st_ec st_ec (mk_default_cmm (tree_keyring toy_cr st_rsa tr_write) None) 0x0578)) tr_ops /\
  s_mode (w_s tr_w) = M_ENCRYPT /\ is_done (w_s tr_w) = true /\ get_alg_id (w_s tr_w) = Some 0x0578 /\
  history toy_cr M_DECRYPT [OSetMax 5] tr_wd /\ is_decrypt_mode (s_mode (w_s tr_wd)) = true /\ s_state (w_s tr_wd) = ST_CONFIG /\
  policy_permits_decrypt (s_policy (w_s tr_wd)) 0x0578 /\ Nlen (places tr_write) <= s_max (w_s tr_wd) /\ s_mode (w_s tr_wd) <> M_DECRYPT_UNSIGNED /\
  feed toy_cr (decrypts_with st_ec (mk_default_cmm (tree_keyring toy_cr st_rsa tr_read) None)) (w_out tr_w) tr_wd out wd' /\
  length out = 5%nat /\ is_done (w_s wd') = true /\ w_out wd' = [10; 11; 12; 13; 14; 15; 16; 17; 18; 19].
Proof.
  pose (p := pieces tr_wd tr_e (w_out tr_w) [(0, 60%nat); (3, 570%nat); (4, 100%nat); (1000, 70%nat); (1000, 2000%nat)]).
  exists (fst p), (snd p). split; [apply toy_history; vm_compute; reflexivity|].
  split. { repeat (apply Forall_cons; [cbn [stack_op]; first [exact I|exact tr_stack|split; [exact toy_distinct|repeat (apply Forall_cons; [split; bytes|]); constructor]]|]). constructor. }
  split; [vm_compute; reflexivity|]. split; [vm_compute; reflexivity|]. split; [vm_compute; reflexivity|].
  split; [apply toy_history; vm_compute; reflexivity|].
  split; [reflexivity|]. split; [reflexivity|]. split; [vm_compute; auto|]. split; [vm_compute; discriminate|]. split; [discriminate|].
  split; [|split; [vm_compute; reflexivity|split; vm_compute; reflexivity]].
  apply pieces_feed; [|vm_compute; reflexivity]. apply st_decrypts, tr_defined.
Qed.
