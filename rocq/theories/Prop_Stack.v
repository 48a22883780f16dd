(** Property C70: sessions over the default CMM and raw keyrings round-trip, with nothing assumed about the materials.
    Specification: StackSpec.v, KeyringSpec.v, StreamSpec.v, LiveSpec.v and SessionSpec.v.  Example data: StackExamples.v. *)
From Verif Require Import Base AlgModel EncCtxModel HdrModel FrameModel CryptoModel SessionModel KeyringModel
  WireSpec SessionSpec SuiteSpec StreamSpec LiveSpec KeyringSpec StackSpec SessionTheorems SessionExamples StreamExamples LiveExamples
  KeyringExamples StackTheorems StackKeyrings StackExamples.
From Coq Require Import Permutation.
Import List.
Open Scope list_scope.
Open Scope N_scope.

(** ** C70 *)
(** A finished encryption by a session over the default CMM with keyring [ke], decrypted in any pieces by a session over the
    default CMM with keyring [kd]: if [kd] recovers what [ke] wraps, no call fails, what is released is always a prefix of
    the plaintext, a session that reports done released all of it and reports the suite and the encryption context of the
    encryption, and giving the rest of the message with room for the rest of the plaintext completes it. *)
Theorem C70_roundtrip_any_buffering : forall cr m ops w ec ec2 ke kd da da2 alg n md opsd wd rs wd',
  crypto_sizes cr -> dec_inverts cr -> updates_ok cr -> crypto_bytes cr ->
  history cr m ops w -> Forall (stack_op (stack_env cr ec ec2 (mk_default_cmm ke da) alg)) ops ->
  s_mode (w_s w) = M_ENCRYPT -> is_done (w_s w) = true -> get_alg_id (w_s w) = Some alg ->
  tidy ke alg n -> recovers ke kd alg ->
  history cr md opsd wd -> is_decrypt_mode (s_mode (w_s wd)) = true -> s_state (w_s wd) = ST_CONFIG ->
  policy_permits_decrypt (s_policy (w_s wd)) alg -> (s_max (w_s wd) = 0 \/ n <= s_max (w_s wd)) ->
  (s_mode (w_s wd) = M_DECRYPT_UNSIGNED -> ~ In alg signed_suites) ->
  feed cr (decrypts_with ec2 (mk_default_cmm kd da2)) (w_out w) wd rs wd' ->
  bytes_ok (w_out w) /\
  Forall (fun r => o_rc r = POk) rs /\ prefix (w_out wd') (w_in w) /\
  (is_done (w_s wd') = true -> w_in wd' = w_out w /\ w_out wd' = w_in w /\ get_alg_id (w_s wd') = Some alg /\
     exists c c', visible_ctx (w_s w) = Some c /\ visible_ctx (w_s wd') = Some c' /\ Permutation c' c) /\
  (forall e cap input, decrypts_with ec2 (mk_default_cmm kd da2) e -> w_in wd' ++ input = w_out w ->
     Nlen (w_in w) <= Nlen (w_out wd') + cap ->
     let w2 := fst (exec cr wd' (OProcess e cap input)) in is_done (w_s w2) = true /\ w_out w2 = w_in w).
Proof. exact C70_lemma. Qed.
Print Assumptions C70_roundtrip_any_buffering.

(** A signed message for two AES keys and an RSA key in three frames; the reader has an unrelated AES key and the RSA private
    key, and decrypts in five calls. *)
Definition st_ops : list op := [OSetFrame 4; OCtx toy_ctx; OProcess st_e 2000 [10; 11; 12; 13; 14; 15]; OSetSize 0 10;
  OProcess st_e 2000 [14; 15; 16; 17; 18; 19]].
Definition st_w : world := fst (run toy_cr (new_world M_ENCRYPT) st_ops).
Definition st_wd : world := fst (run toy_cr (new_world M_DECRYPT) [OSetMax 3]).
Example C70_example : exists rs wd', crypto_sizes toy_cr /\ dec_inverts toy_cr /\ updates_ok toy_cr /\ crypto_bytes toy_cr /\
  history toy_cr M_ENCRYPT st_ops st_w /\ Forall (stack_op (stack_env toy_cr st_ec st_ec (mk_default_cmm st_write None) 0x0578)) st_ops /\
  s_mode (w_s st_w) = M_ENCRYPT /\ is_done (w_s st_w) = true /\ get_alg_id (w_s st_w) = Some 0x0578 /\
  tidy st_write 0x0578 3 /\ recovers st_write st_read 0x0578 /\
  history toy_cr M_DECRYPT [OSetMax 3] st_wd /\ is_decrypt_mode (s_mode (w_s st_wd)) = true /\ s_state (w_s st_wd) = ST_CONFIG /\
  policy_permits_decrypt (s_policy (w_s st_wd)) 0x0578 /\ 3 <= s_max (w_s st_wd) /\ s_mode (w_s st_wd) <> M_DECRYPT_UNSIGNED /\
  feed toy_cr (decrypts_with st_ec (mk_default_cmm st_read None)) (w_out st_w) st_wd rs wd' /\
  length rs = 5%nat /\ is_done (w_s wd') = true /\ w_out wd' = [10; 11; 12; 13; 14; 15; 16; 17; 18; 19] /\
  visible_ctx (w_s wd') = Some [([97], [2; 3]); (reserved_key, [80; 81]); ([98], [1])].
Proof.
  pose (p := pieces st_wd st_e (w_out st_w) [(0, 60%nat); (3, 370%nat); (4, 100%nat); (1000, 70%nat); (1000, 1000%nat)]).
  exists (fst p), (snd p).
  split; [exact toy_sizes|]. split; [exact toy_inverts|]. split; [exact toy_updates|]. split; [exact toy_bytes|].
  split; [apply toy_history; vm_compute; reflexivity|].
  split. { repeat (apply Forall_cons; [cbn [stack_op]; first [exact I|exact st_stack|split; [exact toy_distinct|repeat (apply Forall_cons; [split; bytes|]); constructor]]|]). constructor. }
  split; [vm_compute; reflexivity|]. split; [vm_compute; reflexivity|]. split; [vm_compute; reflexivity|].
  split; [apply st_tidy|]. split; [apply st_recovers|]. split; [apply toy_history; vm_compute; reflexivity|].
  split; [reflexivity|]. split; [reflexivity|]. split; [vm_compute; auto|]. split; [vm_compute; discriminate|]. split; [discriminate|].
  split; [|split; [vm_compute; reflexivity|split; [vm_compute; reflexivity|split; vm_compute; reflexivity]]].
  apply pieces_feed; [|vm_compute; reflexivity]. apply st_decrypts, st_multi_defined.
Qed.

(** One call of process_full encrypts and one decrypts, neither fails, and the plaintext and the encryption context come
    back.  The context the caller set must not contain the reserved key and must fit into a header together with the public
    key; the keyring must be able to wrap; the output buffers must be large enough. *)
Theorem C70_one_call_roundtrip : forall cr m ops w e cap input ctx w' r ec ec2 ke kd da da2 alg n md opsd wd e2 cap2 wd' rd,
  crypto_sizes cr -> dec_inverts cr -> crypto_works cr -> crypto_bytes cr ->
  history cr m ops w -> s_mode (w_s w) = M_ENCRYPT -> s_state (w_s w) = ST_CONFIG -> visible_ctx (w_s w) = Some ctx ->
  distinct_keys ctx -> ctx_bytes ctx -> ~ In reserved_key (map fst ctx) ->
  (forall c, message_ctx ec alg ctx c -> ctx_fits c) ->
  suite alg -> stack_suite da (s_policy (w_s w)) alg -> policy_permits_encrypt (s_policy (w_s w)) alg ->
  stack_env cr ec ec2 (mk_default_cmm ke da) alg e -> helpers_work ec alg e -> e_in_null e = false ->
  tidy ke alg n -> wraps ke alg -> n <= 10922 -> recovers ke kd alg -> (s_max (w_s w) = 0 \/ n <= s_max (w_s w)) ->
  bytes_ok input -> size_fits (s_fsize (w_s w)) (Nlen input) -> s_known (w_s w) = false -> Nlen input <= s_bound (w_s w) ->
  2147483648 + 41 * Nlen input + 145 <= cap -> exec cr w (OProcessFull e cap input) = (w', r) ->
  history cr md opsd wd -> is_decrypt_mode (s_mode (w_s wd)) = true -> s_state (w_s wd) = ST_CONFIG ->
  policy_permits_decrypt (s_policy (w_s wd)) alg -> (s_max (w_s wd) = 0 \/ n <= s_max (w_s wd)) ->
  (s_mode (w_s wd) = M_DECRYPT_UNSIGNED -> ~ In alg signed_suites) ->
  decrypts_with ec2 (mk_default_cmm kd da2) e2 -> Nlen input <= cap2 ->
  exec cr wd (OProcessFull e2 cap2 (o_mem r)) = (wd', rd) ->
  o_rc r = POk /\ o_read r = Nlen input /\ is_done (w_s w') = true /\
  o_rc rd = POk /\ o_mem rd = input /\ is_done (w_s wd') = true /\ get_alg_id (w_s wd') = Some alg /\
  exists c c', message_ctx ec alg ctx c /\ visible_ctx (w_s wd') = Some c' /\ Permutation c' c.
Proof. exact C70_one_call_lemma. Qed.
Print Assumptions C70_one_call_roundtrip.

Definition st_conf : list op := [OSetFrame 4; OCtx toy_ctx].
Definition st_w0 : world := fst (run toy_cr (new_world M_ENCRYPT) st_conf).
Definition st_full : world * opres := exec toy_cr st_w0 (OProcessFull st_e 3000000000 [10; 11; 12; 13; 14; 15]).
Definition st_back : world * opres := exec toy_cr st_wd (OProcessFull st_e 6 (o_mem (snd st_full))).
Example C70_one_call_example :
  crypto_works toy_cr /\ history toy_cr M_ENCRYPT st_conf st_w0 /\ s_mode (w_s st_w0) = M_ENCRYPT /\ s_state (w_s st_w0) = ST_CONFIG /\
  visible_ctx (w_s st_w0) = Some toy_ctx /\ distinct_keys toy_ctx /\ ctx_bytes toy_ctx /\ ~ In reserved_key (map fst toy_ctx) /\
  (forall c, message_ctx st_ec 0x0578 toy_ctx c -> ctx_fits c) /\
  suite 0x0578 /\ stack_suite None (s_policy (w_s st_w0)) 0x0578 /\ policy_permits_encrypt (s_policy (w_s st_w0)) 0x0578 /\
  stack_env toy_cr st_ec st_ec (mk_default_cmm st_write None) 0x0578 st_e /\ helpers_work st_ec 0x0578 st_e /\
  tidy st_write 0x0578 3 /\ wraps st_write 0x0578 /\ recovers st_write st_read 0x0578 /\ s_max (w_s st_w0) = 0 /\
  size_fits (s_fsize (w_s st_w0)) 6 /\ s_known (w_s st_w0) = false /\ 6 <= s_bound (w_s st_w0) /\
  decrypts_with st_ec (mk_default_cmm st_read None) st_e /\
  o_rc (snd st_full) = POk /\ o_rc (snd st_back) = POk /\ o_mem (snd st_back) = [10; 11; 12; 13; 14; 15].
Proof.
  split; [exact toy_works|]. split; [apply toy_history; vm_compute; reflexivity|]. split; [reflexivity|]. split; [reflexivity|].
  split; [vm_compute; reflexivity|]. split; [exact toy_distinct|]. split; [repeat (apply Forall_cons; [split; bytes|]); constructor|].
  split; [vm_compute; intuition discriminate|].
  split. { intros c [S _]. destruct S as (sc & pub & K & ->); [cbn; auto 10|]. cbn in K. injection K as <- <-.
    repeat split; try (vm_compute; discriminate).  }
  split; [right; cbn; auto|]. split; [reflexivity|]. split; [vm_compute; auto|]. split; [exact st_stack|]. split; [exact st_helpers|].
  split; [apply st_tidy|]. split; [apply st_wraps; right; cbn; auto|]. split; [apply st_recovers|]. split; [reflexivity|].
  split; [vm_compute; reflexivity|]. split; [reflexivity|]. split; [vm_compute; discriminate|].
  split; [apply st_decrypts, st_multi_defined|]. split; [vm_compute; reflexivity|]. split; vm_compute; reflexivity.
Qed.

(** A raw AES or raw RSA keyring is tidy, wraps, is recovered by the keyring with the same names and the key, and never
    dereferences NULL. *)
Theorem C70_raw_keyrings : forall cr rs x y alg, crypto_sizes cr -> crypto_bytes cr -> rsa_bytes rs -> suite alg ->
  raw_ok (fst x) -> kenv_ok (snd x) -> raw_ok (fst y) ->
  tidy (raw_keyring cr rs x) alg 1 /\
  (crypto_works cr -> kenv_works (snd x) -> can_wrap rs (fst x) -> wraps (raw_keyring cr rs x) alg) /\
  (dec_inverts cr -> counterpart rs (fst x) (fst y) -> kenv_works (snd y) -> recovers (raw_keyring cr rs x) (raw_keyring cr rs y) alg) /\
  (forall ctx a, snd (keyring_on_encrypt (raw_keyring cr rs x) ctx alg a) <> KrUB) /\
  (forall edks ctx d, snd (keyring_on_decrypt (raw_keyring cr rs y) edks ctx alg d) <> KrUB).
Proof. exact C70_raw_lemma. Qed.
Print Assumptions C70_raw_keyrings.

(** A multi-keyring of raw keyrings is tidy, wraps, and is recovered by any multi-keyring of raw keyrings, and by any single
    one, whose members each have either other names or the key, as long as one member has a key and works. *)
Theorem C70_multi_keyrings : forall cr rs x l mem y ys mem2 alg, crypto_sizes cr -> crypto_bytes cr -> rsa_bytes rs -> suite alg ->
  Forall (fun x => raw_ok (fst x) /\ kenv_ok (snd x)) (x :: l) -> Forall (fun y => raw_ok (fst y)) (y :: ys) ->
  (Nlen (x :: l) <= 65535 -> tidy (raw_multi cr rs x l mem) alg (Nlen (x :: l))) /\
  (crypto_works cr -> Forall (wrapper rs) (x :: l) -> mm_init mem = None -> (forall n, mm_edks mem n = true) -> wraps (raw_multi cr rs x l mem) alg) /\
  (dec_inverts cr -> rights rs (x :: l) (y :: ys) -> recovers (raw_multi cr rs x l mem) (raw_multi cr rs y ys mem2) alg) /\
  (dec_inverts cr -> rights rs (x :: l) [y] -> recovers (raw_multi cr rs x l mem) (raw_keyring cr rs y) alg) /\
  (forall ctx a, snd (keyring_on_encrypt (raw_multi cr rs x l mem) ctx alg a) <> KrUB) /\
  (forall edks ctx d, snd (keyring_on_decrypt (raw_multi cr rs y ys mem2) edks ctx alg d) <> KrUB).
Proof. exact C70_multi_lemma. Qed.
Print Assumptions C70_multi_keyrings.

Example C70_keyrings_example :
  crypto_sizes toy_cr /\ crypto_bytes toy_cr /\ crypto_works toy_cr /\ dec_inverts toy_cr /\ rsa_bytes st_rsa /\ suite 0x0578 /\
  Forall (fun x => raw_ok (fst x) /\ kenv_ok (snd x)) [st_aes1; st_pub; st_aes2] /\ Forall (fun y => raw_ok (fst y)) [st_other; st_priv] /\
  Forall (wrapper st_rsa) [st_aes1; st_pub; st_aes2] /\ rights st_rsa [st_aes1; st_pub; st_aes2] [st_other; st_priv] /\
  counterpart st_rsa (fst st_pub) (fst st_priv) /\ kenv_works (snd st_priv) /\ mm_init good_mem = None /\ (forall n, mm_edks good_mem n = true) /\
  Nlen (ka_edks (fst (keyring_on_encrypt st_write toy_ctx 0x0578 fresh_args))) = 3 /\
  da_key (fst (keyring_on_decrypt st_read (ka_edks (fst (keyring_on_encrypt st_write toy_ctx 0x0578 fresh_args))) toy_ctx 0x0578 no_dargs)) <> None.
Proof.
  split; [exact toy_sizes|]. split; [exact toy_bytes|]. split; [exact toy_works|]. split; [exact toy_inverts|]. split; [exact st_rsa_bytes|].
  split; [right; cbn; auto|]. split; [exact st_write_ok|]. split; [exact st_read_ok|]. split; [exact st_wrappers|]. split; [exact st_rights|].
  split. { repeat split. exists [4], [4]. split; [reflexivity|]. split; [reflexivity|]. exact st_rsa_pair. }
  split; [exact st_ke_works|]. split; [reflexivity|]. split; [reflexivity|]. split; vm_compute; [reflexivity|discriminate].
Qed.
