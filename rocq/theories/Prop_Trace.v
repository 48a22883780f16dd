(** Property C78: what the keyring trace says about keyrings of any shape.
    Specification: TraceSpec.v, TreeSpec.v, KmsSpec.v and KeyringSpec.v.  Example data: TreeExamples.v. *)
From Verif Require Import Base AlgModel EncCtxModel HdrModel FrameModel CryptoModel SessionModel KeyringModel KmsModel
  WireSpec SessionSpec SuiteSpec StreamSpec LiveSpec KeyringSpec KmsSpec StackSpec TreeSpec TraceSpec SessionTheorems SessionExamples StreamExamples LiveExamples
  KeyringExamples StackExamples KmsExamples TreeProofs TreeExamples TraceProofs.
From Coq Require Import String.
Import List.
Open Scope list_scope.
Open Scope N_scope.

(** ** C78 *)
(** Successful wrapping appends to the trace one record for each key that wrapped, in the order of the tree: the first says
    that its keyring made the data key, if there was none before, and no other one does.  Where memory for records runs out
    some are missing, but none is wrong. *)
Theorem C78_encrypt_trace : forall cr rs t ctx alg a a', keyring_on_encrypt (tree_keyring cr rs t) ctx alg a = (a', KrOk) ->
  let all := wrap_records (match ka_key a with None => true | Some _ => false end) (places t) in
  exists recs, ka_trace a' = ka_trace a ++ recs /\ subseq recs all /\ (tree_records t -> recs = all).
Proof. exact C78_encrypt_lemma. Qed.
Print Assumptions C78_encrypt_trace.

Definition tr_out : kargs * krc := keyring_on_encrypt (tree_keyring toy_cr st_rsa tr_write) toy_ctx 0x0578 fresh_args.
Example C78_encrypt_trace_example : snd tr_out = KrOk /\ tree_records tr_write /\ Nlen (ka_trace (fst tr_out)) = 5 /\
  ka_trace (fst tr_out) = wrap_records true (places tr_write) /\ map tr_flags (ka_trace (fst tr_out)) = [11; 10; 10; 10; 2].
Proof. split; [vm_compute; reflexivity|]. split; [cbn; repeat split|]. split; [|split]; vm_compute; reflexivity. Qed.

(** Wrapping that fails leaves the trace as it was. *)
Theorem C78_failed_encryption : forall cr rs t ctx alg a a' e, Forall writer_ok (leaves t) ->
  keyring_on_encrypt (tree_keyring cr rs t) ctx alg a = (a', KrErr e) -> ka_trace a' = ka_trace a.
Proof. exact C78_failure_lemma. Qed.
Print Assumptions C78_failed_encryption.

(** The second child fails after the generator and the first child have wrapped. *)
Definition tr_broken : tree := TMulti (Some (TLeaf (LRaw st_aes1))) [TLeaf (LMrk mrk_k_us tr_env); TLeaf (LMrk (mk_mrk [] [] None []) tr_env)] good_mem.
Definition tr_old : trace_rec := mk_trace_rec (text "ns") (text "name") 1.
Example C78_failed_encryption_example : Forall writer_ok (leaves tr_broken) /\
  let r := keyring_on_encrypt (tree_keyring toy_cr st_rsa tr_broken) toy_ctx 0x0578 (mk_kargs None [tr_old] []) in
  snd r = KrErr E_BAD_STATE /\ ka_trace (fst r) = [tr_old].
Proof.
  split; [|split; vm_compute; reflexivity]. destruct st_oks as (A & _). cbn [tr_broken leaves flat_map app]. repeat apply Forall_cons; auto.
  - split; [exact A|]. split; [exact st_ke_ok|vm_compute; discriminate].
  - exact tr_sane.
  - exact tr_sane.
Qed.

(** Unwrapping: without a data key the trace is as it was; with one there is a keyring of the tree that really opened one of
    the EDKs to it, and the trace grew by the record of that keyring, or by nothing where memory ran out. *)
Theorem C78_decrypt_trace_partial : forall cr rs t ctx alg edks d d' rc, crypto_sizes cr -> Forall reader_ok (leaves t) -> Forall solid (leaves t) ->
  suite alg -> distinct_keys ctx -> Forall edk_is_bytes edks -> da_key d = None ->
  keyring_on_decrypt (tree_keyring cr rs t) edks ctx alg d = (d', rc) ->
  da_key d' = None /\ da_trace d' = da_trace d \/
  exists y e b recs, In y (leaves t) /\ In e edks /\ da_key d' = Some b /\ unwraps cr rs y ctx alg e (kb_bytes b) /\
    da_trace d' = da_trace d ++ recs /\ subseq recs [unwrap_record y e] /\ (leaf_records y -> recs = [unwrap_record y e]).
Proof. exact C78_decrypt_lemma. Qed.
Print Assumptions C78_decrypt_trace_partial.

(** A KMS that never decrypts to nothing. *)
Definition solid_call (i : nat) (rq : kms_request) : option kms_result :=
  match tr_call i rq with
  | Some z => match kq_op rq, kx_plain z with OpDecrypt _, [] => None | _, _ => Some z end
  | None => None
  end.
Definition solid_env : kms_env := mk_kms_env (fun _ _ => true) solid_call (fun _ => None) (fun _ => true) (fun _ => true) (fun _ => true) 42.
Definition tr_solid : tree := TMulti None [TLeaf (LRaw st_other); TMulti (Some (TLeaf (LMrk mrk_k_eu solid_env))) [] good_mem] good_mem.
Definition tr_back : dargs * krc := keyring_on_decrypt (tree_keyring toy_cr st_rsa tr_solid) (ka_edks (fst tr_out)) toy_ctx 0x0578 no_dargs.
Example C78_decrypt_trace_example : crypto_sizes toy_cr /\ Forall reader_ok (leaves tr_solid) /\ Forall solid (leaves tr_solid) /\
  suite 0x0578 /\ distinct_keys toy_ctx /\ Forall edk_is_bytes (ka_edks (fst tr_out)) /\ da_key no_dargs = None /\
  snd tr_back = KrOk /\ da_key (fst tr_back) = Some (mk_kbuf 42 (repeat 5 32)) /\ da_trace (fst tr_back) = [mk_trace_rec (text "aws-kms") mrk_us 20].
Proof.
  split; [exact toy_sizes|]. split.
  { destruct st_oks as (_ & _ & _ & _ & A). cbn [tr_solid leaves flat_map app]. repeat apply Forall_cons; auto.
    - split; [exact A|vm_compute; discriminate].
    - cbn. discriminate. }
  split.
  { cbn [tr_solid leaves flat_map app]. constructor; [|constructor; [|constructor]].
    - intros ev i rq z c E. discriminate.
    - intros ev i rq z c E C O. cbn [service] in E. injection E as <-. cbn [solid_env kv_call] in C. unfold solid_call in C.
      destruct (tr_call i rq) as [z0|]; [|discriminate]. rewrite O in C. destruct (kx_plain z0) eqn:P; [discriminate|]. injection C as <-. congruence. }
  split; [vm_compute; tauto|]. split; [exact toy_distinct|]. split; [|vm_compute; auto].
  apply Forall_forall. intros e I. unfold edk_is_bytes.
  assert (X : forallb (fun e => forallb (fun x => x <? 256) (edk_provider_id e) && forallb (fun x => x <? 256) (edk_provider_info e) && forallb (fun x => x <? 256) (edk_ciphertext e)) (ka_edks (fst tr_out)) = true) by (vm_compute; reflexivity).
  rewrite forallb_forall in X. specialize (X e I). apply andb_prop in X as [X X3]. apply andb_prop in X as [X1 X2].
  assert (B : forall l, forallb (fun x => x <? 256) l = true -> bytes_ok l).
  { intros l F. apply Forall_forall. intros x J. rewrite forallb_forall in F. apply N.ltb_lt, F, J. }
  auto.
Qed.

(** What is missing: a KMS that decrypts to nothing makes the KMS keyring record a decryption though there is no data key
    (kms_keyring.cpp 134-146 test the copy for failure only). *)
Theorem C78_empty_answer_refuted : exists k ev e ctx d', sane_kms ev /\ edk_is_bytes e /\
  keyring_on_decrypt (tree_keyring toy_cr st_rsa (TLeaf (LKms k ev))) [e] ctx 0x0578 no_dargs = (d', KrOk) /\
  da_key d' = None /\ da_trace d' = [mk_trace_rec (text "aws-kms") (edk_provider_info e) 20].
Proof.
  exists toy_kms, tr_env, (mk_edk (text "aws-kms") arn_a [1]), []. eexists. split; [exact tr_sane|]. split.
  { destruct (key_bytes_ok arn_a (or_introl eq_refl)) as [A _]. split; [repeat (apply Forall_cons; [reflexivity|]); apply Forall_nil|]. split; [exact A|]. repeat constructor. }
  split; [vm_compute; reflexivity|]. split; [reflexivity|]. vm_compute. reflexivity.
Qed.
Print Assumptions C78_empty_answer_refuted.
