(** Concrete trees of keyrings. *)
From Verif Require Import Base AlgModel EncCtxModel HdrModel FrameModel CryptoModel SessionModel KeyringModel KmsModel
  BaseProofs WireSpec SessionSpec SuiteSpec StreamSpec LiveSpec KeyringSpec KmsSpec StackSpec TreeSpec SessionTheorems SessionExamples StreamExamples LiveExamples
  KeyringProofs KeyringExamples StackProofs StackTheorems StackKeyrings StackExamples ArnProofs KmsProofs MrkProofs KmsExamples TreeProofs.
From Coq Require Import Permutation String ZArith ZifyBool ZifyNat ZifyN.
Import List.
Open Scope list_scope.
Open Scope N_scope.

(** A KMS with two keys and a multi-Region key with two replicas.  Its ciphertexts begin with a byte for the key. *)
Definition tr_tag (key : list N) : option N :=
  if bytes_eqb key arn_a then Some 1 else if bytes_eqb key arn_b then Some 2 else if bytes_eqb key mrk_us || bytes_eqb key mrk_eu then Some 3 else None.
Definition tr_call (i : nat) (rq : kms_request) : option kms_result :=
  match tr_tag (kq_key rq) with
  | None => None
  | Some t =>
    match kq_op rq with
    | OpEncrypt p => if forallb (fun x => x <? 256) p && (Nlen p <=? 64) then Some (mk_kms_result (kq_key rq) (t :: p) []) else None
    | OpGenerate n => if n <=? 64 then let p := repeat 5 (N.to_nat n) in Some (mk_kms_result (kq_key rq) (t :: p) p) else None
    | OpDecrypt (x :: p) => if x =? t then Some (mk_kms_result (kq_key rq) [] p) else None
    | OpDecrypt [] => None
    end
  end.
Definition tr_env : kms_env := mk_kms_env (fun _ _ => true) tr_call (fun _ => None) (fun _ => true) (fun _ => true) (fun _ => true) 42.

(** The writer: two KMS keys and an AES key in the generator, a multi-Region key and an RSA key beside it.  The reader: an
    unrelated AES key and a replica of the multi-Region key in another region. *)
Definition tr_write : tree := TMulti (Some (TMulti (Some (TLeaf (LKms toy_kms tr_env))) [TLeaf (LRaw st_aes1)] good_mem))
  [TLeaf (LMrk mrk_k_us tr_env); TMulti None [TLeaf (LRaw st_pub)] good_mem] good_mem.
Definition tr_read : tree := TMulti None [TLeaf (LRaw st_other); TMulti (Some (TLeaf (LMrk mrk_k_eu tr_env))) [] good_mem] good_mem.

Lemma tr_tag_in : forall key t, tr_tag key = Some t -> t < 256 /\ In key [arn_a; arn_b; mrk_us; mrk_eu].
Proof.
  intros key t H. unfold tr_tag in H. destruct (bytes_eqb key arn_a) eqn:E1; [apply bytes_eqb_spec in E1; injection H as <-; split; [reflexivity|now left]|].
  destruct (bytes_eqb key arn_b) eqn:E2; [apply bytes_eqb_spec in E2; injection H as <-; split; [reflexivity|right; now left]|].
  destruct (bytes_eqb key mrk_us) eqn:E3; cbn [orb] in H; [apply bytes_eqb_spec in E3; injection H as <-; split; [reflexivity|do 2 right; now left]|].
  destruct (bytes_eqb key mrk_eu) eqn:E4; [apply bytes_eqb_spec in E4; injection H as <-; split; [reflexivity|do 3 right; now left]|discriminate].
Qed.
Lemma key_bytes_ok : forall key, In key [arn_a; arn_b; mrk_us; mrk_eu] -> bytes_ok key /\ fits16 key.
Proof. intros key [<-|[<-|[<-|[<-|[]]]]]; (split; [bytes|vm_compute; discriminate]). Qed.

Lemma tr_sane : sane_kms tr_env.
Proof.
  intros i rq z H. cbn [tr_env kv_call] in H. unfold tr_call in H. destruct (tr_tag (kq_key rq)) as [t|] eqn:T; [|discriminate].
  apply tr_tag_in in T as [T1 T2]. apply key_bytes_ok in T2 as [K1 K2]. destruct (kq_op rq) as [[|x p]|n|p]; try discriminate.
  3: { destruct (forallb _ p) eqn:F; cbn [andb] in H; [|discriminate]. destruct (N.leb_spec (Nlen p) 64); [|discriminate]. injection H as <-. cbn [kx_key kx_cipher kx_plain].
    split; [exact K1|]. split; [exact K2|]. split; [constructor; [exact T1|]|split; [unfold fits16; rewrite Nlen_cons; lia|discriminate]].
    apply Forall_forall. intros x I. rewrite forallb_forall in F. now apply N.ltb_lt, F. }
  2: { destruct (N.leb_spec n 64); [|discriminate]. cbv zeta in H. injection H as <-. cbn [kx_key kx_cipher kx_plain].
    assert (L : Nlen (repeat 5 (N.to_nat n)) = n) by (unfold Nlen; rewrite repeat_length; lia). assert (B : bytes_ok (repeat 5 (N.to_nat n))) by (apply repeat_bytes; reflexivity).
    split; [exact K1|]. split; [exact K2|]. split; [constructor; [exact T1|exact B]|]. split; [unfold fits16; rewrite Nlen_cons, L; lia|].
    intros n0 E. injection E as <-. auto. }
  - destruct (x =? t); [|discriminate]. injection H as <-. cbn [kx_key kx_cipher kx_plain]. split; [exact K1|]. split; [exact K2|]. split; [constructor|]. split; [vm_compute; discriminate|discriminate].
Qed.
Lemma tr_cipher : forall i rq z p, kv_call tr_env i rq = Some z -> wrapped_plain rq z = Some p ->
  exists t, tr_tag (kq_key rq) = Some t /\ kx_key z = kq_key rq /\ kx_cipher z = t :: p.
Proof.
  intros i rq z p H W. cbn [tr_env kv_call] in H. unfold tr_call in H. destruct (tr_tag (kq_key rq)) as [t|]; [|discriminate]. exists t. split; [reflexivity|].
  unfold wrapped_plain in W. destruct (kq_op rq) as [c|n|q]; [discriminate| |].
  2: { destruct (_ && _); [|discriminate]. injection H as <-. injection W as <-. auto. }
  - destruct (_ <=? _); [|discriminate]. cbv zeta in H. injection H as <-. injection W as <-. auto.
Qed.
Lemma tr_truthful : truthful tr_env tr_env.
Proof.
  intros i rq z p j rq2 y C W (O & _ & _) D. destruct (tr_cipher _ _ _ _ C W) as (t & _ & _ & X). rewrite X in O.
  cbn [tr_env kv_call] in D. unfold tr_call in D. destruct (tr_tag (kq_key rq2)) as [t2|]; [|discriminate]. rewrite O in D. destruct (t =? t2); [|discriminate]. injection D as <-. auto.
Qed.
Lemma tr_serves : forall s r key, tr_tag s = tr_tag key -> serves tr_env s tr_env r key.
Proof.
  intros s r key E i rq z p j rq2 C K W (O & _ & _) _ K2. destruct (tr_cipher _ _ _ _ C W) as (t & T & _ & X). rewrite X in O.
  cbn [tr_env kv_call]. unfold tr_call. rewrite K2, <- E, <- K, T, O, N.eqb_refl. discriminate.
Qed.
Lemma tr_named : forall s, named tr_env s s.
Proof.
  intros s i rq z C K W. destruct (wrapped_plain rq z) as [p|] eqn:E; [|congruence]. destruct (tr_cipher _ _ _ _ C E) as (t & _ & X & _). congruence.
Qed.
Lemma tr_answers : forall s, tr_tag s <> None -> answers tr_env s.
Proof.
  intros s T i rq K W. cbn [tr_env kv_call]. unfold tr_call. rewrite K. destruct (tr_tag s) as [t|]; [|congruence]. destruct (kq_op rq) as [c|n|p]; cbn [wrapping] in W; [destruct W| |].
  2: { destruct W as [B L]. assert (F : forallb (fun x => x <? 256) p = true).
    { apply forallb_forall. intros x I. apply N.ltb_lt. unfold bytes_ok in B. rewrite Forall_forall in B. exact (B x I). }
    rewrite F. cbn [andb]. destruct (N.leb_spec (Nlen p) 64); [eauto|lia]. }
  - destruct (N.leb_spec n 64); [eauto|lia].
Qed.
Lemma tr_calm : calm tr_env. Proof. repeat split. Qed.

Lemma tr_writers : Forall writer_ok (leaves tr_write).
Proof.
  destruct st_oks as (A & B & C & _). cbn [tr_write leaves flat_map app]. repeat apply Forall_cons; auto.
  - split; [exact toy_built|exact tr_sane].
  - split; [exact A|]. split; [exact st_ke_ok|vm_compute; discriminate].
  - exact tr_sane.
  - split; [exact C|]. split; [exact st_ke_ok|vm_compute; discriminate].
Qed.
Lemma tr_readers : Forall reader_ok (leaves tr_read).
Proof.
  destruct st_oks as (_ & _ & _ & _ & A). cbn [tr_read leaves flat_map app]. repeat apply Forall_cons; auto.
  - split; [exact A|vm_compute; discriminate].
  - cbn. discriminate.
Qed.
Lemma tr_may_ask : forall c, may_ask (LMrk mrk_k_eu tr_env) (mk_edk (text "aws-kms") mrk_us c) (text "eu-west-1") mrk_eu.
Proof.
  intros c. cbn [may_ask]. eapply strict_related with (k := mrk_k_eu); [discriminate| | |exact (proj1 eu_mrk)].
  - split; [reflexivity|]. split; [exact (proj1 us_mrk)|]. exists (text "mrk-80bd8ecd"), 0%nat. split; [reflexivity|]. vm_compute. intuition discriminate.
  - do 5 eexists. split; [exact eu_mrk|exact us_mrk].
Qed.
Lemma tr_rights : tree_rights st_rsa tr_write tr_read.
Proof.
  assert (T : forall x y : leaf, service x = Some tr_env -> service y = Some tr_env -> fair st_rsa x y).
  { intros x y S1 S2. destruct x; [discriminate| |]; cbn [fair]; intros ev1 ev2 E1 E2; right; rewrite S1 in E1; rewrite S2 in E2; injection E1 as <-; injection E2 as <-; exact tr_truthful. }
  split.
  - intros x y X Y. destruct Y as [<-|[<-|[]]]; destruct X as [<-|[<-|[<-|[<-|[]]]]]; try (apply T; reflexivity); try (intros ev1 ev2 E1 E2; discriminate);
      left; apply apart_ns; discriminate.
  - exists (LMrk mrk_k_us tr_env), (LMrk mrk_k_eu tr_env). split; [cbn; auto|]. split; [cbn; auto|].
    exists tr_env, tr_env, mrk_us, mrk_us, (text "eu-west-1"), mrk_eu. split; [reflexivity|]. split; [reflexivity|].
    split; [apply tr_serves; reflexivity|]. split; [exact tr_calm|]. split; [now left|]. split; [apply tr_named|exact tr_may_ask].
Qed.
Lemma tr_works : Forall (leaf_works st_rsa) (leaves tr_write).
Proof.
  pose proof st_wrappers as W. inversion W as [|? ? W1 W']; subst. inversion W' as [|? ? W2 _]; subst.
  cbn [tr_write leaves flat_map app]. repeat apply Forall_cons; auto.
  - split; [exact tr_calm|]. intros s [<-|[<-|[]]]; apply tr_answers; vm_compute; discriminate.
  - split; apply W1.
  - split; [discriminate|]. split; [exact tr_calm|]. split; [apply tr_answers; vm_compute; discriminate|].
    intros i rq z C K WR. assert (X : kx_key z = mrk_us).
    { apply (tr_named mrk_us i rq z C K). unfold wrapped_plain. destruct (kq_op rq); [destruct WR|discriminate|discriminate]. }
    rewrite X. apply valid_key_arn_spec. vm_compute. reflexivity.
  - split; apply W2.
Qed.
Lemma tr_memory : tree_memory tr_write. Proof. cbn. auto 20. Qed.

Definition tr_e : env := st_env (mk_default_cmm (tree_keyring toy_cr st_rsa tr_write) None) (mk_default_cmm (tree_keyring toy_cr st_rsa tr_read) None).
Lemma tr_defined : forall t, defined (tree_keyring toy_cr st_rsa t).
Proof. intros t. split; intros; apply C77_defined_lemma; assumption. Qed.
Lemma tr_stack : stack_env toy_cr st_ec st_ec (mk_default_cmm (tree_keyring toy_cr st_rsa tr_write) None) 0x0578 tr_e.
Proof.
  split; [apply st_generates, tr_defined|]. split.
  - intros n l E. cbn in E. injection E as <-. apply repeat_bytes. reflexivity.
  - intros _ sc pub E. cbn in E. injection E as <- <-. split; [bytes|]. eexists. split; [reflexivity|]. split; [reflexivity|].
    intros data sg E. cbn [tr_e st_env e_sign sc_key sc_data] in E. assert (E2 : sg = [toy_sum ([80; 81] ++ data)]) by congruence. subst sg. clear E. split; [constructor; [apply toy_sum_byte|constructor]|]. split; [reflexivity|].
    apply bytes_eqb_spec. reflexivity.
Qed.
