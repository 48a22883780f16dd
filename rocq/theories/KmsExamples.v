(** Concrete KMS keyrings, used only to show that the hypotheses of the KMS theorems can be met and as witnesses of refutations. *)
From Verif Require Import Base AlgModel EncCtxModel HdrModel CryptoModel SessionModel KeyringModel KmsModel
  WireSpec SessionSpec KeyringSpec KmsSpec BaseProofs SessionExamples StreamExamples KeyringExamples ArnProofs KmsProofs MrkProofs.
From Coq Require Import String.
Import List.
Open Scope list_scope.
Open Scope N_scope.

Definition arn_a : list N := text "arn:aws:kms:us-west-2:658956600833:key/b3537ef1".
Definition arn_b : list N := text "arn:aws:kms:eu-central-1:658956600833:key/75414c93".
Definition mrk_us : list N := text "arn:aws:kms:us-east-1:658956600833:key/mrk-80bd8ecd".
Definition mrk_eu : list N := text "arn:aws:kms:eu-west-1:658956600833:key/mrk-80bd8ecd".
Definition aws_filter : dfilter := mk_filter (text "aws") [text "658956600833"].

(** A KMS whose ciphertext is the plaintext with a byte in front. *)
Definition toy_call (i : nat) (rq : kms_request) : option kms_result :=
  match kq_op rq with
  | OpEncrypt p => Some (mk_kms_result (kq_key rq) (7 :: p) [])
  | OpGenerate n => let p := repeat 5 (N.to_nat n) in Some (mk_kms_result (kq_key rq) (7 :: p) p)
  | OpDecrypt (7 :: p) => Some (mk_kms_result (kq_key rq) [] p)
  | OpDecrypt _ => None
  end.
Definition toy_env : kms_env := mk_kms_env (fun _ _ => true) toy_call (fun _ => None) (fun _ => true) (fun _ => true) (fun _ => true) 42.
(** The caller's EDK list cannot grow beyond one. *)
Definition full_env : kms_env := mk_kms_env (fun _ _ => true) toy_call (fun _ => None) (fun n => Nat.ltb n 1) (fun _ => true) (fun _ => true) 42.
(** KMS is unreachable from the second key on. *)
Definition broken_env : kms_env := mk_kms_env (fun _ _ => true) (fun i rq => match i with O => toy_call i rq | _ => None end)
  (fun _ => None) (fun _ => true) (fun _ => true) (fun _ => true) 42.
(** KMS answers with a different key. *)
Definition lying_env : kms_env := mk_kms_env (fun _ _ => true)
  (fun i rq => match toy_call i rq with Some x => Some (mk_kms_result arn_b (kx_cipher x) (kx_plain x)) | None => None end)
  (fun _ => None) (fun _ => true) (fun _ => true) (fun _ => true) 42.
(** KMS generates an empty data key. *)
Definition empty_env : kms_env := mk_kms_env (fun _ _ => true) (fun i rq => Some (mk_kms_result (kq_key rq) [1] []))
  (fun _ => None) (fun _ => true) (fun _ => true) (fun _ => true) 42.

Definition toy_kms : kms := mk_kms [arn_a; arn_b] None [text "grant"].
Definition kms_b : kms := mk_kms [arn_b] None [].
Definition kms_disc : kms := mk_kms [] (Some aws_filter) [].
Definition mrk_k_us : mrk := mk_mrk mrk_us [] None [].
Definition mrk_k_eu : mrk := mk_mrk mrk_eu [] None [].
Definition mrk_disc : mrk := mk_mrk [] (text "ap-south-1") (Some aws_filter) [].

Definition toy_kms_args : kargs := fst (snd (kms_on_encrypt toy_kms toy_env toy_ctx 0x0578 no_args)).
Definition toy_mrk_args : kargs := fst (snd (mrk_on_encrypt mrk_k_us toy_env toy_ctx 0x0578 no_args)).
Definition mrk_edk : edk := mk_edk (text "aws-kms") mrk_us (7 :: repeat 5 32).

Lemma toy_built : kms_built toy_kms.
Proof. intros s [<-|[<-|[]]]; eexists; apply parse_region_spec; (split; [reflexivity|discriminate]). Qed.
Lemma toy_calm : calm toy_env. Proof. repeat split. Qed.

(** A call that the toy KMS can undo. *)
Definition undoes (c : kms_call) : bool :=
  match snd c with
  | None => true
  | Some x => match wrapped_plain (fst c) x with Some p => bytes_eqb (kx_cipher x) (7 :: p) | None => true end
  end.
Lemma undoes_honest : forall log, forallb undoes log = true -> honest_kms log toy_env.
Proof.
  intros log F rq x p j rq' I W OP _ _. rewrite forallb_forall in F. specialize (F _ I). unfold undoes in F. cbn [snd fst] in F. rewrite W in F.
  apply bytes_eqb_spec in F. rewrite F in OP. exists (mk_kms_result (kq_key rq') [] p). cbn [toy_env kv_call]. unfold toy_call. rewrite OP. auto.
Qed.
Definition same_name (c : kms_call) : bool := match snd c with None => true | Some x => bytes_eqb (kx_key x) (kq_key (fst c)) end.
Lemma same_names : forall log, forallb same_name log = true -> names_key log.
Proof. intros log F rq x I. rewrite forallb_forall in F. specialize (F _ I). now apply bytes_eqb_spec in F. Qed.

Lemma us_mrk : mrk_arn mrk_us (text "aws") (text "us-east-1") (text "658956600833") (text "key/mrk-80bd8ecd").
Proof.
  split; [split; [split; [reflexivity|vm_compute; intuition discriminate]|vm_compute; intuition discriminate]|].
  exists (text "80bd8ecd"). exists 0%nat, 0%nat. split; [reflexivity|]. vm_compute. intuition discriminate.
Qed.
Lemma eu_mrk : mrk_arn mrk_eu (text "aws") (text "eu-west-1") (text "658956600833") (text "key/mrk-80bd8ecd").
Proof.
  split; [split; [split; [reflexivity|vm_compute; intuition discriminate]|vm_compute; intuition discriminate]|].
  exists (text "80bd8ecd"). exists 0%nat, 0%nat. split; [reflexivity|]. vm_compute. intuition discriminate.
Qed.
