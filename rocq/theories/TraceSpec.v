(** What the keyring trace says about trees of keyrings. *)
From Verif Require Import Base AlgModel EncCtxModel HdrModel FrameModel CryptoModel SessionModel KeyringModel KmsModel
  WireSpec SessionSpec KeyringSpec KmsSpec StackSpec TreeSpec.
From Coq Require Import String.
Import List.
Open Scope list_scope.
Open Scope N_scope.

(** [l] is [m] without some of its elements. *)
Inductive subseq {A} : list A -> list A -> Prop :=
| sub_nil : subseq [] []
| sub_take : forall x l m, subseq l m -> subseq (x :: l) (x :: m)
| sub_skip : forall x l m, subseq l m -> subseq l (x :: m).

(** The record of a data key wrapped by keyring [fst q] with its key [snd q], which made the data key if [new].  Flags
    (include/aws/cryptosdk/keyring_trace.h 59-79): 1 generated, 2 encrypted, 4 decrypted, 8 signed the encryption context,
    16 verified it.  Raw RSA does not bind the context.  KMS key names end at a NUL byte. *)
Definition wrap_record (new : bool) (q : leaf * list N) : trace_rec :=
  let g := if new then 1 else 0 in
  match fst q with
  | LRaw (RawAes k, _) => mk_trace_rec (ra_ns k) (ra_name k) (g + 2 + 8)
  | LRaw (RawRsa k, _) => mk_trace_rec (rr_ns k) (rr_name k) (g + 2)
  | LKms _ _ | LMrk _ _ => mk_trace_rec (text "aws-kms") (key_name (snd q)) (g + 2 + 8)
  end.
Definition wrap_records (new : bool) (l : list (leaf * list N)) : list trace_rec :=
  match l with [] => [] | q :: l => wrap_record new q :: map (wrap_record false) l end.
Definition unwrap_record (y : leaf) (e : edk) : trace_rec :=
  match y with
  | LRaw (RawAes k, _) => mk_trace_rec (ra_ns k) (ra_name k) (4 + 16)
  | LRaw (RawRsa k, _) => mk_trace_rec (rr_ns k) (rr_name k) 4
  | LKms _ _ | LMrk _ _ => mk_trace_rec (text "aws-kms") (key_name (edk_provider_info e)) (4 + 16)
  end.

(** Memory for trace records lasts. *)
Definition leaf_records (x : leaf) : Prop :=
  match x with
  | LRaw (RawAes _, ke) => ke_fail ke 8 = None /\ ke_fail ke 2 = None
  | LRaw (RawRsa _, ke) => ke_fail ke 5 = None /\ ke_fail ke 0 = None
  | LKms _ ev | LMrk _ ev => (forall n, kv_record ev n = true) /\ (forall n, kv_trace ev n = true)
  end.
Fixpoint tree_records (t : tree) : Prop :=
  match t with
  | TLeaf x => leaf_records x
  | TMulti g l mem => (forall n, mm_trace mem n = true) /\ match g with Some g => tree_records g | None => True end /\
      fold_right (fun t P => tree_records t /\ P) True l
  end.

(** KMS does not decrypt to nothing. *)
Definition solid (y : leaf) : Prop := forall ev i rq z c, service y = Some ev -> kv_call ev i rq = Some z -> kq_op rq = OpDecrypt c -> kx_plain z <> [].

(** [y] opens [e] to [dk]: by its wrapping key, or by an answer of KMS to a request it may make. *)
Definition unwraps (cr : crypto) (rs : rsa) (y : leaf) (ctx : enc_ctx) (alg : N) (e : edk) (dk : list N) : Prop :=
  match y with
  | LRaw (RawAes k, _) => aes_opens cr k ctx alg e dk
  | LRaw (RawRsa k, _) => exists priv, rr_priv k = Some priv /\ rsa_opens rs k priv e dk
  | LKms k ev => exists r key j z, may_ask y e r key /\ kv_call ev j (decrypt_request (kk_grants k) ctx e r key) = Some z /\ kx_key z = key /\ kx_plain z = dk
  | LMrk k ev => exists r key j z, may_ask y e r key /\ kv_call ev j (decrypt_request (mk_grants k) ctx e r key) = Some z /\ kx_key z = key /\ kx_plain z = dk
  end.
