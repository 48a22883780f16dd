(** Keyrings of any shape: multi-keyrings of raw AES, raw RSA, KMS and MRK-aware KMS keyrings, nested in any way. *)
From Verif Require Import Base AlgModel EncCtxModel HdrModel FrameModel CryptoModel SessionModel KeyringModel KmsModel
  WireSpec SessionSpec StreamSpec LiveSpec KeyringSpec KmsSpec StackSpec.
From Coq Require Import Permutation String.
Import List.
Open Scope list_scope.
Open Scope N_scope.

(** ** Shapes *)
Inductive leaf := LRaw (x : raw * kenv) | LKms (k : kms) (ev : kms_env) | LMrk (k : mrk) (ev : kms_env).
Inductive tree := TLeaf (x : leaf) | TMulti (g : option tree) (l : list tree) (mem : multi_mem).

Definition leaf_keyring (cr : crypto) (rs : rsa) (x : leaf) : keyring :=
  match x with LRaw x => raw_keyring cr rs x | LKms k ev => kms_keyring k ev | LMrk k ev => mrk_keyring k ev end.
Fixpoint tree_keyring (cr : crypto) (rs : rsa) (t : tree) : keyring :=
  match t with
  | TLeaf x => leaf_keyring cr rs x
  | TMulti g l mem => multi_keyring (mk_multi (match g with Some g => Some (tree_keyring cr rs g) | None => None end)
                                              (map (tree_keyring cr rs) l)) mem
  end.
(** The keyrings that are not multi-keyrings: those of the generator first. *)
Fixpoint leaves (t : tree) : list leaf :=
  match t with
  | TLeaf x => [x]
  | TMulti g l _ => match g with Some g => leaves g | None => [] end ++ flat_map leaves l
  end.

(** The keys for which a keyring wraps: one for a raw keyring, the configured ones for a KMS keyring. *)
Definition keys_of (x : leaf) : list (list N) :=
  match x with LRaw _ => [[]] | LKms k _ => kk_ids k | LMrk k _ => [mk_id k] end.
Definition places (t : tree) : list (leaf * list N) := flat_map (fun x => map (pair x) (keys_of x)) (leaves t).

Definition raw_ns (r : raw) : list N := match r with RawAes k => ra_ns k | RawRsa k => rr_ns k end.
(** The service a keyring talks to. *)
Definition service (x : leaf) : option kms_env := match x with LRaw _ => None | LKms _ ev | LMrk _ ev => Some ev end.

(** ** What KMS does *)

(** Names and ciphertexts are bytes and fit into a header; a generated key has the length asked for. *)
Definition sane_kms (ev : kms_env) : Prop := forall i rq z, kv_call ev i rq = Some z ->
  bytes_ok (kx_key z) /\ fits16 (kx_key z) /\ bytes_ok (kx_cipher z) /\ fits16 (kx_cipher z) /\
  (forall n, kq_op rq = OpGenerate n -> Nlen (kx_plain z) = n /\ bytes_ok (kx_plain z)).

(** [rq2] asks to undo what [rq], answered with [z], wrapped: same ciphertext, same pairs in the context, and the key that
    KMS named or a related one. *)
Definition undoing (rq : kms_request) (z : kms_result) (rq2 : kms_request) : Prop :=
  kq_op rq2 = OpDecrypt (kx_cipher z) /\ Permutation (kq_ctx rq2) (kq_ctx rq) /\ (kq_key rq2 = kx_key z \/ related_mrk (kq_key rq2) (kx_key z)).
(** What was wrapped through [ev1] is unwrapped through [ev2] rightly or not at all. *)
Definition truthful (ev1 ev2 : kms_env) : Prop := forall i rq z p j rq2 y,
  kv_call ev1 i rq = Some z -> wrapped_plain rq z = Some p -> undoing rq z rq2 -> kv_call ev2 j rq2 = Some y ->
  kx_key y = kq_key rq2 /\ kx_plain y = p.
(** What was wrapped with [s] through [ev1] is unwrapped through [ev2] in region [r] with [key]. *)
Definition serves (ev1 : kms_env) (s : list N) (ev2 : kms_env) (r key : list N) : Prop := forall i rq z p j rq2,
  kv_call ev1 i rq = Some z -> kq_key rq = s -> wrapped_plain rq z = Some p -> undoing rq z rq2 ->
  kq_region rq2 = r -> kq_key rq2 = key -> kv_call ev2 j rq2 <> None.
(** Asked to wrap with [s], KMS names the key [arn]. *)
Definition named (ev : kms_env) (s arn : list N) : Prop := forall i rq z,
  kv_call ev i rq = Some z -> kq_key rq = s -> wrapped_plain rq z <> None -> kx_key z = arn.

(** ** Which keyrings go together *)

(** The EDK is one about which the KMS keyring may ask for [key] in region [r]. *)
Definition may_ask (y : leaf) (e : edk) (r key : list N) : Prop :=
  match y with
  | LRaw _ => False
  | LKms k _ => kms_eligible k e r /\ key = edk_provider_info e
  | LMrk k _ => mrk_eligible k e r key
  end.

(** Keyrings as applications make them.  Raw keyrings refuse the namespace of KMS (raw_aes_keyring.c 280-284,
    raw_rsa_keyring.c 177-181). *)
Definition writer_ok (x : leaf) : Prop :=
  match x with
  | LRaw x => raw_ok (fst x) /\ kenv_ok (snd x) /\ raw_ns (fst x) <> text "aws-kms"
  | LKms k ev => kms_built k /\ sane_kms ev
  | LMrk _ ev => sane_kms ev
  end.
Definition reader_ok (y : leaf) : Prop :=
  match y with
  | LRaw y => raw_ok (fst y) /\ raw_ns (fst y) <> text "aws-kms"
  | LKms _ _ => True
  | LMrk k _ => mk_id k = [] -> mk_region k <> [] /\ ~ In 58 (mk_region k)
  end.

(** [y] opens no EDK of [x] to anything but the data key: raw keyrings have other names or the same key; a KMS keyring may
    not ask about the keys that [x] uses, or gets no false answers. *)
Definition fair (rs : rsa) (x y : leaf) : Prop :=
  match x, y with
  | LRaw x, LRaw y => apart (fst x) (fst y) \/ counterpart rs (fst x) (fst y)
  | _, _ => forall ev1 ev2, service x = Some ev1 -> service y = Some ev2 ->
      (forall i rq z r key, In (kq_key rq) (keys_of x) -> kv_call ev1 i rq = Some z -> ~ may_ask y (answer_edk z) r key) \/ truthful ev1 ev2
  end.
(** [y] opens an EDK of [x]. *)
Definition able (rs : rsa) (x y : leaf) : Prop :=
  match x, y with
  | LRaw x, LRaw y => counterpart rs (fst x) (fst y) /\ kenv_works (snd y)
  | _, _ => exists ev1 ev2 s arn r key, service x = Some ev1 /\ service y = Some ev2 /\ serves ev1 s ev2 r key /\ calm ev2 /\
      In s (keys_of x) /\ named ev1 s arn /\ forall c, may_ask y (mk_edk (text "aws-kms") arn c) r key
  end.
Definition tree_rights (rs : rsa) (t u : tree) : Prop :=
  (forall x y, In x (leaves t) -> In y (leaves u) -> fair rs x y) /\
  exists x y, In x (leaves t) /\ In y (leaves u) /\ able rs x y.

(** ** What is written *)

(** [e] was made by [x] for its key [s]. *)
Definition written_by (x : leaf) (s : list N) (ctx : enc_ctx) (p : list N) (e : edk) : Prop :=
  match x with
  | LRaw x => addressed (fst x) e
  | LKms _ ev | LMrk _ ev => exists i rq z, kv_call ev i rq = Some z /\ kq_key rq = s /\ kq_ctx rq = ctx /\ wrapped_plain rq z = Some p /\ e = answer_edk z
  end.

(** ** When wrapping works *)

(** A request to wrap a data key. *)
Definition wrapping (o : kms_op) : Prop :=
  match o with OpEncrypt p => bytes_ok p /\ Nlen p <= 32 | OpGenerate n => n <= 32 | OpDecrypt _ => False end.
(** KMS wraps with the key [s]. *)
Definition answers (ev : kms_env) (s : list N) : Prop := forall i rq, kq_key rq = s -> wrapping (kq_op rq) -> exists z, kv_call ev i rq = Some z.
Definition leaf_works (rs : rsa) (x : leaf) : Prop :=
  match x with
  | LRaw x => kenv_works (snd x) /\ can_wrap rs (fst x)
  | LKms k ev => calm ev /\ forall s, In s (kk_ids k) -> answers ev s
  | LMrk k ev => mk_id k <> [] /\ calm ev /\ answers ev (mk_id k) /\
      forall i rq z, kv_call ev i rq = Some z -> kq_key rq = mk_id k -> wrapping (kq_op rq) -> valid_key_arn (kx_key z)
  end.
(** Every multi-keyring has the memory it needs. *)
Fixpoint tree_memory (t : tree) : Prop :=
  match t with
  | TLeaf _ => True
  | TMulti g l mem => mm_init mem = None /\ (forall n, mm_edks mem n = true) /\
      match g with Some g => tree_memory g | None => True end /\ fold_right (fun t P => tree_memory t /\ P) True l
  end.
(** It can make a data key: every multi-keyring on the way to the first keyring has a generator, and that keyring has a key. *)
Fixpoint generates (t : tree) : Prop :=
  match t with
  | TLeaf x => keys_of x <> []
  | TMulti (Some g) _ _ => generates g
  | TMulti None _ _ => False
  end.
