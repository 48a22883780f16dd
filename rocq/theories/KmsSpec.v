(** Specification of the KMS keyrings: ARNs as texts, which keys a keyring may use, what KMS is asked and in what case its
    answer counts.  Independent of how the model parses. *)
From Verif Require Import Base AlgModel EncCtxModel HdrModel CryptoModel SessionModel KeyringModel KmsModel WireSpec SessionSpec KeyringSpec.
From Coq Require Import String.
Import List.
Open Scope list_scope.
Open Scope N_scope.

(** ** ARNs *)

(** [s] is the ARN of partition, service, region, account and resource. *)
Definition is_arn (s p sv r ac res : list N) : Prop :=
  s = text "arn:" ++ p ++ text ":" ++ sv ++ text ":" ++ r ++ text ":" ++ ac ++ text ":" ++ res /\
  ~ In 58 p /\ ~ In 58 sv /\ ~ In 58 r /\ ~ In 58 ac.

(** A resource of the given type and id: type, slash, id; the code also accepts several slashes between them and before. *)
Definition slashes (n : nat) : list N := repeat 47 n.
Definition is_resource (res ty id : list N) : Prop :=
  exists n m, res = slashes n ++ ty ++ slashes (S m) ++ id /\ ~ In 47 ty /\ ty <> [] /\ id <> [] /\ hd 0 id <> 47.

(** An ARN of a KMS key or alias, with its region and the parts that are not the region. *)
Definition kms_arn (s p r ac res : list N) : Prop :=
  is_arn s p (text "kms") r ac res /\ p <> [] /\ r <> [] /\ ac <> [].

(** The ARN of a multi-Region key. *)
Definition mrk_arn (s p r ac res : list N) : Prop :=
  kms_arn s p r ac res /\ exists id, is_resource res (text "key") (text "mrk-" ++ id).

(** The same multi-Region key, possibly in different regions. *)
Definition related_mrk (s1 s2 : list N) : Prop :=
  exists p r1 r2 ac res, mrk_arn s1 p r1 ac res /\ mrk_arn s2 p r2 ac res.

(** The key id of a multi-Region key identifier: an ARN or the id itself. *)
Definition mrk_key_id (s id : list N) : Prop :=
  (exists p r ac res, mrk_arn s p r ac res /\ is_resource res (text "key") id) \/
  (s = id /\ exists rest, s = text "mrk-" ++ rest).

(** Two of the identifiers have the key id [id]. *)
Definition same_mrk_twice (ids : list (list N)) (id : list N) : Prop :=
  exists l1 a l2 b l3, ids = l1 ++ a :: l2 ++ b :: l3 /\ mrk_key_id a id /\ mrk_key_id b id.

(** ** What a KMS keyring may use *)
Definition filter_allows (f : dfilter) (s : list N) : Prop :=
  exists p sv r ac res, is_arn s p sv r ac res /\ p = df_partition f /\ In ac (df_accounts f).

(** [s] names a key of KMS in region [r], the account and resource being unchecked. *)
Definition names_region (s r : list N) : Prop :=
  exists p rest, s = text "arn:" ++ p ++ text ":kms:" ++ r ++ text ":" ++ rest /\ ~ In 58 p /\ ~ In 58 r /\ r <> [].

Definition kms_permits (k : kms) (s : list N) : Prop :=
  (kk_ids k <> [] -> In s (kk_ids k)) /\ (forall f, kk_filter k = Some f -> filter_allows f s).

(** The EDK is one the keyring may try, in region [r]. *)
Definition kms_eligible (k : kms) (e : edk) (r : list N) : Prop :=
  edk_provider_id e = text "aws-kms" /\ kms_permits k (edk_provider_info e) /\ names_region (edk_provider_info e) r.

(** The request to decrypt it. *)
Definition decrypt_request (grants : list (list N)) (ctx : enc_ctx) (e : edk) (r key : list N) : kms_request :=
  mk_kms_request r key (OpDecrypt (edk_ciphertext e)) ctx grants.

(** The EDK made of an answer of KMS. *)
Definition answer_edk (x : kms_result) : edk := mk_edk (text "aws-kms") (kx_key x) (kx_cipher x).

(** [ids] were used in order to encrypt [plain], with the answers [xs]. *)
Definition encrypt_calls (grants : list (list N)) (ctx : enc_ctx) (plain : list N) (ids : list (list N)) (xs : list kms_result) (log : list kms_call) : Prop :=
  Forall2 (fun c idx => snd c = Some (snd idx) /\ fst c = mk_kms_request (kq_region (fst c)) (fst idx) (OpEncrypt plain) ctx grants
                        /\ names_region (fst idx) (kq_region (fst c))) log (combine ids xs)
  /\ length ids = length xs.

(** The parameters of a keyring made by the builder: key ids that name a region. *)
Definition kms_built (k : kms) : Prop := forall s, In s (kk_ids k) -> exists r, names_region s r.

(** ** What an MRK-aware keyring may use *)

(** The EDK carries the ARN of a key (not an alias) of KMS. *)
Definition carries_key_arn (e : edk) (p r ac res : list N) : Prop :=
  edk_provider_id e = text "aws-kms" /\ kms_arn (edk_provider_info e) p r ac res /\
  exists id m, res = text "key" ++ slashes (S m) ++ id /\ id <> [] /\ hd 0 id <> 47 /\ hd 0 id <> 255.

(** The keyring may ask KMS in region [cr] for key [key] about the EDK. *)
Inductive mrk_eligible (k : mrk) (e : edk) : list N -> list N -> Prop :=
| strict_same : forall p r ac res, mk_id k <> [] -> carries_key_arn e p r ac res -> edk_provider_info e = mk_id k ->
    mrk_eligible k e r (mk_id k)
| strict_related : forall p r ac res p' r' ac' res', mk_id k <> [] -> carries_key_arn e p r ac res -> related_mrk (mk_id k) (edk_provider_info e) ->
    kms_arn (mk_id k) p' r' ac' res' -> mrk_eligible k e r' (mk_id k)
| discovery_single : forall p r ac res, mk_id k = [] -> carries_key_arn e p r ac res -> r = mk_region k -> 
    (forall f, mk_filt k = Some f -> p = df_partition f /\ In ac (df_accounts f)) ->
    ~ mrk_arn (edk_provider_info e) p r ac res ->
    mrk_eligible k e r (edk_provider_info e)
| discovery_mrk : forall p r ac res key, mk_id k = [] -> carries_key_arn e p r ac res -> mrk_arn (edk_provider_info e) p r ac res ->
    (forall f, mk_filt k = Some f -> p = df_partition f /\ In ac (df_accounts f)) ->
    key = text "arn:" ++ p ++ text ":kms:" ++ mk_region k ++ text ":" ++ ac ++ text ":" ++ res ->
    mrk_eligible k e (mk_region k) key.

(** The name of a key in the trace: it ends at a NUL byte. *)
Fixpoint key_name (s : list N) : list N := match s with [] => [] | x :: s => if x =? 0 then [] else x :: key_name s end.

(** An answer that does not count: a refusal, or one with a data key of a wrong length or naming another key. *)
Definition rejected_answer (alg : N) (c : kms_call) : Prop :=
  match snd c with None => True | Some x => suite alg /\ (Nlen (kx_plain x) <> suite_key_len alg \/ kx_key x <> kq_key (fst c)) end.
(** A rejected answer that makes the keyring report failure: any in strict mode, and in discovery mode those that KMS did not refuse. *)
Definition counted_failure (k : mrk) (c : kms_call) : Prop := snd c <> None \/ mk_id k <> [].

(** The ARN of a key or alias, as the code checks it. *)
Definition valid_key_arn (s : list N) : Prop :=
  exists p r ac res ty id, kms_arn s p r ac res /\ is_resource res ty id /\ (ty = text "alias" \/ ty = text "key") /\ hd 0 id <> 255.
(** The region that [s] names, or the empty one. *)
Definition region_or_none (s r : list N) : Prop := names_region s r \/ r = [] /\ forall r', ~ names_region s r'.

(** An identifier that the MRK-aware builders accept: an ARN of a key or alias, or a bare key id or alias name. *)
Definition valid_identifier (s : list N) : Prop :=
  valid_key_arn s \/ (~ In 58 s /\ (In 47 s -> exists t, s = text "alias/" ++ t)).

(** ** An honest KMS *)

(** The plaintext of a request to wrap. *)
Definition wrapped_plain (rq : kms_request) (x : kms_result) : option (list N) :=
  match kq_op rq with OpEncrypt p => Some p | OpGenerate _ => Some (kx_plain x) | OpDecrypt _ => None end.

(** What was wrapped in the calls [log] can be unwrapped through [ev] under the same context, naming the key that KMS said was
    used, or a related one. *)
Definition honest_kms (log : list kms_call) (ev : kms_env) : Prop := forall rq x p j rq',
  In (rq, Some x) log -> wrapped_plain rq x = Some p ->
  kq_op rq' = OpDecrypt (kx_cipher x) -> kq_ctx rq' = kq_ctx rq -> kq_key rq' = kx_key x \/ related_mrk (kq_key rq') (kx_key x) ->
  exists y, kv_call ev j rq' = Some y /\ kx_key y = kq_key rq' /\ kx_plain y = p.
(** KMS named the key it was asked to use. *)
Definition names_key (log : list kms_call) : Prop := forall rq x, In (rq, Some x) log -> kx_key x = kq_key rq.
(** No failures of memory, and a client for every region. *)
Definition calm (ev : kms_env) : Prop :=
  (forall i r, kv_client ev i r = true) /\ (forall i, kv_fail ev i = None) /\ (forall n, kv_edks ev n = true) /\ (forall n, kv_trace ev n = true).

(** All identifiers given to the MRK-aware multi-keyring builder. *)
Definition all_ids (gen : option (list N)) (ids : list (list N)) : list (list N) := match gen with Some g => g :: ids | None => ids end.
