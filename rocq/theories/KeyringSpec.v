(** Specification of keyrings and the default CMM, independent of how the model computes. *)
From Verif Require Import Base AlgModel EncCtxModel HdrModel CryptoModel SessionModel KeyringModel WireSpec SessionSpec.
From Coq Require Import Permutation String.
Import List.
Open Scope list_scope.
Open Scope N_scope.

(** An algorithm suite of the message format. *)
Definition suite (alg : N) : Prop := In alg v1_suites \/ In alg v2_suites.

(** ** Keyrings in general *)

(** Every call of [k] that succeeds appends to the lists it is given. *)
Definition appends (k : keyring) : Prop := forall ctx alg a a', keyring_on_encrypt k ctx alg a = (a', KrOk) ->
  exists es ts, ka_edks a' = ka_edks a ++ es /\ ka_trace a' = ka_trace a ++ ts.

(** The keyrings [ks] are called once each, in order, from [a] to [a']; [es] and [ts] list what each one appended. *)
Inductive called (ctx : enc_ctx) (alg : N) : list keyring -> kargs -> list (list edk) -> list (list trace_rec) -> kargs -> Prop :=
| called_nil : forall a, called ctx alg [] a [] [] a
| called_cons : forall k ks a a1 e t es ts a', keyring_on_encrypt k ctx alg a = (a1, KrOk) ->
    ka_edks a1 = ka_edks a ++ e -> ka_trace a1 = ka_trace a ++ t ->
    called ctx alg ks a1 es ts a' -> called ctx alg (k :: ks) a (e :: es) (t :: ts) a'.

(** The members of a multi-keyring in the order of use. *)
Definition members (m : multi) : list keyring :=
  match m_generator m with Some g => [g] | None => [] end ++ m_children m.

(** Appending [xs] to a list of [n] elements obtains memory every time. *)
Definition can_append {A} (grow : nat -> bool) (n : nat) (xs : list A) : Prop :=
  forall i, (n <= i < n + length xs)%nat -> grow i = true.

(** The keyrings [ks] are tried in order from [a] to [a'], none leaves a data key; [errs] are the errors met. *)
Inductive no_key_from (edks : list edk) (ctx : enc_ctx) (alg : N) : list keyring -> dargs -> list err -> dargs -> Prop :=
| no_key_nil : forall a, no_key_from edks ctx alg [] a [] a
| no_key_ok : forall k ks a a1 errs a', keyring_on_decrypt k edks ctx alg a = (a1, KrOk) -> da_key a1 = None ->
    no_key_from edks ctx alg ks a1 errs a' -> no_key_from edks ctx alg (k :: ks) a errs a'
| no_key_err : forall k ks a a1 e errs a', keyring_on_decrypt k edks ctx alg a = (a1, KrErr e) -> da_key a1 = None ->
    no_key_from edks ctx alg ks a1 errs a' -> no_key_from edks ctx alg (k :: ks) a (e :: errs) a'.

(** ** Raw AES *)

(** The random generator fills the buffer it is given; [n] bytes of new memory are [n] bytes. *)
Definition random_sizes (ke : kenv) : Prop := (forall i n, Nlen (ke_rand ke i n) = n) /\ (forall n, Nlen (ke_junk ke n) = n).

(** A namespace that is not empty and an AES key. *)
Definition raw_aes_ok (k : raw_aes) : Prop := ra_ns k <> [] /\ (Nlen (ra_key k) = 16 \/ Nlen (ra_key k) = 24 \/ Nlen (ra_key k) = 32).

(** The form of the provider info of raw AES keyrings: key name, tag length in bits, IV length, IV. *)
Definition aes_info (name iv : list N) : list N := name ++ u32 128 ++ u32 12 ++ iv.

(** The additional data of a context: its serialisation, sorted by key. *)
Definition ctx_aad (ctx : enc_ctx) (aad : list N) : Prop := exists s, Permutation s ctx /\ keys_ascending s /\ ctx_fits s /\ aad = wire_ctx s.

(** The EDK [e] is addressed to [k] and opens to [dk] for the suite and context. *)
Definition aes_opens (cr : crypto) (k : raw_aes) (ctx : enc_ctx) (alg : N) (e : edk) (dk : list N) : Prop :=
  exists iv aad c t, edk_provider_id e = ra_ns k /\ edk_provider_info e = aes_info (ra_name k) iv /\ Nlen iv = 12 /\
    edk_ciphertext e = c ++ t /\ Nlen c = suite_key_len alg /\ Nlen t = 16 /\
    ctx_aad ctx aad /\ cr_dec cr (ra_key k) iv aad c t = OpenOk dk.

(** A call that wraps: random numbers, context, suite and the data key already there, if any. *)
Record wrap_call := mk_wrap_call { wc_env : kenv; wc_ctx : enc_ctx; wc_alg : N; wc_key : option kbuf }.
(** The data key the call wraps. *)
Definition wc_data_key (w : wrap_call) : list N :=
  match wc_key w with Some b => kb_bytes b | None => ke_rand (wc_env w) 2 (suite_key_len (wc_alg w)) end.
(** What it gives to AES-GCM: IV, additional data, plaintext. *)
Definition wc_seals (w : wrap_call) (iv aad p : list N) : Prop :=
  iv = ke_rand (wc_env w) 0 12 /\ ctx_aad (wc_ctx w) aad /\ p = wc_data_key w.

(** ** Raw RSA *)
Definition rsa_pair (rs : rsa) (pub priv : list N) : Prop :=
  forall pad seed p c, rs_enc rs pad pub seed p = Some c -> c <> [] /\ rs_dec rs pad priv c = Some p.
Definition rsa_opens (rs : rsa) (k : raw_rsa) (priv : list N) (e : edk) (dk : list N) : Prop :=
  edk_provider_id e = rr_ns k /\ edk_provider_info e = rr_name k /\ edk_ciphertext e <> [] /\ rs_dec rs (rr_pad k) priv (edk_ciphertext e) = Some dk.
(** Namespace and name are not empty and the padding mode is one of the three. *)
Definition raw_rsa_ok (k : raw_rsa) : Prop := rr_ns k <> [] /\ rr_name k <> [] /\ (rr_pad k = 0 \/ rr_pad k = 1 \/ rr_pad k = 2).

(** ** Default CMM *)
Definition reserved_key : list N := text "aws-crypto-public-key".

(** The suite for a request: requested, configured, or by policy. *)
Inductive suite_choice (c : default_cmm) (rq : enc_request) : N -> Prop :=
| choice_requested : rq_alg rq <> 0 -> suite_choice c rq (rq_alg rq)
| choice_configured : forall a, rq_alg rq = 0 -> dc_alg c = Some a -> suite_choice c rq a
| choice_committing : rq_alg rq = 0 -> dc_alg c = None -> rq_policy rq = CP_REQUIRE_REQUIRE \/ rq_policy rq = CP_REQUIRE_ALLOW ->
    suite_choice c rq 0x0578
| choice_not_committing : rq_alg rq = 0 -> dc_alg c = None -> rq_policy rq <> CP_REQUIRE_REQUIRE -> rq_policy rq <> CP_REQUIRE_ALLOW ->
    suite_choice c rq 0x0378.
