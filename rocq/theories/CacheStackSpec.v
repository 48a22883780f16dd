(** Whole stacks with a cache: sessions whose materials manager is the caching CMM on top of the default CMM and keyrings,
    the cache being shared by any calls of any threads. *)
From Verif Require Import Base AlgModel EncCtxModel HdrModel CryptoModel KeyringModel WireSpec KeyringSpec
  CacheModel CacheSpec CachingModel CachingSpec.
From Verif Require Import SessionModel SessionSpec StreamSpec LiveSpec StackSpec.
From Coq Require Import Permutation.
Import List.
Open Scope list_scope.
Open Scope N_scope.

(** A signature context rebuilt from its serialised key has the same key and no data (C52 and C61 prove this of the code in
    cipher_openssl.c that serialises and reads keys). *)
Definition same_keys (io : sigio) : Prop :=
  (forall alg sc k x, si_priv io sc = Ok k -> si_sign io alg k = Ok x -> x = Some (mk_sigctx (sc_key sc) [])) /\
  (forall alg sc k x, si_pub io sc = Ok k -> si_verify io alg k = Ok x -> x = Some (mk_sigctx (sc_key sc) [])).

(** An execution of calls on one cache as in C57: contexts are tables, 64-byte partition ids, no hash collision. *)
Definition execution (io : sigio) (sha : list N -> list N) (cap : N) (jobs : nat -> job) (h : list CachingSpec.event) : Prop :=
  (exists P c, CachingSpec.exec io sha P cap jobs h c) /\ tables jobs h /\ typed jobs /\ no_collision sha jobs.

(** Every upstream answer in [h] is one of a default CMM, with ECDSA and a keyring allowed by [W]; its requests carry tables
    of byte strings. *)
Definition default_generates (W : ecdsa -> keyring -> Prop) (h : list CachingSpec.event) : Prop :=
  forall j rq ctx r, In (XUpEnc rq, REnc ctx r) (trace j h) ->
  distinct_keys (rq_ctx rq) /\ ctx_bytes (rq_ctx rq) /\
  exists ec ke da, W ec ke /\ fst (default_cmm_generate ec None None (mk_default_cmm ke da) rq) = ctx /\
    answer session_enc_mat (snd (default_cmm_generate ec None None (mk_default_cmm ke da) rq)) r.
Definition default_decrypts (ec : ecdsa) (R : keyring -> Prop) (h : list CachingSpec.event) : Prop :=
  forall j rq r, In (XUpDec rq, RDec r) (trace j h) ->
  exists kd da, R kd /\ answer session_dec_mat (default_cmm_decrypt ec None (mk_default_cmm kd da) rq) r.

(** In the environment [e] encryption materials are what some call of a caching CMM returned for the request. *)
Definition generates_cached (io : sigio) (sha : list N -> list N) (W : ecdsa -> keyring -> Prop) (e : env) : Prop :=
  forall rq ctx em, e_gen e rq = (ctx, Ok em) -> exists cap jobs h j m, execution io sha cap jobs h /\ default_generates W h /\
    jobs j = GenJob m rq /\ returns sha jobs h j (JEnc ctx (COk em)).

(** In the environment [e] the answer to each decryption request that satisfies [A] is that of some call of a caching CMM in
    which memory does not run out. *)
Definition decrypts_cached (io : sigio) (sha : list N -> list N) (ec : ecdsa) (R : keyring -> Prop) (A : dec_request -> Prop) (e : env) : Prop :=
  forall rq, A rq -> exists cap jobs h j m r, execution io sha cap jobs h /\ default_decrypts ec R h /\
    (forall x, ~ In (XMem, RMem (Some x)) (trace j h)) /\ jobs j = DecJob m rq /\ returns sha jobs h j (JDec r) /\
    match r with COk x => e_dec e rq = Ok x | CErr x => e_dec e rq = Err x | CUB => True end.

(** The requests a reader of the finished message of [w] can make. *)
Definition asks (w : world) (rq : dec_request) : Prop := exists rq0 ctx em c,
  In (EvGen rq0 ctx em) (w_log w) /\ Permutation c ctx /\ rq = mk_dec_request (em_alg em) (em_edks em) c.

(** New signature contexts have no data. *)
Definition new_contexts (ec ec2 : ecdsa) (alg : N) : Prop :=
  (forall sc pub, ec_keygen ec alg = Ok (sc, pub) -> sc_data sc = []) /\
  (forall pub vk, ec_verify_start ec2 alg pub = Ok vk -> sc_data vk = []).

(** The environment of a call that may encrypt with a caching CMM in suite [alg]. *)
Definition cached_env (cr : crypto) (io : sigio) (sha : list N -> list N) (W : ecdsa -> keyring -> Prop) (ec2 : ecdsa) (alg : N) (e : env) : Prop :=
  generates_cached io sha W e /\ rand_bytes e /\ forall ec ke, W ec ke -> signing_works cr ec ec2 alg e.

(** What the keyrings of [W] wrap, those of [R] unwrap. *)
Definition keyrings_match (W : ecdsa -> keyring -> Prop) (R : keyring -> Prop) (ec2 : ecdsa) (alg n : N) : Prop :=
  forall ec ke, W ec ke -> new_contexts ec ec2 alg /\ tidy ke alg n /\ forall kd, R kd -> recovers_any_order ke kd alg.
