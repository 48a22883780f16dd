(** Whole stacks: sessions whose materials manager is the default CMM on top of a keyring. *)
From Verif Require Import Base AlgModel EncCtxModel HdrModel FrameModel CryptoModel SessionModel KeyringModel
  WireSpec SessionSpec StreamSpec LiveSpec KeyringSpec.
From Coq Require Import Permutation.
Import List.
Open Scope list_scope.
Open Scope N_scope.

(** What the session gets when the CMM answers [x]. *)
Definition answer {A B} (f : A -> B) (x : cres A) (y : res B) : Prop :=
  match x with COk a => y = Ok (f a) | CErr e => y = Err e | CUB => False end.

(** In the environment [e] the session uses the default CMM [c], and ECDSA [ec]. *)
Definition generates_with (ec : ecdsa) (c : default_cmm) (e : env) : Prop := forall rq,
  fst (e_gen e rq) = fst (default_cmm_generate ec None None c rq) /\
  answer session_enc_mat (snd (default_cmm_generate ec None None c rq)) (snd (e_gen e rq)).
Definition decrypts_with (ec : ecdsa) (c : default_cmm) (e : env) : Prop := forall rq, suite (dq_alg rq) ->
  answer session_dec_mat (default_cmm_decrypt ec None c rq) (e_dec e rq).

(** Everything that is written is bytes. *)
Definition ctx_bytes (c : enc_ctx) : Prop := Forall (fun x => bytes_ok (fst x) /\ bytes_ok (snd x)) c.
Definition edk_is_bytes (e : edk) : Prop := bytes_ok (edk_provider_id e) /\ bytes_ok (edk_provider_info e) /\ bytes_ok (edk_ciphertext e).
Definition crypto_bytes (cr : crypto) : Prop :=
  (forall k iv a p c t, bytes_ok p -> cr_enc cr k iv a p = Some (c, t) -> bytes_ok c /\ bytes_ok t) /\
  (forall h s i f n k, cr_hkdf cr h s i f n = Some k -> bytes_ok k).

(** A keyring called for a new message: no data key and empty lists. *)
Definition fresh_args : kargs := mk_kargs None [] [].

(** A successful call of [ke] for suite [alg] makes at least one and at most [n] encrypted data keys, which fit into a header. *)
Definition tidy (ke : keyring) (alg n : N) : Prop := n <= 65535 /\ forall ctx a, distinct_keys ctx -> ctx_bytes ctx ->
  keyring_on_encrypt ke ctx alg fresh_args = (a, KrOk) ->
  1 <= Nlen (ka_edks a) <= n /\ Forall edk_fits (ka_edks a) /\ Forall edk_is_bytes (ka_edks a).

(** What [ke] wraps for suite [alg], [kd] unwraps, whatever the order of the pairs of the context. *)
Definition recovers (ke kd : keyring) (alg : N) : Prop := forall ctx a, distinct_keys ctx -> ctx_bytes ctx ->
  keyring_on_encrypt ke ctx alg fresh_args = (a, KrOk) ->
  exists b, ka_key a = Some b /\ forall ctx2 d, Permutation ctx2 ctx -> da_key d = None ->
    exists d' b', keyring_on_decrypt kd (ka_edks a) ctx2 alg d = (d', KrOk) /\ da_key d' = Some b' /\ kb_bytes b' = kb_bytes b.

(** Even when the encrypted data keys are given in another order. *)
Definition recovers_any_order (ke kd : keyring) (alg : N) : Prop := forall ctx a, distinct_keys ctx -> ctx_bytes ctx ->
  keyring_on_encrypt ke ctx alg fresh_args = (a, KrOk) ->
  exists b, ka_key a = Some b /\ forall ctx2 edks d, Permutation ctx2 ctx -> Permutation edks (ka_edks a) -> da_key d = None ->
    exists d' b', keyring_on_decrypt kd edks ctx2 alg d = (d', KrOk) /\ da_key d' = Some b' /\ kb_bytes b' = kb_bytes b.

(** [ke] never fails to wrap for suite [alg]. *)
Definition wraps (ke : keyring) (alg : N) : Prop := forall ctx, distinct_keys ctx -> ctx_bytes ctx -> ctx_fits ctx ->
  exists a, keyring_on_encrypt ke ctx alg fresh_args = (a, KrOk).

(** Signing keys: what the key pairs of [ec] sign in [e] verifies with the public key that [ec2] reads. *)
Definition signing_works (cr : crypto) (ec ec2 : ecdsa) (alg : N) (e : env) : Prop := In alg signed_suites ->
  forall sc pub, ec_keygen ec alg = Ok (sc, pub) -> bytes_ok pub /\ exists vk, ec_verify_start ec2 alg pub = Ok vk /\ sc_data vk = sc_data sc /\
    forall data sg, e_sign e (mk_sigctx (sc_key sc) data) = Ok sg ->
      bytes_ok sg /\ Nlen sg < 65536 /\ cr_verify cr (mk_sigctx (sc_key vk) data) sg = true.

(** Random numbers are bytes. *)
Definition rand_bytes (e : env) : Prop := forall n l, e_rand e n = Some l -> bytes_ok l.

(** The environment of a call that may encrypt with the default CMM [c] in suite [alg]. *)
Definition stack_env (cr : crypto) (ec ec2 : ecdsa) (c : default_cmm) (alg : N) (e : env) : Prop :=
  generates_with ec c e /\ rand_bytes e /\ signing_works cr ec ec2 alg e.

(** Every call of process and process_full among the calls has an environment with the property [P], and every encryption
    context the caller sets is a table of byte strings. *)
Definition stack_op (P : env -> Prop) (o : op) : Prop :=
  match o with
  | OProcess e _ _ | OProcessFull e _ _ => P e
  | OCtx c => distinct_keys c /\ ctx_bytes c
  | _ => True
  end.

(** Randomness and signing do not fail. *)
Record helpers_work (ec : ecdsa) (alg : N) (e : env) : Prop := mk_helpers_work {
  hw_rand : forall n, exists l, e_rand e n = Some l /\ Nlen l = n;
  hw_keygen : In alg signed_suites -> exists sc pub, ec_keygen ec alg = Ok (sc, pub);
  hw_sign : forall sc, exists sg, e_sign e sc = Ok sg /\ Nlen sg <= longest_signature alg;
}.

(** The context of a message of suite [alg]: the caller's context and, for the signing suites, the public key. *)
Definition message_ctx (ec : ecdsa) (alg : N) (ctx ctx' : enc_ctx) : Prop :=
  (In alg signed_suites -> exists sc pub, ec_keygen ec alg = Ok (sc, pub) /\ ctx' = ctx ++ [(reserved_key, pub)]) /\
  (~ In alg signed_suites -> ctx' = ctx).

(** The suite the default CMM uses under a policy when none was configured, or the configured one. *)
Definition stack_suite (da : option N) (c : cpolicy) (alg : N) : Prop :=
  match da with
  | Some a => alg = a
  | None => match c with CP_REQUIRE_REQUIRE | CP_REQUIRE_ALLOW => alg = 0x0578 | _ => alg = 0x0378 end
  end.

(** ** Raw keyrings, alone or in a multi-keyring *)
Inductive raw := RawAes (k : raw_aes) | RawRsa (k : raw_rsa).
Definition raw_keyring (cr : crypto) (rs : rsa) (x : raw * kenv) : keyring :=
  match fst x with RawAes k => raw_aes_keyring cr k (snd x) | RawRsa k => raw_rsa_keyring rs k (snd x) end.
(** A multi-keyring with generator [x] and children [l]. *)
Definition raw_multi (cr : crypto) (rs : rsa) (x : raw * kenv) (l : list (raw * kenv)) (mem : multi_mem) : keyring :=
  multi_keyring (mk_multi (Some (raw_keyring cr rs x)) (map (raw_keyring cr rs) l)) mem.

(** Keyrings as applications make them: namespace and name are byte strings that fit into a header. *)
Definition raw_ok (r : raw) : Prop :=
  match r with
  | RawAes k => raw_aes_ok k /\ fits16 (ra_ns k) /\ bytes_ok (ra_ns k) /\ Nlen (ra_name k) <= 65515 /\ bytes_ok (ra_name k)
  | RawRsa k => raw_rsa_ok k /\ fits16 (rr_ns k) /\ bytes_ok (rr_ns k) /\ fits16 (rr_name k) /\ bytes_ok (rr_name k)
  end.
(** Random numbers of a keyring call are bytes, as many as asked for. *)
Definition kenv_ok (ke : kenv) : Prop := random_sizes ke /\ forall i n, bytes_ok (ke_rand ke i n).
Definition kenv_works (ke : kenv) : Prop := forall i, ke_fail ke i = None.
(** RSA ciphertexts are bytes and fit into a header. *)
Definition rsa_bytes (rs : rsa) : Prop := forall pad pub seed p c, rs_enc rs pad pub seed p = Some c -> bytes_ok c /\ fits16 c.
(** Wrapping with the keyring can work: RSA encrypts data keys. *)
Definition can_wrap (rs : rsa) (r : raw) : Prop :=
  match r with
  | RawAes _ => True
  | RawRsa k => exists pub, rr_pub k = Some pub /\ forall seed p, bytes_ok p -> Nlen p <= 32 -> rs_enc rs (rr_pad k) pub seed p <> None
  end.

(** The encrypted data key [e] carries the names of [r]. *)
Definition addressed (r : raw) (e : edk) : Prop :=
  match r with
  | RawAes k => edk_provider_id e = ra_ns k /\ exists iv, Nlen iv = 12 /\ edk_provider_info e = aes_info (ra_name k) iv
  | RawRsa k => edk_provider_id e = rr_ns k /\ edk_provider_info e = rr_name k
  end.
Definition apart (r s : raw) : Prop := forall e, addressed r e -> ~ addressed s e.
(** [s] has the names of [r] and the key to unwrap what [r] wraps. *)
Definition counterpart (rs : rsa) (r s : raw) : Prop :=
  match r, s with
  | RawAes k, RawAes k2 => k = k2
  | RawRsa k, RawRsa k2 => rr_ns k2 = rr_ns k /\ rr_name k2 = rr_name k /\ rr_pad k2 = rr_pad k /\
      exists pub priv, rr_pub k = Some pub /\ rr_priv k2 = Some priv /\ rsa_pair rs pub priv
  | _, _ => False
  end.
(** A keyring that can wrap, with what it needs. *)
Definition wrapper (rs : rsa) (x : raw * kenv) : Prop := raw_ok (fst x) /\ kenv_ok (snd x) /\ kenv_works (snd x) /\ can_wrap rs (fst x).
(** Each keyring of [ys] either has other names than a keyring of [l] or is its counterpart; one of them is a counterpart and works. *)
Definition rights (rs : rsa) (l ys : list (raw * kenv)) : Prop :=
  (forall x y, In x l -> In y ys -> apart (fst x) (fst y) \/ counterpart rs (fst x) (fst y)) /\
  exists x y, In x l /\ In y ys /\ counterpart rs (fst x) (fst y) /\ kenv_works (snd y).
