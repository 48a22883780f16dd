(** What an encryption needs from its helpers in order to succeed, and the limits of the message format. *)
From Verif Require Import Base AlgModel EncCtxModel HdrModel FrameModel CryptoModel SessionModel WireSpec SessionSpec SuiteSpec.
Import List.
Open Scope list_scope.
Open Scope N_scope.

(** Materials [em] for suite [alg] with context [ctx] that can be written into a header: the policy [c] permits the
    suite, key and signing key are what the suite asks for, there are data keys, not more than [mx] if that is a
    limit, and context, data keys and their total length fit. *)
Record fit (c : cpolicy) (mx alg : N) (ctx : enc_ctx) (em : enc_mat) : Prop := mk_fit {
  ft_alg : em_alg em = alg;
  ft_policy : policy_permits_encrypt c alg;
  ft_key : Nlen (em_key em) = suite_key_len alg;
  ft_edks : 1 <= Nlen (em_edks em) <= 65535;
  ft_max : mx = 0 \/ Nlen (em_edks em) <= mx;
  ft_sig : em_sig em <> None <-> In alg signed_suites;
  ft_ctx : ctx_fits ctx;
  ft_fields : Forall edk_fits (em_edks em);
  ft_total : Nlen (concat (map wire_edk (em_edks em))) <= 2147400000;
}.

(** The library functions do not fail (key derivation: for keys of 16 to 32 bytes). *)
Record crypto_works (cr : crypto) : Prop := mk_crypto_works {
  cw_enc : forall k iv a p, cr_enc cr k iv a p <> None;
  cw_hkdf : forall h s i f n, h <> NOSHA -> 16 <= n <= 32 -> cr_hkdf cr h s i f n <> None;
  cw_upd : forall sc b, cr_upd_ok cr sc b = true;
}.

(** The materials manager answers the request of session [s] with materials for suite [alg]. *)
Definition gen_works (e : env) (s : session) (alg : N) : Prop :=
  forall rq, visible_ctx s = Some (rq_ctx rq) -> rq_alg rq = 0 -> rq_policy rq = s_policy s ->
  exists ctx em, e_gen e rq = (ctx, Ok em) /\ fit (s_policy s) (s_max s) alg ctx em.

(** Longest signature of suite [alg]. *)
Definition longest_signature (alg : N) : N :=
  match suite_kind alg with Some (_, _, sg) => der_len sg | None => 0 end.

(** The environment of a call works for a session [s] that uses, or is going to use, suite [alg]. *)
Record env_works (e : env) (s : session) (alg : N) : Prop := mk_env_works {
  ew_gen : get_alg_id s = None -> gen_works e s alg;
  ew_alg : get_alg_id s <> None -> get_alg_id s = Some alg;
  ew_rand : forall n, exists l, e_rand e n = Some l /\ Nlen l = n;
  ew_sign : forall sc, exists sg, e_sign e sc = Ok sg /\ Nlen sg <= longest_signature alg;
}.

(** A message of [n] bytes in frames of [fs] bytes ([fs = 0]: a single block) is within the limits: frames are numbered
    with 32 bits, the number 2^32 - 1 is refused for regular frames; a single block has less than 2^36 - 32 bytes. *)
Definition size_fits (fs n : N) : Prop := if fs =? 0 then n < 68719476704 else n / fs < 4294967294.

(** The same for a session that has been given [n] bytes; a single block has the declared size. *)
Definition message_fits (s : session) (n : N) : Prop :=
  if s_fsize s =? 0 then s_known s = true -> s_precise s < 68719476704 else n / s_fsize s < 4294967294.
