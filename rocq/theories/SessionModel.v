(** The session state machine: source/session.c, source/session_encrypt.c,
    source/session_decrypt.c, include/aws/cryptosdk/private/session.h.

    Not modelled: allocation failure (except for the absurd sizes produced by the integer
    conversion in aws_cryptosdk_hdr_size), the CMM pointer (always set, session_new_from_cmm_2 /
    _keyring_2) and aws_cryptosdk_session_destroy. *)
From Verif Require Import Base AlgModel EncCtxModel HdrModel FrameModel CryptoModel.

(** enum aws_cryptosdk_mode, include/aws/cryptosdk/session.h 77-81; [M_INVALID]: any other value. *)
Inductive smode := M_ENCRYPT | M_DECRYPT | M_DECRYPT_UNSIGNED | M_INVALID (n : N).

(** enum session_state, include/aws/cryptosdk/private/session.h 25-47 *)
Inductive sstate :=
| ST_CONFIG | ST_ERROR | ST_DONE
| ST_READ_HEADER | ST_UNWRAP_KEY | ST_DECRYPT_BODY | ST_CHECK_TRAILER
| ST_GEN_KEY | ST_WRITE_HEADER | ST_ENCRYPT_BODY | ST_WRITE_TRAILER.

Definition sstate_eq_dec (a b : sstate) : {a = b} + {a <> b}.
Proof. decide equality. Defined.
Definition sstate_eqb (a b : sstate) : bool := if sstate_eq_dec a b then true else false.

(** enum aws_cryptosdk_commitment_policy, include/aws/cryptosdk/materials.h 105-126 *)
Inductive cpolicy :=
| CP_REQUIRE_REQUIRE | CP_REQUIRE_ALLOW | CP_FORBID_ALLOW | CP_INVALID (n : N).

(** struct aws_cryptosdk_session, include/aws/cryptosdk/private/session.h 49-99.  header_copy and
    header_size: [s_hcopy] is the content of the buffer, [None] the NULL pointer.  The keyring trace
    is a list of opaque records.  [s_sig]: [None] is the NULL pointer. *)
Record session := mk_session {
  s_error : err;
  s_mode : smode;
  s_state : sstate;
  s_policy : cpolicy;
  s_precise : N;
  s_bound : N;
  s_sofar : N;
  s_known : bool;
  s_hcopy : option (list N);
  s_hsize : N;
  s_hdr : hdr;
  s_fsize : N;
  s_trace : list N;
  s_iest : N;
  s_oest : N;
  s_seqno : N;
  s_alg : option alg_props;
  s_key : list N;
  s_commit : list N;
  s_sig : option sigctx;
  s_cmm_ok : bool;
  s_max : N;
}.

Definition set_error (x : err) (s : session) : session :=
    mk_session x (s_mode s) (s_state s) (s_policy s) (s_precise s) (s_bound s) (s_sofar s)
    (s_known s) (s_hcopy s) (s_hsize s) (s_hdr s) (s_fsize s) (s_trace s) (s_iest s) (s_oest s)
    (s_seqno s) (s_alg s) (s_key s) (s_commit s) (s_sig s) (s_cmm_ok s) (s_max s).
Definition set_state (x : sstate) (s : session) : session :=
    mk_session (s_error s) (s_mode s) x (s_policy s) (s_precise s) (s_bound s) (s_sofar s)
    (s_known s) (s_hcopy s) (s_hsize s) (s_hdr s) (s_fsize s) (s_trace s) (s_iest s) (s_oest s)
    (s_seqno s) (s_alg s) (s_key s) (s_commit s) (s_sig s) (s_cmm_ok s) (s_max s).
Definition set_policy (x : cpolicy) (s : session) : session :=
    mk_session (s_error s) (s_mode s) (s_state s) x (s_precise s) (s_bound s) (s_sofar s) (s_known
    s) (s_hcopy s) (s_hsize s) (s_hdr s) (s_fsize s) (s_trace s) (s_iest s) (s_oest s) (s_seqno s)
    (s_alg s) (s_key s) (s_commit s) (s_sig s) (s_cmm_ok s) (s_max s).
Definition set_precise (x : N) (s : session) : session :=
    mk_session (s_error s) (s_mode s) (s_state s) (s_policy s) x (s_bound s) (s_sofar s) (s_known
    s) (s_hcopy s) (s_hsize s) (s_hdr s) (s_fsize s) (s_trace s) (s_iest s) (s_oest s) (s_seqno s)
    (s_alg s) (s_key s) (s_commit s) (s_sig s) (s_cmm_ok s) (s_max s).
Definition set_bound (x : N) (s : session) : session :=
    mk_session (s_error s) (s_mode s) (s_state s) (s_policy s) (s_precise s) x (s_sofar s)
    (s_known s) (s_hcopy s) (s_hsize s) (s_hdr s) (s_fsize s) (s_trace s) (s_iest s) (s_oest s)
    (s_seqno s) (s_alg s) (s_key s) (s_commit s) (s_sig s) (s_cmm_ok s) (s_max s).
Definition set_sofar (x : N) (s : session) : session :=
    mk_session (s_error s) (s_mode s) (s_state s) (s_policy s) (s_precise s) (s_bound s) x
    (s_known s) (s_hcopy s) (s_hsize s) (s_hdr s) (s_fsize s) (s_trace s) (s_iest s) (s_oest s)
    (s_seqno s) (s_alg s) (s_key s) (s_commit s) (s_sig s) (s_cmm_ok s) (s_max s).
Definition set_known (x : bool) (s : session) : session :=
    mk_session (s_error s) (s_mode s) (s_state s) (s_policy s) (s_precise s) (s_bound s) (s_sofar
    s) x (s_hcopy s) (s_hsize s) (s_hdr s) (s_fsize s) (s_trace s) (s_iest s) (s_oest s) (s_seqno
    s) (s_alg s) (s_key s) (s_commit s) (s_sig s) (s_cmm_ok s) (s_max s).
Definition set_hcopy (x : option (list N)) (s : session) : session :=
    mk_session (s_error s) (s_mode s) (s_state s) (s_policy s) (s_precise s) (s_bound s) (s_sofar
    s) (s_known s) x (s_hsize s) (s_hdr s) (s_fsize s) (s_trace s) (s_iest s) (s_oest s) (s_seqno
    s) (s_alg s) (s_key s) (s_commit s) (s_sig s) (s_cmm_ok s) (s_max s).
Definition set_hsize (x : N) (s : session) : session :=
    mk_session (s_error s) (s_mode s) (s_state s) (s_policy s) (s_precise s) (s_bound s) (s_sofar
    s) (s_known s) (s_hcopy s) x (s_hdr s) (s_fsize s) (s_trace s) (s_iest s) (s_oest s) (s_seqno
    s) (s_alg s) (s_key s) (s_commit s) (s_sig s) (s_cmm_ok s) (s_max s).
Definition set_hdr (x : hdr) (s : session) : session :=
    mk_session (s_error s) (s_mode s) (s_state s) (s_policy s) (s_precise s) (s_bound s) (s_sofar
    s) (s_known s) (s_hcopy s) (s_hsize s) x (s_fsize s) (s_trace s) (s_iest s) (s_oest s)
    (s_seqno s) (s_alg s) (s_key s) (s_commit s) (s_sig s) (s_cmm_ok s) (s_max s).
Definition set_fsize (x : N) (s : session) : session :=
    mk_session (s_error s) (s_mode s) (s_state s) (s_policy s) (s_precise s) (s_bound s) (s_sofar
    s) (s_known s) (s_hcopy s) (s_hsize s) (s_hdr s) x (s_trace s) (s_iest s) (s_oest s) (s_seqno
    s) (s_alg s) (s_key s) (s_commit s) (s_sig s) (s_cmm_ok s) (s_max s).
Definition set_trace (x : list N) (s : session) : session :=
    mk_session (s_error s) (s_mode s) (s_state s) (s_policy s) (s_precise s) (s_bound s) (s_sofar
    s) (s_known s) (s_hcopy s) (s_hsize s) (s_hdr s) (s_fsize s) x (s_iest s) (s_oest s) (s_seqno
    s) (s_alg s) (s_key s) (s_commit s) (s_sig s) (s_cmm_ok s) (s_max s).
Definition set_iest (x : N) (s : session) : session :=
    mk_session (s_error s) (s_mode s) (s_state s) (s_policy s) (s_precise s) (s_bound s) (s_sofar
    s) (s_known s) (s_hcopy s) (s_hsize s) (s_hdr s) (s_fsize s) (s_trace s) x (s_oest s) (s_seqno
    s) (s_alg s) (s_key s) (s_commit s) (s_sig s) (s_cmm_ok s) (s_max s).
Definition set_oest (x : N) (s : session) : session :=
    mk_session (s_error s) (s_mode s) (s_state s) (s_policy s) (s_precise s) (s_bound s) (s_sofar
    s) (s_known s) (s_hcopy s) (s_hsize s) (s_hdr s) (s_fsize s) (s_trace s) (s_iest s) x (s_seqno
    s) (s_alg s) (s_key s) (s_commit s) (s_sig s) (s_cmm_ok s) (s_max s).
Definition set_seqno (x : N) (s : session) : session :=
    mk_session (s_error s) (s_mode s) (s_state s) (s_policy s) (s_precise s) (s_bound s) (s_sofar
    s) (s_known s) (s_hcopy s) (s_hsize s) (s_hdr s) (s_fsize s) (s_trace s) (s_iest s) (s_oest s)
    x (s_alg s) (s_key s) (s_commit s) (s_sig s) (s_cmm_ok s) (s_max s).
Definition set_alg (x : option alg_props) (s : session) : session :=
    mk_session (s_error s) (s_mode s) (s_state s) (s_policy s) (s_precise s) (s_bound s) (s_sofar
    s) (s_known s) (s_hcopy s) (s_hsize s) (s_hdr s) (s_fsize s) (s_trace s) (s_iest s) (s_oest s)
    (s_seqno s) x (s_key s) (s_commit s) (s_sig s) (s_cmm_ok s) (s_max s).
Definition set_key (x : list N) (s : session) : session :=
    mk_session (s_error s) (s_mode s) (s_state s) (s_policy s) (s_precise s) (s_bound s) (s_sofar
    s) (s_known s) (s_hcopy s) (s_hsize s) (s_hdr s) (s_fsize s) (s_trace s) (s_iest s) (s_oest s)
    (s_seqno s) (s_alg s) x (s_commit s) (s_sig s) (s_cmm_ok s) (s_max s).
Definition set_commit (x : list N) (s : session) : session :=
    mk_session (s_error s) (s_mode s) (s_state s) (s_policy s) (s_precise s) (s_bound s) (s_sofar
    s) (s_known s) (s_hcopy s) (s_hsize s) (s_hdr s) (s_fsize s) (s_trace s) (s_iest s) (s_oest s)
    (s_seqno s) (s_alg s) (s_key s) x (s_sig s) (s_cmm_ok s) (s_max s).
Definition set_sig (x : option sigctx) (s : session) : session :=
    mk_session (s_error s) (s_mode s) (s_state s) (s_policy s) (s_precise s) (s_bound s) (s_sofar
    s) (s_known s) (s_hcopy s) (s_hsize s) (s_hdr s) (s_fsize s) (s_trace s) (s_iest s) (s_oest s)
    (s_seqno s) (s_alg s) (s_key s) (s_commit s) x (s_cmm_ok s) (s_max s).
Definition set_cmm_ok (x : bool) (s : session) : session :=
    mk_session (s_error s) (s_mode s) (s_state s) (s_policy s) (s_precise s) (s_bound s) (s_sofar
    s) (s_known s) (s_hcopy s) (s_hsize s) (s_hdr s) (s_fsize s) (s_trace s) (s_iest s) (s_oest s)
    (s_seqno s) (s_alg s) (s_key s) (s_commit s) (s_sig s) x (s_max s).
Definition set_max (x : N) (s : session) : session :=
    mk_session (s_error s) (s_mode s) (s_state s) (s_policy s) (s_precise s) (s_bound s) (s_sofar
    s) (s_known s) (s_hcopy s) (s_hsize s) (s_hdr s) (s_fsize s) (s_trace s) (s_iest s) (s_oest s)
    (s_seqno s) (s_alg s) (s_key s) (s_commit s) (s_sig s) (s_cmm_ok s) x.

(** aws_cryptosdk_priv_is_valid_mode / _is_decrypt_mode, source/session.c 600-615 *)
Definition is_valid_mode (m : smode) : bool := match m with M_INVALID _ => false | _ => true end.
Definition is_decrypt_mode (m : smode) : bool :=
  match m with M_DECRYPT | M_DECRYPT_UNSIGNED => true | _ => false end.
Definition is_encrypt_mode (m : smode) : bool := match m with M_ENCRYPT => true | _ => false end.

(** aws_cryptosdk_commitment_policy_is_valid, _encrypt_must_include_commitment,
    include/aws/cryptosdk/materials.h 712-733 *)
Definition policy_is_valid (c : cpolicy) : bool := match c with CP_INVALID _ => false | _ => true end.
Definition must_include_commitment (c : cpolicy) : bool :=
  match c with CP_REQUIRE_REQUIRE | CP_REQUIRE_ALLOW => true | _ => false end.

(** aws_cryptosdk_priv_algorithm_allowed_for_encrypt / _decrypt, source/session.c 576-598
    (without the assert, which the callers below account for) *)
Definition allowed_for_encrypt (alg_id : N) (c : cpolicy) : bool :=
  match c with
  | CP_REQUIRE_REQUIRE | CP_REQUIRE_ALLOW => alg_is_committing alg_id
  | CP_FORBID_ALLOW => negb (alg_is_committing alg_id)
  | CP_INVALID _ => false
  end.
Definition allowed_for_decrypt (alg_id : N) (c : cpolicy) : bool :=
  match c with
  | CP_REQUIRE_REQUIRE => alg_is_committing alg_id
  | CP_REQUIRE_ALLOW | CP_FORBID_ALLOW => true
  | CP_INVALID _ => false
  end.

(** struct aws_cryptosdk_enc_request / _enc_materials / _dec_request / _dec_materials,
    include/aws/cryptosdk/materials.h 133-230 *)
Record enc_request := mk_enc_request {
  rq_ctx : enc_ctx; rq_alg : N; rq_psize : N; rq_policy : cpolicy }.
Record enc_mat := mk_enc_mat {
  em_key : list N; em_trace : list N; em_edks : list edk; em_sig : option sigctx; em_alg : N }.
Record dec_request := mk_dec_request { dq_alg : N; dq_edks : list edk; dq_ctx : enc_ctx }.
Record dec_mat := mk_dec_mat {
  dm_key : list N; dm_trace : list N; dm_sig : option sigctx; dm_alg : N }.

(** What the environment does during one call of aws_cryptosdk_session_process: whether asserts
    are compiled in; whether the input pointer is NULL; the CMM (which may also change the
    encryption context of the request); the random generator; ECDSA signing; the indeterminate value of
    an uninitialised size_t (session_encrypt.c 324). *)
Record env := mk_env {
  e_debug : bool;
  e_in_null : bool;
  e_gen : enc_request -> enc_ctx * res enc_mat;
  e_dec : dec_request -> res dec_mat;
  e_rand : N -> option (list N);
  e_sign : sigctx -> res (list N);
  e_garbage : N;
}.

(** External interactions, in order: CMM results, AES-GCM calls that succeeded, signatures made
    and signatures accepted.  A pure observation, the code never reads it. *)
Inductive event :=
| EvGen (rq : enc_request) (ctx : enc_ctx) (m : enc_mat)
| EvRand (mid : list N)
| EvSeal (key iv aad pt ct tag : list N)
| EvUnwrap (rq : dec_request) (m : dec_mat)
| EvOpen (key iv aad ct tag pt : list N)
| EvSign (sc : sigctx) (sig : list N)
| EvVerified (sc : sigctx) (sig : list N).

(** Outcome of one step: success, failure with error code, abort(), failed assert. *)
Inductive outcome := RGo | RFail (e : err) | RAbort | RAssert.

(** Result of one iteration of the process loop: session, remaining input, bytes appended to the
    output, outcome, external interactions. *)
Record stepres := mk_step {
  sr_sess : session; sr_in : list N; sr_out : list N; sr_rc : outcome; sr_log : list event }.

(** aws_cryptosdk_priv_session_change_state, source/session.c 388-538; [None] is abort(). *)
Definition change_state (s : session) (new : sstate) : option session :=
  let st := s_state s in
  let ok := Some (set_state new s) in
  let hcopy := match s_hcopy s with Some _ => negb (s_hsize s =? 0) | None => false end in
  let body := match s_alg s with Some _ => negb (s_seqno s =? 0) | None => false end in
  if sstate_eqb st new then Some s
  else if sstate_eqb st ST_ERROR && negb (sstate_eqb new ST_CONFIG) then None
  else
    match new with
    | ST_ERROR | ST_CONFIG => ok
    | ST_READ_HEADER =>
        if sstate_eqb st ST_CONFIG && is_decrypt_mode (s_mode s) then ok else None
    | ST_UNWRAP_KEY =>
        if sstate_eqb st ST_READ_HEADER && is_decrypt_mode (s_mode s) && hcopy then ok else None
    | ST_DECRYPT_BODY =>
        if negb (sstate_eqb st ST_UNWRAP_KEY) then ok
        else if body then ok else None
    | ST_CHECK_TRAILER => if sstate_eqb st ST_DECRYPT_BODY then ok else None
    | ST_GEN_KEY => if sstate_eqb st ST_CONFIG && is_encrypt_mode (s_mode s) then ok else None
    | ST_WRITE_HEADER =>
        if is_encrypt_mode (s_mode s) && sstate_eqb st ST_GEN_KEY && hcopy then ok else None
    | ST_ENCRYPT_BODY => if sstate_eqb st ST_WRITE_HEADER && body then ok else None
    | ST_WRITE_TRAILER => if sstate_eqb st ST_ENCRYPT_BODY then ok else None
    | ST_DONE =>
        match st with
        | ST_ENCRYPT_BODY | ST_DECRYPT_BODY | ST_CHECK_TRAILER | ST_WRITE_TRAILER => ok
        | _ => None
        end
    end.

(** aws_cryptosdk_priv_fail_session, source/session.c 540-547 (a change to ST_ERROR is never an
    illegal transition). *)
Definition fail_session (s : session) (e : err) : session :=
  if sstate_eqb (s_state s) ST_ERROR then s else set_state ST_ERROR (set_error e s).

(** Continue with a state change at the end of a step. *)
Definition finish (os : option session) (input out : list N) (log : list event) (s : session)
  : stepres :=
  match os with
  | Some s' => mk_step s' input out RGo log
  | None => mk_step s input out RAbort log
  end.

(** aws_cryptosdk_sig_update, source/cipher_openssl.c 805-823; [None]: CRYPTO_UNKNOWN raised. *)
Definition sig_update (cr : crypto) (sc : sigctx) (b : list N) : option sigctx :=
  match b with
  | [] => Some sc
  | _ => if cr_upd_ok cr sc b then Some (mk_sigctx (sc_key sc) (sc_data sc ++ b)) else None
  end.
Definition sig_update_opt (cr : crypto) (osc : option sigctx) (b : list N) : option (option sigctx) :=
  match osc with
  | None => Some None
  | Some sc => match sig_update cr sc b with Some sc' => Some (Some sc') | None => None end
  end.

(** ** Encrypt path *)

Definition set_hdr_mid (mid : list N) (h : hdr) : hdr :=
  mk_hdr (h_alg_id h) (h_frame_len h) (h_iv h) (h_auth_tag h) mid (h_alg_suite_data h)
    (h_enc_ctx h) (h_edks h) (h_auth_len h).
Definition set_hdr_ctx (c : enc_ctx) (h : hdr) : hdr :=
  mk_hdr (h_alg_id h) (h_frame_len h) (h_iv h) (h_auth_tag h) (h_message_id h) (h_alg_suite_data h)
    c (h_edks h) (h_auth_len h).
Definition set_hdr_suite (d : list N) (h : hdr) : hdr :=
  mk_hdr (h_alg_id h) (h_frame_len h) (h_iv h) (h_auth_tag h) (h_message_id h) d
    (h_enc_ctx h) (h_edks h) (h_auth_len h).
Definition set_hdr_auth (iv tag : list N) (h : hdr) : hdr :=
  mk_hdr (h_alg_id h) (h_frame_len h) iv tag (h_message_id h) (h_alg_suite_data h)
    (h_enc_ctx h) (h_edks h) (h_auth_len h).

Definition fill (b n : N) : list N := repeat b (N.to_nat n).

(** sign_header, source/session_encrypt.c 183-269.  A header size that went negative through the
    int result of aws_cryptosdk_hdr_size cannot be allocated (OOM, 198-200).  [input] is passed
    through. *)
Definition sign_header (cr : crypto) (s : session) (p : alg_props) (input : list N)
  (log : list event) : stepres :=
  let fail s e log := mk_step s input [] (RFail e) log in
  let hsize := hdr_size (s_hdr s) in
  let s := set_hsize hsize s in
  if hsize =? 0 then fail s E_LIMIT_EXCEEDED log
  else if 2 ^ 63 <=? hsize then fail s E_OOM log
  else
    let h1 := set_hdr_auth (fill 0x42 (Nlen (h_iv (s_hdr s)))) (fill 0xDE (Nlen (h_auth_tag (s_hdr s))))
                (s_hdr s) in
    let s := set_hdr h1 s in
    match hdr_write h1 hsize with
    | Err e => fail (set_hcopy (Some (zeros hsize)) s) e log
    | Ok copy1 =>
        let s := set_hcopy (Some copy1) s in
        if negb (Nlen copy1 =? hsize) then fail s E_CRYPTO_UNKNOWN log
        else
          let to_sign := firstn (N.to_nat (sub64 hsize (authtag_len p))) copy1 in
          match sign_header_tag cr p (s_key s) to_sign with
          | Err e => fail s e log
          | Ok (iv, tag) =>
              let log := log ++ [EvSeal (cipher_key p (s_key s)) iv to_sign [] [] tag] in
              let h2 := if ap_version p =? HEADER_VERSION_1_0 then set_hdr_auth iv tag h1
                        else set_hdr_auth (h_iv h1) tag h1 in
              let s := set_hdr h2 s in
              match hdr_write h2 hsize with
              | Err e => fail (set_hcopy (Some (zeros hsize)) s) e log
              | Ok copy2 =>
                  let s := set_hcopy (Some copy2) s in
                  if negb (Nlen copy2 =? hsize) then fail s E_CRYPTO_UNKNOWN log
                  else
                    match sig_update_opt cr (s_sig s) copy2 with
                    | None => fail s E_CRYPTO_UNKNOWN log
                    | Some osc =>
                        let s := set_seqno 1 (set_sig osc s) in
                        finish (change_state s ST_WRITE_HEADER) input [] log s
                    end
              end
          end
    end.

(** build_header, source/session_encrypt.c 152-181; the uninitialised auth tag is [fill 0].
    [None]: the assert of line 167 fails. *)
Definition build_header (s : session) (p : alg_props) (m : enc_mat) : option (res session) :=
  let h := s_hdr s in
  if UINT32_MAX <? s_fsize s then Some (Err E_LIMIT_EXCEEDED)
  else match h_edks h with
       | _ :: _ => None
       | [] =>
           Some (Ok (set_hdr (mk_hdr (ap_id p) (s_fsize s) (zeros (ap_iv_len p)) (zeros (ap_tag_len p))
                                (h_message_id h) (h_alg_suite_data h) (h_enc_ctx h) (em_edks m)
                                (h_auth_len h)) s))
       end.

Definition has_sig (o : option sigctx) : bool := match o with Some _ => true | None => false end.

(** aws_cryptosdk_priv_try_gen_key, source/session_encrypt.c 50-150 *)
Definition try_gen_key (cr : crypto) (e : env) (s : session) (input : list N) : stepres :=
  let fail s e log := mk_step s input [] (RFail e) log in
  let rq := mk_enc_request (h_enc_ctx (s_hdr s)) 0 (if s_known s then s_precise s else s_bound s)
              (s_policy s) in
  let '(ctx', r) := e_gen e rq in
  let s := set_hdr (set_hdr_ctx ctx' (s_hdr s)) s in
  match r with
  | Err x => fail s x []
  | Ok m =>
      let log := [EvGen rq ctx' m] in
      let s := set_alg (alg_lookup (em_alg m)) s in
      match alg_lookup (em_alg m) with
      | None => fail s E_CRYPTO_UNKNOWN log
      | Some p =>
          if negb (Nlen (em_key m) =? ap_data_key_len p) then fail s E_CRYPTO_UNKNOWN log
          else if Nlen (em_edks m) =? 0 then fail s E_CRYPTO_UNKNOWN log
          else if negb (s_max s =? 0) && (s_max s <? Nlen (em_edks m))
          then fail s E_LIMIT_EXCEEDED log
          else if negb (Bool.eqb (negb (ap_sig_len p =? 0)) (has_sig (em_sig m)))
          then fail s E_CRYPTO_UNKNOWN log
          else if e_debug e && negb (policy_is_valid (s_policy s)) then mk_step s input [] RAssert log
          else if negb (allowed_for_encrypt (em_alg m) (s_policy s))
          then fail s E_COMMITMENT_POLICY_VIOLATION log
          else
            let s := set_cmm_ok true (set_trace (s_trace s ++ em_trace m) (set_sig (em_sig m) s)) in
            match e_rand e (message_id_len p) with
            | None => fail s E_CRYPTO_UNKNOWN log
            | Some mid =>
                let log := log ++ [EvRand mid] in
                let s := set_hdr (set_hdr_mid mid (s_hdr s)) s in
                let clen := if must_include_commitment (s_policy s) then ap_commitment_len p
                            else Nlen (h_alg_suite_data (s_hdr s)) in
                let k := derive_key cr p (em_key m) mid clen (s_key s) (s_commit s) in
                let s := set_commit (kd_commit k) (set_key (kd_key k) s) in
                let s := if must_include_commitment (s_policy s)
                         then set_hdr (set_hdr_suite (firstn (N.to_nat clen) (kd_commit k)) (s_hdr s)) s
                         else s in
                match kd_rc k with
                | KCode _ => fail s E_STALE log
                | KRaised x => fail s x log
                | KOk =>
                    match build_header s p m with
                    | None => mk_step s input [] RAssert log
                    | Some (Err x) => fail s x log
                    | Some (Ok s) => sign_header cr s p input log
                    end
                end
            end
      end
  end.

(** aws_cryptosdk_priv_try_write_header, source/session_encrypt.c 271-285; [room] is the free
    capacity of the output buffer. *)
Definition try_write_header (s : session) (room : N) (input : list N) : stepres :=
  let s := set_oest (s_hsize s) s in
  match s_hcopy s with
  | Some copy =>
      if s_hsize s <=? room then finish (change_state s ST_ENCRYPT_BODY) input copy [] s
      else mk_step s input [] RGo []
  | None => mk_step s input [] RGo []
  end.

(** Frame type and plaintext size of the next frame, source/session_encrypt.c 292-314; [None]: the
    unframed message size is not known yet. *)
Definition next_frame (s : session) : option (frame_type * N) :=
  if negb (s_fsize s =? 0) then
    if s_known s && (sub64 (s_precise s) (s_sofar s) <? s_fsize s)
    then Some (FRAME_TYPE_FINAL, sub64 (s_precise s) (s_sofar s))
    else Some (FRAME_TYPE_FRAME, s_fsize s)
  else if s_known s then Some (FRAME_TYPE_SINGLE, s_precise s)
  else None.

(** aws_cryptosdk_priv_try_encrypt_body, source/session_encrypt.c 287-398.  [in_null]: the input
    cursor has a NULL pointer, so even a zero-length advance returns NULL (348-353). *)
Definition try_encrypt_body (cr : crypto) (in_null : bool) (garbage : N) (s : session) (room : N)
  (input : list N) : stepres :=
  match next_frame s, s_alg s with
  | None, _ => mk_step (set_iest 0 (set_oest 0 s)) input [] RGo []
  | _, None => mk_step s input [] RAbort []  (* NULL dereference; unreachable *)
  | Some (ty, psize), Some p =>
      if UINT32_MAX <? s_seqno s then mk_step s input [] (RFail E_LIMIT_EXCEEDED) []
      else
        let r := serialize_frame p ty (s_seqno s) psize room in
        let s := set_iest psize
                   (set_oest (match sr_size r with Some n => n | None => garbage end) s) in
        match sr_res r with
        | Err E_SHORT_BUFFER => mk_step s input [] RGo []
        | Err _ => mk_step s input [] (RFail E_CRYPTO_UNKNOWN) []
        | Ok l =>
            if (Nlen input <? psize) || in_null then mk_step s input [] RGo []
            else
              let pt := firstn (N.to_nat psize) input in
              let rest := skipn (N.to_nat psize) input in
              match encrypt_body cr p (lo_ct_len l) pt (h_message_id (s_hdr s)) (lo_seqno l) (s_key s) ty with
              | SealAbort => mk_step s input [] RAbort []
              | SealErr _ => mk_step s input [] (RFail E_CRYPTO_UNKNOWN) []
              | SealOk iv ct tag =>
                  let out := layout_bytes l iv ct tag in
                  let log := [EvSeal (cipher_key p (s_key s)) iv
                                (frame_aad (h_message_id (s_hdr s)) ty (lo_seqno l) (Nlen pt)) pt ct tag] in
                  match sig_update_opt cr (s_sig s) out with
                  | None => mk_step s input [] (RFail E_CRYPTO_UNKNOWN) log
                  | Some osc =>
                      let s := set_seqno (add64 (s_seqno s) 1)
                                 (set_sofar (add64 (s_sofar s) psize) (set_sig osc s)) in
                      match ty with
                      | FRAME_TYPE_FRAME => mk_step s rest out RGo log
                      | _ => finish (change_state s ST_WRITE_TRAILER) rest out log s
                      end
                  end
              end
        end
  end.

(** aws_cryptosdk_priv_encrypt_compute_body_estimate, source/session_encrypt.c 34-48 *)
Definition compute_body_estimate (cr : crypto) (garbage : N) (s : session) : session :=
  match s_state s with
  | ST_ENCRYPT_BODY => sr_sess (try_encrypt_body cr false garbage s 0 [])
  | _ => s
  end.

(** aws_cryptosdk_priv_write_trailer, source/session_encrypt.c 400-448 *)
Definition write_trailer (e : env) (s : session) (room : N) (input : list N) : stepres :=
  let s := set_oest 0 (set_iest 0 s) in
  match s_alg s with
  | None => mk_step s input [] RAbort []  (* NULL dereference; unreachable *)
  | Some p =>
      if ap_sig_len p =? 0 then finish (change_state s ST_DONE) input [] [] s
      else
        let size_needed := 2 + ap_sig_len p in
        if room <? size_needed then mk_step (set_oest size_needed s) input [] RGo []
        else
          match s_sig s with
          | None => mk_step s input [] RAbort []  (* NULL dereference; unreachable *)
          | Some sc =>
              let s := set_sig None s in
              match e_sign e sc with
              | Err x => mk_step s input [] (RFail x) []
              | Ok sg =>
                  let log := [EvSign sc sg] in
                  if room <? 2 + Nlen sg then mk_step s input [] (RFail E_CRYPTO_UNKNOWN) log
                  else finish (change_state s ST_DONE) input (be_bytes 2 (Nlen sg) ++ sg) log s
              end
          end
  end.

(** ** Decrypt path *)

(** derive_data_key, source/session_decrypt.c 67-100; the assert is that of session.c 591.  -1, raised when
    HKDF fails (88-93), is [E_OTHER UINT32_MAX]. *)
Definition derive_data_key (cr : crypto) (e : env) (s : session) (p : alg_props) (m : dec_mat)
  : session * outcome :=
  if negb (Nlen (dm_key m) =? ap_data_key_len p) then (s, RFail E_CRYPTO_UNKNOWN)
  else if e_debug e && negb (policy_is_valid (s_policy s)) then (s, RAssert)
  else if negb (allowed_for_decrypt (ap_id p) (s_policy s)) then (s, RFail E_COMMITMENT_POLICY_VIOLATION)
  else
    let k := derive_key cr p (dm_key m) (h_message_id (s_hdr s)) (ap_commitment_len p)
               (s_key s) (s_commit s) in
    let s := set_commit (kd_commit k) (set_key (kd_key k) s) in
    match kd_rc k with
    | KCode x => (s, RFail x)
    | KRaised _ => (s, RFail (E_OTHER UINT32_MAX))
    | KOk =>
        if commitment_eq (firstn (N.to_nat (ap_commitment_len p)) (s_commit s)) (h_alg_suite_data (s_hdr s))
        then (s, RGo) else (s, RFail E_BAD_CIPHERTEXT)
    end.

(** validate_header, source/session_decrypt.c 102-123 *)
Definition validate_header (cr : crypto) (e : env) (s : session) (p : alg_props)
  : outcome * list event :=
  let header_size := hdr_size (s_hdr s) in
  let auth_len := h_auth_len (s_hdr s) in
  let copy := match s_hcopy s with Some c => c | None => [] end in
  if e_debug e && negb (header_size =? s_hsize s) then (RAssert, [])
  else if header_size =? 0 then (RFail E_BAD_CIPHERTEXT, [])
  else if negb (sub64 header_size auth_len =? authtag_len p) then (RFail E_BAD_CIPHERTEXT, [])
  else
    let header := firstn (N.to_nat auth_len) copy in
    let authtag := firstn (N.to_nat (authtag_len p)) (skipn (N.to_nat auth_len) copy) in
    match verify_header cr p (s_key s) authtag header with
    | (iv, Ok _) =>
        (RGo, [EvOpen (cipher_key p (s_key s)) iv header []
                 (skipn (N.to_nat (Nlen authtag - ap_tag_len p)) authtag) []])
    | (_, Err x) => (RFail x, [])
    end.

(** aws_cryptosdk_priv_unwrap_keys, source/session_decrypt.c 125-186 (with fill_request 33-65) *)
Definition unwrap_keys (cr : crypto) (e : env) (s : session) (input : list N) : stepres :=
  let stop s rc log := mk_step s input [] rc log in
  let s := set_alg (alg_lookup (h_alg_id (s_hdr s))) s in
  match alg_lookup (h_alg_id (s_hdr s)) with
  | None => stop s (RFail E_BAD_CIPHERTEXT) []
  | Some p =>
      let rq := mk_dec_request (ap_id p) (h_edks (s_hdr s)) (h_enc_ctx (s_hdr s)) in
      match e_dec e rq with
      | Err x => stop s (RFail x) []
      | Ok m =>
          let log := [EvUnwrap rq m] in
          let s := set_cmm_ok true (set_trace (s_trace s ++ dm_trace m) s) in
          match alg_lookup (dm_alg m) with
          | None => stop s (RFail E_BAD_STATE) log
          | Some mp =>
              if match s_mode s with M_DECRYPT_UNSIGNED => true | _ => false end && negb (ap_sig_len mp =? 0)
              then stop s (RFail E_SIGNED_NOT_ALLOWED) log
              else
                match derive_data_key cr e s p m with
                | (s, RGo) =>
                    match validate_header cr e s p with
                    | (RGo, vlog) =>
                        let log := log ++ vlog in
                        let continue s :=
                          let s := set_fsize (h_frame_len (s_hdr s)) (set_seqno 1 s) in
                          finish (change_state s ST_DECRYPT_BODY) input [] log s in
                        if negb (ap_sig_len p =? 0) then
                          match dm_sig m with
                          | None => stop s (RFail E_BAD_CIPHERTEXT) log
                          | Some sc =>
                              let copy := match s_hcopy s with Some c => c | None => [] end in
                              match sig_update cr sc copy with
                              | None => stop (set_sig (Some sc) s) (RFail E_CRYPTO_UNKNOWN) log
                              | Some sc' => continue (set_sig (Some sc') s)
                              end
                          end
                        else continue s
                    | (rc, vlog) => stop s rc (log ++ vlog)
                    end
                | (s, rc) => stop s rc log
                end
          end
      end
  end.

(** aws_cryptosdk_priv_try_parse_header, source/session_decrypt.c 188-229 *)
Definition try_parse_header (cr : crypto) (e : env) (s : session) (input : list N) : stepres :=
  match hdr_parse (s_max s) input with
  | Err x =>
      let s := set_hdr hdr_cleared s in
      match x with
      | E_SHORT_BUFFER =>
          let est := if s_iest s <=? Nlen input then saturating_add (Nlen input) 128 else s_iest s in
          mk_step (set_oest 0 (set_iest est s)) input [] RGo []
      | _ => mk_step s input [] (RFail x) []
      end
  | Ok (h, rest) =>
      let s := set_hsize (hdr_size h) (set_hdr h s) in
      if hdr_size h =? 0 then mk_step s rest [] (RFail E_BAD_CIPHERTEXT) []
      else if negb (hdr_size h =? Nlen input - Nlen rest)
      then mk_step s rest [] (RFail E_CRYPTO_UNKNOWN) []
      else
        let s := set_hcopy (Some (firstn (N.to_nat (hdr_size h)) input)) s in
        match change_state s ST_UNWRAP_KEY with
        | None => mk_step s rest [] RAbort []
        | Some s => unwrap_keys cr e s rest
        end
  end.

(** aws_cryptosdk_priv_try_decrypt_body, source/session_decrypt.c 231-305 *)
Definition try_decrypt_body (cr : crypto) (s : session) (room : N) (input : list N) : stepres :=
  match s_alg s with
  | None => mk_step s input [] RAbort []  (* NULL dereference; unreachable *)
  | Some p =>
      let d := deserialize_frame p (s_fsize s) input in
      let s := set_oest (ds_psize d) (set_iest (ds_csize d) s) in
      match ds_res d with
      | Err E_SHORT_BUFFER => mk_step s input [] RGo []
      | Err x => mk_step s input [] (RFail x) []
      | Ok (f, rest) =>
          if negb (s_seqno s =? fr_seqno f) then mk_step s rest [] (RFail E_BAD_CIPHERTEXT) []
          else if room <? s_oest s then mk_step s input [] RGo []
          else
            match decrypt_body cr p (s_oest s) (fr_ciphertext f) (h_message_id (s_hdr s)) (fr_seqno f)
                    (fr_iv f) (s_key s) (fr_authtag f) (fr_type f) with
            | UnsealAbort => mk_step s rest [] RAbort []
            | UnsealErr x => mk_step s rest [] (RFail x) []
            | UnsealOk pt =>
                let log := [EvOpen (cipher_key p (s_key s)) (fr_iv f)
                              (frame_aad (h_message_id (s_hdr s)) (fr_type f) (fr_seqno f)
                                 (Nlen (fr_ciphertext f)))
                              (fr_ciphertext f) (fr_authtag f) pt] in
                let s := set_seqno (add64 (s_seqno s) 1) s in
                let used := firstn (N.to_nat (Nlen input - Nlen rest)) input in
                match sig_update_opt cr (s_sig s) used with
                | None => mk_step s rest [] (RFail E_CRYPTO_UNKNOWN) log
                | Some osc =>
                    let s := set_sig osc s in
                    match fr_type f with
                    | FRAME_TYPE_FRAME => mk_step s rest pt RGo log
                    | _ => finish (change_state s ST_CHECK_TRAILER) rest pt log s
                    end
                end
            end
      end
  end.

(** aws_cryptosdk_priv_check_trailer, source/session_decrypt.c 307-345.  After a successful
    verification the state is still ST_CHECK_TRAILER; the next iteration moves to ST_DONE. *)
Definition check_trailer (cr : crypto) (s : session) (input : list N) : stepres :=
  let s := set_iest 0 (set_oest 0 s) in
  match s_sig s with
  | None => finish (change_state s ST_DONE) input [] [] s
  | Some sc =>
      match read_be 2 input with
      | Err _ => mk_step (set_iest 2 s) input [] RGo []
      | Ok (sig_len, r) =>
          match read_bytes sig_len r with
          | Err _ => mk_step (set_iest (2 + sig_len) s) input [] RGo []
          | Ok (sg, rest) =>
              let s := set_sig None s in
              if cr_verify cr sc sg then mk_step s rest [] RGo [EvVerified sc sg]
              else mk_step s rest [] (RFail E_BAD_CIPHERTEXT) []
          end
      end
  end.

(** ** The process loop *)

(** One iteration, source/session.c 269-302 *)
Definition step (cr : crypto) (e : env) (s : session) (room : N) (input : list N) : stepres :=
  match s_state s with
  | ST_CONFIG =>
      if negb (policy_is_valid (s_policy s)) then mk_step s input [] (RFail E_BAD_STATE) []
      else if is_encrypt_mode (s_mode s) then finish (change_state s ST_GEN_KEY) input [] [] s
      else finish (change_state s ST_READ_HEADER) input [] [] s
  | ST_READ_HEADER => try_parse_header cr e s input
  | ST_UNWRAP_KEY => unwrap_keys cr e s input
  | ST_DECRYPT_BODY => try_decrypt_body cr s room input
  | ST_CHECK_TRAILER => check_trailer cr s input
  | ST_GEN_KEY => try_gen_key cr e s input
  | ST_WRITE_HEADER => try_write_header s room input
  | ST_ENCRYPT_BODY => try_encrypt_body cr (e_in_null e) (e_garbage e) s room input
  | ST_WRITE_TRAILER => write_trailer e s room input
  | ST_DONE => mk_step s input [] RGo []
  | ST_ERROR => mk_step s input [] (RFail (s_error s)) []
  end.

(** Return value of an API call; [POutOfFuel]: the loop of the model did not finish. *)
Inductive api_rc := POk | PErr (e : err) | PAbort | PAssert | POutOfFuel.

(** Result of the loop: session, remaining input, output, return code, interactions. *)
Record loopres := mk_loop {
  lr_sess : session; lr_in : list N; lr_out : list N; lr_rc : api_rc; lr_log : list event }.

Definition nonempty {A} (l : list A) : bool := match l with [] => false | _ => true end.

(** The loop, source/session.c 262-307.  [room] is the free capacity. *)
Fixpoint process_loop (fuel : nat) (cr : crypto) (e : env) (s : session) (room : N)
  (input out : list N) (log : list event) : loopres :=
  match fuel with
  | O => mk_loop s input out POutOfFuel log
  | S fuel' =>
      let r := step cr e s room input in
      let out' := out ++ sr_out r in
      let log' := log ++ sr_log r in
      let made_progress :=
        nonempty (sr_out r) || negb (Nlen (sr_in r) =? Nlen input) ||
        negb (sstate_eqb (s_state (sr_sess r)) (s_state s)) in
      match sr_rc r with
      | RGo =>
          if made_progress
          then process_loop fuel' cr e (sr_sess r) (room - Nlen (sr_out r)) (sr_in r) out' log'
          else mk_loop (sr_sess r) (sr_in r) out' POk log'
      | RFail x => mk_loop (sr_sess r) (sr_in r) out' (PErr x) log'
      | RAbort => mk_loop (sr_sess r) (sr_in r) out' PAbort log'
      | RAssert => mk_loop (sr_sess r) (sr_in r) out' PAssert log'
      end
  end.

Definition loop_fuel (input : list N) : nat := length input + 12.

(** Result of aws_cryptosdk_session_process: session, return code, *out_bytes_written,
    *in_bytes_read, and the known content of the output buffer: on success the reported prefix, on
    failure the whole buffer. *)
Record procres := mk_proc {
  pr_sess : session; pr_rc : api_rc; pr_written : N; pr_read : N; pr_mem : list N;
  pr_log : list event }.

(** aws_cryptosdk_session_process, source/session.c 244-329.  [cap] is the size of the output
    buffer. *)
Definition process (cr : crypto) (e : env) (s : session) (cap : N) (input : list N) : procres :=
  let l := process_loop (loop_fuel input) cr e s cap input [] [] in
  let read := Nlen input - Nlen (lr_in l) in
  match lr_rc l with
  | POk =>
      let rc := if sstate_eqb (s_state (lr_sess l)) ST_ERROR then PErr (s_error (lr_sess l)) else POk in
      mk_proc (lr_sess l) rc (Nlen (lr_out l)) read (lr_out l) (lr_log l)
  | PErr x =>
      let s' := if sstate_eqb (s_state (lr_sess l)) ST_ERROR then lr_sess l
                else set_state ST_ERROR (set_error x (lr_sess l)) in
      mk_proc s' (PErr (s_error s')) 0 read (zeros cap) (lr_log l)
  | rc => mk_proc (lr_sess l) rc (Nlen (lr_out l)) read (lr_out l) (lr_log l)
  end.

(** ** Configuration calls *)

(** aws_cryptosdk_session_reset, source/session.c 29-69.  signctx is freed, the list of trace
    records cleared. *)
Definition reset (m : smode) (s : session) : session * api_rc :=
  let s' := mk_session E_UNKNOWN m ST_CONFIG (s_policy s) 0 UINT64_MAX 0 false None 0 hdr_cleared
              (s_fsize s) [] 1 1 0 None (zeros 32) (s_commit s) None false (s_max s) in
  if is_valid_mode m then (s', POk) else (fail_session s' E_UNIMPLEMENTED, PErr E_UNIMPLEMENTED).

(** DEFAULT_FRAME_SIZE, include/aws/cryptosdk/private/session.h *)
Definition DEFAULT_FRAME_SIZE : N := 256 * 1024.

(** aws_cryptosdk_session_new_from_cmm_2 / _keyring_2, source/session.c 71-137, for a valid mode. *)
Definition new_session (m : smode) : session :=
  fst (reset m (mk_session E_UNKNOWN m ST_CONFIG CP_REQUIRE_REQUIRE 0 0 0 false None 0 hdr_cleared
                  DEFAULT_FRAME_SIZE [] 0 0 0 None (zeros 32) (zeros 32) None false 0)).

(** aws_cryptosdk_session_set_frame_size, source/session.c 153-161; the argument is a uint32_t. *)
Definition set_frame_size (n : N) (s : session) : session * api_rc :=
  if negb (is_encrypt_mode (s_mode s)) || negb (sstate_eqb (s_state s) ST_CONFIG)
  then (s, PErr E_BAD_STATE)
  else (set_fsize (n mod two32) s, POk).

(** aws_cryptosdk_session_set_message_size, source/session.c 163-185 *)
Definition set_message_size (cr : crypto) (garbage n : N) (s : session) : session * api_rc :=
  let n := n mod two64 in
  if negb (is_encrypt_mode (s_mode s)) then (s, PErr E_BAD_STATE)
  else if s_known s then (fail_session s E_BAD_STATE, PErr E_BAD_STATE)
  else if s_bound s <? n then (fail_session s E_LIMIT_EXCEEDED, PErr E_LIMIT_EXCEEDED)
  else (compute_body_estimate cr garbage (set_known true (set_precise n s)), POk).

(** aws_cryptosdk_session_set_message_bound, source/session.c 187-201 *)
Definition set_message_bound (n : N) (s : session) : session * api_rc :=
  let n := n mod two64 in
  if negb (is_encrypt_mode (s_mode s)) then (s, PErr E_BAD_STATE)
  else if s_known s && (n <? s_precise s)
  then (fail_session s E_LIMIT_EXCEEDED, PErr E_LIMIT_EXCEEDED)
  else (if n <? s_bound s then set_bound n s else s, POk).

(** aws_cryptosdk_session_set_commitment_policy, source/session.c 203-225 *)
Definition set_commitment_policy (c : cpolicy) (s : session) : session * api_rc :=
  let s := set_policy c s in
  if negb (policy_is_valid c) then (s, PErr E_INVALID_ARGUMENT)
  else if negb (sstate_eqb (s_state s) ST_CONFIG) then (fail_session s E_BAD_STATE, PErr E_BAD_STATE)
  else (s, POk).

(** aws_cryptosdk_session_set_max_encrypted_data_keys, source/session.c 227-242 *)
Definition set_max_edks (n : N) (s : session) : session * api_rc :=
  if negb (sstate_eqb (s_state s) ST_CONFIG) then (fail_session s E_BAD_STATE, PErr E_BAD_STATE)
  else if n =? 0 then (s, PErr E_INVALID_ARGUMENT)
  else (set_max n s, POk).

(** aws_cryptosdk_session_get_enc_ctx_ptr_mut, source/session.c 563-568, and whatever the caller
    then does to the table. *)
Definition mutate_ctx (c : enc_ctx) (s : session) : session * api_rc :=
  if is_encrypt_mode (s_mode s) && sstate_eqb (s_state s) ST_CONFIG
  then (set_hdr (set_hdr_ctx c (s_hdr s)) s, POk)
  else (s, PErr E_BAD_STATE).

(** aws_cryptosdk_session_is_done, _get_alg_id, _estimate_buf, _get_enc_ctx_ptr,
    _get_keyring_trace_ptr, source/session.c 366-386, 549-561, 570-574 *)
Definition is_done (s : session) : bool := sstate_eqb (s_state s) ST_DONE.
Definition get_alg_id (s : session) : option N :=
  match s_alg s with Some p => Some (ap_id p) | None => None end.
Definition visible_ctx (s : session) : option enc_ctx :=
  if is_decrypt_mode (s_mode s) && negb (s_cmm_ok s) then None else Some (h_enc_ctx (s_hdr s)).
Definition visible_trace (s : session) : option (list N) :=
  if s_cmm_ok s then Some (s_trace s) else None.

(** aws_cryptosdk_session_process_full, source/session.c 331-364.  [pr_mem = []] with a failing
    return code before process is called: the output buffer is untouched, and so is
    *out_bytes_written ([pr_written = 0] means nothing there). *)
Definition process_full (cr : crypto) (e : env) (s : session) (cap : N) (input : list N) : procres :=
  if negb (sstate_eqb (s_state s) ST_CONFIG) then mk_proc s (PErr E_BAD_STATE) 0 0 [] []
  else
    let sized := if is_encrypt_mode (s_mode s)
                 then set_message_size cr (e_garbage e) (Nlen input) s else (s, POk) in
    match sized with
    | (s, POk) =>
        let r := process cr e s cap input in
        let r := match pr_rc r with
                 | POk =>
                     if is_done (pr_sess r) && (pr_read r =? Nlen input) then r
                     else mk_proc (set_state ST_ERROR (set_error E_BAD_CIPHERTEXT (pr_sess r)))
                            (PErr E_BAD_CIPHERTEXT) (pr_written r) (pr_read r) (pr_mem r) (pr_log r)
                 | _ => r
                 end in
        match pr_rc r with
        | PErr x => mk_proc (pr_sess r) (PErr x) 0 (pr_read r) (zeros cap) (pr_log r)
        | _ => r
        end
    | (s, rc) => mk_proc s rc 0 0 [] []
    end.

(** ** Histories of API calls *)

Inductive op :=
| OReset (m : smode)
| OSetFrame (n : N)
| OSetSize (garbage n : N)
| OSetBound (n : N)
| OSetPolicy (c : cpolicy)
| OSetMax (n : N)
| OCtx (c : enc_ctx)
| OProcess (e : env) (cap : N) (input : list N)
| OProcessFull (e : env) (cap : N) (input : list N).

(** What has happened since the last reset: the session, the input consumed and the output handed
    out by successful calls, and the external interactions of all calls. *)
Record world := mk_world {
  w_s : session; w_in : list N; w_out : list N; w_log : list event }.

Record opres := mk_opres { o_rc : api_rc; o_written : N; o_read : N; o_mem : list N }.

Definition with_session (w : world) (r : session * api_rc) : world * opres :=
  (mk_world (fst r) (w_in w) (w_out w) (w_log w), mk_opres (snd r) 0 0 []).

Definition after_process (w : world) (input : list N) (r : procres) : world * opres :=
  (match pr_rc r with
   | POk => mk_world (pr_sess r) (w_in w ++ firstn (N.to_nat (pr_read r)) input)
              (w_out w ++ pr_mem r) (w_log w ++ pr_log r)
   | _ => mk_world (pr_sess r) (w_in w) (w_out w) (w_log w ++ pr_log r)
   end,
   mk_opres (pr_rc r) (pr_written r) (pr_read r) (pr_mem r)).

Definition exec (cr : crypto) (w : world) (o : op) : world * opres :=
  let s := w_s w in
  match o with
  | OReset m => (mk_world (fst (reset m s)) [] [] [], mk_opres (snd (reset m s)) 0 0 [])
  | OSetFrame n => with_session w (set_frame_size n s)
  | OSetSize g n => with_session w (set_message_size cr g n s)
  | OSetBound n => with_session w (set_message_bound n s)
  | OSetPolicy c => with_session w (set_commitment_policy c s)
  | OSetMax n => with_session w (set_max_edks n s)
  | OCtx c => with_session w (mutate_ctx c s)
  | OProcess e cap input => after_process w input (process cr e s cap input)
  | OProcessFull e cap input => after_process w input (process_full cr e s cap input)
  end.

(** A history stops at the first call that aborts the program, fails an assert or does not end. *)
Definition stuck (rc : api_rc) : bool :=
  match rc with PAbort | PAssert | POutOfFuel => true | _ => false end.

Fixpoint run (cr : crypto) (w : world) (ops : list op) : world * list opres :=
  match ops with
  | [] => (w, [])
  | o :: ops' =>
      let '(w', r) := exec cr w o in
      if stuck (o_rc r) then (w', [r])
      else let '(w'', rs) := run cr w' ops' in (w'', r :: rs)
  end.

Definition new_world (m : smode) : world := mk_world (new_session m) [] [] [].
