(** Properties C13-C16: whole messages under any buffering.  Specification: StreamSpec.v, SessionSpec.v and
    WireSpec.v.  Example data: SessionExamples.v and StreamExamples.v. *)
From Verif Require Import Base AlgModel EncCtxModel HdrModel FrameModel CryptoModel SessionModel
  WireSpec SessionSpec StreamSpec SessionTheorems SessionExamples StreamExamples SessionStream SessionRoundTrip.
From Coq Require Import Permutation.
Import List.
Open Scope list_scope.
Open Scope N_scope.

(** ** C13 *)
(** What an encryption session wrote, fed in any pieces to a decryption session that accepts the suite and unwraps
    the data key: no call fails, what is released is always a prefix of the plaintext, a session that reports done
    released all of it, and giving the rest of the message with room for the rest of the plaintext completes it. *)
Theorem C13_roundtrip_any_buffering : forall cr m ops w rq ctx em vk md opsd wd rs wd',
  crypto_sizes cr -> dec_inverts cr -> updates_ok cr ->
  history cr m ops w -> s_mode (w_s w) = M_ENCRYPT -> is_done (w_s w) = true ->
  In (EvGen rq ctx em) (w_log w) -> distinct_keys ctx -> Nlen (em_edks em) <= 65535 -> Forall edk_fits (em_edks em) ->
  signatures_verify cr em vk (w_log w) -> bytes_ok (w_out w) ->
  history cr md opsd wd -> is_decrypt_mode (s_mode (w_s wd)) = true -> s_state (w_s wd) = ST_CONFIG ->
  policy_permits_decrypt (s_policy (w_s wd)) (em_alg em) ->
  (s_max (w_s wd) = 0 \/ Nlen (em_edks em) <= s_max (w_s wd)) ->
  feed cr (unwraps (s_mode (w_s wd)) ctx em vk) (w_out w) wd rs wd' ->
  Forall (fun r => o_rc r = POk) rs /\ prefix (w_out wd') (w_in w) /\
  (is_done (w_s wd') = true -> w_in wd' = w_out w /\ w_out wd' = w_in w) /\
  (forall e cap input, unwraps (s_mode (w_s wd)) ctx em vk e -> w_in wd' ++ input = w_out w ->
     Nlen (w_in w) <= Nlen (w_out wd') + cap ->
     let w2 := fst (exec cr wd' (OProcess e cap input)) in is_done (w_s w2) = true /\ w_out w2 = w_in w).
Proof. exact C13_lemma. Qed.
Print Assumptions C13_roundtrip_any_buffering.

(** A message of a signed, committing suite in three frames, decrypted in five calls. *)
Example C13_example : let w := toy_enc 0x0578 4 CP_REQUIRE_REQUIRE in
  let wd := fst (run toy_cr (new_world M_DECRYPT) [OSetMax 1]) in
  let em := toy_mat 0x0578 in let vk := toy_sig 0x0578 in
  exists rq rs wd', crypto_sizes toy_cr /\ dec_inverts toy_cr /\ updates_ok toy_cr /\
  history toy_cr M_ENCRYPT (toy_enc_ops 0x0578 4 CP_REQUIRE_REQUIRE) w /\ s_mode (w_s w) = M_ENCRYPT /\
  is_done (w_s w) = true /\ In (EvGen rq toy_ctx em) (w_log w) /\ distinct_keys toy_ctx /\ Nlen (em_edks em) <= 65535 /\
  Forall edk_fits (em_edks em) /\ signatures_verify toy_cr em vk (w_log w) /\ bytes_ok (w_out w) /\
  history toy_cr M_DECRYPT [OSetMax 1] wd /\ is_decrypt_mode (s_mode (w_s wd)) = true /\ s_state (w_s wd) = ST_CONFIG /\
  policy_permits_decrypt (s_policy (w_s wd)) (em_alg em) /\ Nlen (em_edks em) <= s_max (w_s wd) /\
  feed toy_cr (unwraps (s_mode (w_s wd)) toy_ctx em vk) (w_out w) wd rs wd' /\
  length rs = 5%nat /\ is_done (w_s wd') = true /\ w_out wd' = [10; 11; 12; 13; 14; 15; 16; 17; 18; 19].
Proof. exact toy_feed_example. Qed.

(** ** C14 *)
(** Two encryption sessions with the same frame size, materials, message id and signature: while one has consumed a
    prefix of what the other, finished one consumed, its output is a prefix of the other's, and equal once it is
    done.  The call boundaries, buffer sizes and moments of declaring the size do not occur. *)
Theorem C14_ciphertext_independent_of_buffering : forall cr m1 ops1 w1 m2 ops2 w2, crypto_sizes cr ->
  history cr m1 ops1 w1 -> history cr m2 ops2 w2 ->
  s_mode (w_s w1) = M_ENCRYPT -> s_mode (w_s w2) = M_ENCRYPT -> s_state (w_s w1) <> ST_ERROR -> is_done (w_s w2) = true ->
  s_fsize (w_s w1) = s_fsize (w_s w2) ->
  (forall rq1 c1 em1 rq2 c2 em2, In (EvGen rq1 c1 em1) (w_log w1) -> In (EvGen rq2 c2 em2) (w_log w2) ->
     c1 = c2 /\ em_alg em1 = em_alg em2 /\ em_key em1 = em_key em2 /\ em_edks em1 = em_edks em2 /\ em_sig em1 = em_sig em2) ->
  (forall a b, In (EvRand a) (w_log w1) -> In (EvRand b) (w_log w2) -> a = b) ->
  (forall sc a b, In (EvSign sc a) (w_log w1) -> In (EvSign sc b) (w_log w2) -> a = b) ->
  prefix (w_in w1) (w_in w2) ->
  (s_known (w_s w1) = true -> s_precise (w_s w1) = Nlen (w_in w2)) ->
  prefix (w_out w1) (w_out w2) /\ (is_done (w_s w1) = true -> w_in w1 = w_in w2 /\ w_out w1 = w_out w2).
Proof. exact C14_lemma. Qed.
Print Assumptions C14_ciphertext_independent_of_buffering.

(** Two calls against seven calls with the size declared before the first. *)
Example C14_example : let ops1 := toy_slow_ops 0x0578 4 CP_REQUIRE_REQUIRE in let w1 := toy_slow 0x0578 4 CP_REQUIRE_REQUIRE in
  let ops2 := toy_enc_ops 0x0578 4 CP_REQUIRE_REQUIRE in let w2 := toy_enc 0x0578 4 CP_REQUIRE_REQUIRE in
  history toy_cr M_ENCRYPT ops1 w1 /\ history toy_cr M_ENCRYPT ops2 w2 /\
  s_mode (w_s w1) = M_ENCRYPT /\ s_mode (w_s w2) = M_ENCRYPT /\ is_done (w_s w1) = true /\ is_done (w_s w2) = true /\
  s_fsize (w_s w1) = s_fsize (w_s w2) /\
  (forall rq1 c1 em1 rq2 c2 em2, In (EvGen rq1 c1 em1) (w_log w1) -> In (EvGen rq2 c2 em2) (w_log w2) ->
     c1 = c2 /\ em_alg em1 = em_alg em2 /\ em_key em1 = em_key em2 /\ em_edks em1 = em_edks em2 /\ em_sig em1 = em_sig em2) /\
  (forall a b, In (EvRand a) (w_log w1) -> In (EvRand b) (w_log w2) -> a = b) /\
  (forall sc a b, In (EvSign sc a) (w_log w1) -> In (EvSign sc b) (w_log w2) -> a = b) /\
  w_in w1 = w_in w2 /\ s_known (w_s w1) = true /\ s_precise (w_s w1) = Nlen (w_in w2) /\ Nlen (w_out w1) = 239.
Proof. exact toy_two_schedules. Qed.

(** ** C15 *)
(** Two decryption sessions that consumed prefixes of one stream and whose materials manager gives the same data key
    for the same request: the outputs agree as far as both go, a session that is done released at least what the
    other did, and two sessions that are done consumed and released the same. *)
Theorem C15_plaintext_independent_of_buffering : forall cr m1 ops1 w1 m2 ops2 w2 stream, crypto_sizes cr ->
  history cr m1 ops1 w1 -> history cr m2 ops2 w2 ->
  is_decrypt_mode (s_mode (w_s w1)) = true -> is_decrypt_mode (s_mode (w_s w2)) = true ->
  prefix (w_in w1) stream -> prefix (w_in w2) stream ->
  (forall rq dm1 dm2, In (EvUnwrap rq dm1) (w_log w1) -> In (EvUnwrap rq dm2) (w_log w2) -> dm_key dm1 = dm_key dm2) ->
  (prefix (w_out w1) (w_out w2) \/ prefix (w_out w2) (w_out w1)) /\
  (is_done (w_s w1) = true -> prefix (w_out w2) (w_out w1)) /\
  (is_done (w_s w1) = true -> is_done (w_s w2) = true -> w_in w1 = w_in w2 /\ w_out w1 = w_out w2).
Proof. exact C15_lemma. Qed.
Print Assumptions C15_plaintext_independent_of_buffering.

(** The whole message in four calls, and a session given part of it and room for one frame. *)
Example C15_example : let stream := w_out (toy_enc 0x0578 4 CP_REQUIRE_REQUIRE) in
  let ops1 := toy_dec_ops 0x0578 158 CP_REQUIRE_REQUIRE stream in let w1 := toy_dec 0x0578 158 CP_REQUIRE_REQUIRE stream in
  let ops2 := [OProcess (toy_env 0x0578) 4 (firstn 170 stream)] in let w2 := fst (run toy_cr (new_world M_DECRYPT) ops2) in
  history toy_cr M_DECRYPT ops1 w1 /\ history toy_cr M_DECRYPT ops2 w2 /\
  is_decrypt_mode (s_mode (w_s w1)) = true /\ is_decrypt_mode (s_mode (w_s w2)) = true /\
  prefix (w_in w1) stream /\ prefix (w_in w2) stream /\
  (forall rq dm1 dm2, In (EvUnwrap rq dm1) (w_log w1) -> In (EvUnwrap rq dm2) (w_log w2) -> dm_key dm1 = dm_key dm2) /\
  is_done (w_s w1) = true /\ w_out w2 = [10; 11; 12; 13].
Proof. exact toy_two_decryptions. Qed.

(** ** C16 *)
(** Whatever bytes a decryption session was given, if the tags it accepted were produced by the session that wrote
    the original message, it released a prefix of the original plaintext made of whole frames, and all of it when
    done. *)
Theorem C16_tampering_never_alters_plaintext : forall cr m ops w md opsd wd, crypto_sizes cr ->
  history cr m ops w -> s_mode (w_s w) = M_ENCRYPT -> s_state (w_s w) <> ST_ERROR ->
  history cr md opsd wd -> is_decrypt_mode (s_mode (w_s wd)) = true ->
  (forall key iv aad ct tag pt, In (EvOpen key iv aad ct tag pt) (w_log wd) -> In (EvSeal key iv aad pt ct tag) (w_log w)) ->
  (forall rq ctx em rqd dm, In (EvGen rq ctx em) (w_log w) -> In (EvUnwrap rqd dm) (w_log wd) ->
     (In (em_alg em) v2_suites <-> In (dq_alg rqd) v2_suites)) ->
  prefix (w_out wd) (w_in w) /\ (is_done (w_s wd) = true -> w_out wd = w_in w) /\
  (w_out wd = w_in w \/ N.divide (s_fsize (w_s w)) (Nlen (w_out wd))).
Proof. exact C16_lemma. Qed.
Print Assumptions C16_tampering_never_alters_plaintext.

(** A byte of the second frame altered: the first frame is released, then the session fails. *)
Example C16_example : let ops := toy_enc_ops 0x0578 4 CP_REQUIRE_REQUIRE in let w := toy_enc 0x0578 4 CP_REQUIRE_REQUIRE in
  let bad := tamper 175 99 (w_out w) in
  let opsd := [OProcess (toy_env 0x0578) 4 (firstn 165 bad); OProcess (toy_env 0x0578) 100 (skipn 158 bad)] in
  let wd := fst (run toy_cr (new_world M_DECRYPT) opsd) in
  history toy_cr M_ENCRYPT ops w /\ s_mode (w_s w) = M_ENCRYPT /\ is_done (w_s w) = true /\
  history toy_cr M_DECRYPT opsd wd /\ is_decrypt_mode (s_mode (w_s wd)) = true /\
  (forall key iv aad ct tag pt, In (EvOpen key iv aad ct tag pt) (w_log wd) -> In (EvSeal key iv aad pt ct tag) (w_log w)) /\
  (forall rq ctx em rqd dm, In (EvGen rq ctx em) (w_log w) -> In (EvUnwrap rqd dm) (w_log wd) ->
     (In (em_alg em) v2_suites <-> In (dq_alg rqd) v2_suites)) /\
  w_out wd = [10; 11; 12; 13] /\ s_state (w_s wd) = ST_ERROR.
Proof. exact toy_tampered. Qed.
