(** Properties C01-C12: wire format codecs.  Specification: WireSpec.v. *)
From Verif Require Import Base AlgModel EncCtxModel HdrModel FrameModel WireSpec CodecTheorems.

(** ** Example data *)
Definition ex_ctx : enc_ctx := [([98; 98], [1]); ([97], [2; 3])].
Definition ex_edk : edk := mk_edk [107; 109; 115] [1; 2; 3; 4] [9; 8; 7].
Definition ex_hdr1 : hdr :=
  mk_hdr 0x0178 4096 (zeros 12) (zeros 16) (zeros 16) [] ex_ctx [ex_edk; ex_edk] 0.
Definition ex_hdr2 : hdr :=
  mk_hdr 0x0478 0 (repeat 0x42 12) (zeros 16) (zeros 32) (repeat 5 32) ex_ctx [ex_edk] 0.
Definition ex_bytes (h : hdr) : list N := match hdr_write h 1000 with Ok o => o | Err _ => [] end.
Definition ex_frame (ty : frame_type) : frame := mk_frame ty 1 (zeros 12) [1; 2; 3] (zeros 16).

(** ** C01 *)
(** Every representable header has one serialised form; writing it needs exactly that much room;
    parsing it back, whatever follows, gives the same fields and stops where the header ends. *)
Theorem C01_header_roundtrip : forall h max, hdr_representable h -> edk_limit_ok max h ->
  exists out, (forall outlen, hdr_write h outlen = if outlen <? Nlen out then Err E_SHORT_BUFFER else Ok out) /\
  forall r, exists h', hdr_parse max (out ++ r) = Ok (h', r) /\
    h_alg_id h' = h_alg_id h /\ h_message_id h' = h_message_id h /\
    same_map (h_enc_ctx h') (h_enc_ctx h) /\ distinct_keys (h_enc_ctx h') /\
    h_edks h' = h_edks h /\ h_frame_len h' = h_frame_len h /\ h_alg_suite_data h' = h_alg_suite_data h /\
    (is_v1 h -> h_iv h' = h_iv h) /\ h_auth_tag h' = h_auth_tag h /\
    h_auth_len h' = Nlen out - Nlen (h_auth_tag h) - (Nlen (h_iv h')).
Proof. exact C01_lemma. Qed.
Print Assumptions C01_header_roundtrip.

Example C01_example : hdr_representable ex_hdr1 /\ edk_limit_ok 2 ex_hdr1 /\
  hdr_representable ex_hdr2 /\ edk_limit_ok 0 ex_hdr2.
Proof.
  unfold hdr_representable, edk_limit_ok, edk_fits, fits16, distinct_keys, ctx_fits, is_v1, is_v2.
  repeat split; try (vm_compute; (reflexivity || discriminate));
    try (cbn; repeat constructor; cbn; intuition discriminate); try (right; vm_compute; discriminate).
Qed.

(** ** C02 *)
Theorem C02_size_of_written_header : forall h outlen out, hdr_representable h ->
  hdr_write h outlen = Ok out -> Nlen out < 2147483648 -> hdr_size h = Nlen out.
Proof. exact C02_write_lemma. Qed.
Print Assumptions C02_size_of_written_header.

Theorem C02_size_of_parsed_header : forall max s h r, bytes_ok s -> hdr_parse max s = Ok (h, r) ->
  Nlen s - Nlen r < 2147483648 ->
  hdr_size h = Nlen s - Nlen r /\ h_auth_len h + Nlen (h_iv h) + Nlen (h_auth_tag h) = hdr_size h.
Proof. exact C02_parse_lemma. Qed.
Print Assumptions C02_size_of_parsed_header.

(** Without the 2 GiB bound the statement is false: the size is returned as an int. *)
Theorem C02_size_unbounded_refuted : exists h outlen out, hdr_representable h /\
  hdr_write h outlen = Ok out /\ hdr_size h <> Nlen out.
Proof. exact C02_refuted_lemma. Qed.
Print Assumptions C02_size_unbounded_refuted.

Example C02_example : hdr_size ex_hdr1 = Nlen (ex_bytes ex_hdr1) /\ Nlen (ex_bytes ex_hdr1) = 110 /\
  hdr_size ex_hdr2 = Nlen (ex_bytes ex_hdr2) /\ Nlen (ex_bytes ex_hdr2) = 124.
Proof. vm_compute. auto. Qed.
Example C02_example_parse : match hdr_parse 0 (ex_bytes ex_hdr2 ++ [1; 2]) with
  | Ok (h, r) => r = [1; 2] /\ hdr_size h = 124 | Err _ => False end.
Proof. vm_compute. auto. Qed.

(** ** C03 *)
Theorem C03_header_streaming : forall max s,
  (forall h r, hdr_parse max s = Ok (h, r) ->
     (exists consumed, s = consumed ++ r /\
        (forall p q, consumed = p ++ q -> q <> [] -> hdr_parse max p = Err E_SHORT_BUFFER)) /\
     forall t, hdr_parse max (s ++ t) = Ok (h, r ++ t)) /\
  (forall e, hdr_parse max s = Err e -> e <> E_SHORT_BUFFER -> forall t, hdr_parse max (s ++ t) = Err e).
Proof. exact C03_lemma. Qed.
Print Assumptions C03_header_streaming.

Example C03_example : hdr_parse 0 (firstn 50 (ex_bytes ex_hdr1)) = Err E_SHORT_BUFFER /\
  hdr_parse 0 [3] = Err E_BAD_CIPHERTEXT /\ hdr_parse 0 [3; 1; 2] = Err E_BAD_CIPHERTEXT.
Proof. vm_compute. auto. Qed.

(** ** C04, reading side *)
Theorem C04_parse_accepts_only_within_limit : forall max s h r,
  hdr_parse max s = Ok (h, r) -> bytes_ok s -> max <> 0 -> Nlen (h_edks h) <= max.
Proof. exact C04_accept_lemma. Qed.
Print Assumptions C04_parse_accepts_only_within_limit.

(** The verdict is reached when the count has been read, whatever (if anything) follows. *)
Theorem C04_parse_rejects_at_count : forall max pre n r, wire_upto_edks pre n -> max <> 0 -> max < n ->
  hdr_parse max (pre ++ r) = Err E_LIMIT_EXCEEDED.
Proof. exact C04_reject_lemma. Qed.
Print Assumptions C04_parse_rejects_at_count.

Example C04_example : exists pre, wire_upto_edks pre 2 /\ exists r, ex_bytes ex_hdr1 = pre ++ r.
Proof.
  eexists. split.
  - apply (upto_v1 0x0178 (zeros 16) (ctx_sort ex_ctx) 2); try (vm_compute; (reflexivity || discriminate)).
    + cbn. tauto.
    + unfold distinct_keys. cbn. repeat constructor; cbn; intuition discriminate.
  - exists (skipn 40 (ex_bytes ex_hdr1)). vm_compute. reflexivity.
Qed.
Example C04_example2 : hdr_parse 1 (ex_bytes ex_hdr1) = Err E_LIMIT_EXCEEDED.
Proof. vm_compute. reflexivity. Qed.

(** ** C05 *)
(** Exactly the well-formed headers are accepted; [hdr_wf] and [wire_header] spell out version,
    suite, content type against frame length, reserved field, IV length and suite data length. *)
Theorem C05_accepts_exactly_wellformed : forall max s, bytes_ok s ->
  (forall h r, hdr_parse max s = Ok (h, r) <->
     hdr_wf h /\ edk_limit_ok max h /\
     exists body auth, wire_header h body auth /\ s = body ++ auth ++ r /\ h_auth_len h = Nlen body) /\
  (forall e, hdr_parse max s = Err e ->
     e = E_SHORT_BUFFER \/ e = E_BAD_CIPHERTEXT \/ (e = E_LIMIT_EXCEEDED /\ max <> 0)).
Proof. exact C05_lemma. Qed.
Print Assumptions C05_accepts_exactly_wellformed.

Example C05_example : bytes_ok (ex_bytes ex_hdr1) /\ exists h r, hdr_parse 0 (ex_bytes ex_hdr1) = Ok (h, r).
Proof.
  split; [|vm_compute; eauto]. unfold bytes_ok. apply Forall_forall. intros x I.
  assert (H : forallb (fun b => b <? 256) (ex_bytes ex_hdr1) = true) by (vm_compute; reflexivity).
  rewrite forallb_forall in H. apply N.ltb_lt, H, I.
Qed.

(** ** C06 *)
Theorem C06_enc_ctx_roundtrip : forall c, distinct_keys c ->
  (ctx_fits c ->
     exists out, enc_ctx_size c = Ok (Nlen out) /\
       (forall cap len, len + Nlen out <= cap -> enc_ctx_serialize cap len c = Ok out) /\
       (forall cap len, cap < len + Nlen out -> out <> [] -> enc_ctx_serialize cap len c = Err E_SHORT_BUFFER) /\
       (forall old, exists c', enc_ctx_deserialize old out = (c', Ok []) /\ same_map c' c /\ distinct_keys c') /\
       (c <> [] -> forall old r, exists c', enc_ctx_deserialize old (out ++ r) = (c', Ok r) /\ same_map c' c /\ distinct_keys c')) /\
  (~ ctx_fits c -> enc_ctx_size c = Err E_LIMIT_EXCEEDED /\
     forall cap len, enc_ctx_serialize cap len c = Err E_LIMIT_EXCEEDED).
Proof. exact C06_lemma. Qed.
Print Assumptions C06_enc_ctx_roundtrip.

Example C06_example : distinct_keys ex_ctx /\ ctx_fits ex_ctx /\
  enc_ctx_serialize 100 10 ex_ctx = Ok [0; 2; 0; 1; 97; 0; 2; 2; 3; 0; 2; 98; 98; 0; 1; 1].
Proof.
  split; [unfold distinct_keys; cbn; repeat constructor; cbn; intuition discriminate|]. split; vm_compute; (reflexivity || discriminate).
Qed.

(** ** C07 *)
Theorem C07_enc_ctx_canonical_injective : forall c d cap len cap' len' out out',
  distinct_keys c -> distinct_keys d ->
  enc_ctx_serialize cap len c = Ok out -> enc_ctx_serialize cap' len' d = Ok out' ->
  (same_map c d <-> out = out') /\
  exists sorted, same_map sorted c /\ keys_ascending sorted /\ out = wire_ctx sorted.
Proof. exact C07_lemma. Qed.
Print Assumptions C07_enc_ctx_canonical_injective.

Example C07_example : enc_ctx_serialize 100 10 ex_ctx = enc_ctx_serialize 90 0 (rev ex_ctx) /\
  enc_ctx_serialize 100 10 [([97], [98])] <> enc_ctx_serialize 100 10 [([97; 98], [])].
Proof. vm_compute. split; [reflexivity|discriminate]. Qed.

(** ** C08 *)
Theorem C08_enc_ctx_deserialize_strict : forall old s, bytes_ok s ->
  (forall c r, enc_ctx_deserialize old s = (c, Ok r) <->
     (s = [] /\ c = [] /\ r = []) \/
     (1 <= Nlen c <= 65535 /\ distinct_keys c /\
      Forall (fun e => fits16 (fst e) /\ fits16 (snd e)) c /\ s = wire_ctx c ++ r)) /\
  (forall c e, enc_ctx_deserialize old s = (c, Err e) -> c = [] /\ (e = E_SHORT_BUFFER \/ e = E_BAD_CIPHERTEXT)) /\
  (forall p q c, s = p ++ q -> p <> [] -> q <> [] -> enc_ctx_deserialize old s = (c, Ok []) ->
     enc_ctx_deserialize old p = ([], Err E_SHORT_BUFFER)) /\
  (forall c e t, s <> [] -> enc_ctx_deserialize old s = (c, Err e) -> e <> E_SHORT_BUFFER ->
     enc_ctx_deserialize old (s ++ t) = ([], Err e)).
Proof. exact C08_lemma. Qed.
Print Assumptions C08_enc_ctx_deserialize_strict.

Example C08_example :
  enc_ctx_deserialize ex_ctx [0; 2; 0; 1; 97; 0; 0; 0; 1; 97; 0; 0] = ([], Err E_BAD_CIPHERTEXT) /\
  enc_ctx_deserialize ex_ctx [0; 0; 0] = ([], Err E_BAD_CIPHERTEXT) /\
  enc_ctx_deserialize ex_ctx [0; 1; 0; 1; 97; 0] = ([], Err E_SHORT_BUFFER) /\
  enc_ctx_deserialize ex_ctx [0; 1; 0; 1; 97; 0; 0; 7] = ([([97], [])], Ok [7]).
Proof. vm_compute. auto. Qed.

(** ** C09 *)
(** The source is an argument of the pure function and so is unchanged. *)
Theorem C09_enc_ctx_clone : forall dest src, distinct_keys dest -> distinct_keys src ->
  distinct_keys (enc_ctx_clone dest src) /\ same_map (enc_ctx_clone dest src) src.
Proof. exact EncCtxProofs.clone_spec. Qed.
Print Assumptions C09_enc_ctx_clone.

Example C09_example : enc_ctx_clone [([97], [1]); ([99], [5]); ([120], [2])] [([98], [7]); ([97], [2]); ([99], [5])]
  = [([97], [2]); ([99], [5]); ([98], [7])].
Proof. vm_compute. reflexivity. Qed.

(** ** C10 *)
Theorem C10_frame_roundtrip : forall alg p fs f, alg_lookup alg = Some p -> fs < 4294967296 -> frame_wf fs f ->
  exists l, (forall room, serialize_frame p (fr_type f) (fr_seqno f) (Nlen (fr_ciphertext f)) room =
     mk_ser (if room <? Nlen (wire_frame f) then Err E_SHORT_BUFFER else Ok l) (Some (Nlen (wire_frame f)))) /\
  layout_bytes l (fr_iv f) (fr_ciphertext f) (fr_authtag f) = wire_frame f /\
  lo_ct_len l = Nlen (fr_ciphertext f) /\
  forall r, deserialize_frame p fs (wire_frame f ++ r) =
            mk_des (Ok (f, r)) (Nlen (wire_frame f)) (Nlen (fr_ciphertext f)).
Proof. exact C10_lemma. Qed.
Print Assumptions C10_frame_roundtrip.

(** Frames outside the limits of the format are refused whatever the room. *)
Theorem C10_frame_limits : forall p ty seqno psize room,
  match ty with
  | FRAME_TYPE_SINGLE => 0xFFFFFFFE0 <= psize
  | FRAME_TYPE_FRAME => 0xFFFFFFFF < psize \/ seqno = 0xFFFFFFFF
  | FRAME_TYPE_FINAL => 0xFFFFFFFF < psize
  end ->
  exists e, sr_res (serialize_frame p ty seqno psize room) = Err e /\ e <> E_SHORT_BUFFER.
Proof. exact C10_refuse_lemma. Qed.
Print Assumptions C10_frame_limits.

Example C10_example : frame_wf 3 (ex_frame FRAME_TYPE_FRAME) /\ frame_wf 100 (ex_frame FRAME_TYPE_FINAL) /\
  frame_wf 0 (ex_frame FRAME_TYPE_SINGLE).
Proof. unfold frame_wf. repeat split; vm_compute; (reflexivity || discriminate). Qed.

(** ** C11 *)
Theorem C11_frame_streaming : forall alg p fs s, alg_lookup alg = Some p -> fs < 4294967296 ->
  (forall f r, ds_res (deserialize_frame p fs s) = Ok (f, r) ->
     (bytes_ok s -> frame_wf fs f /\ s = wire_frame f ++ r) /\
     forall t, ds_res (deserialize_frame p fs (s ++ t)) = Ok (f, r ++ t)) /\
  (forall e, ds_res (deserialize_frame p fs s) = Err e ->
     e = E_BAD_CIPHERTEXT /\ (forall t, ds_res (deserialize_frame p fs (s ++ t)) = Err E_BAD_CIPHERTEXT) \/
     e = E_SHORT_BUFFER /\ (forall f r, frame_wf fs f -> s <> wire_frame f ++ r)) /\
  (forall f q, frame_wf fs f -> wire_frame f = s ++ q -> q <> [] ->
     ds_res (deserialize_frame p fs s) = Err E_SHORT_BUFFER).
Proof. exact C11_lemma. Qed.
Print Assumptions C11_frame_streaming.

Example C11_example : match alg_lookup 0x0178 with
  | Some p => ds_res (deserialize_frame p 100 (firstn 20 (wire_frame (ex_frame FRAME_TYPE_FINAL)))) = Err E_SHORT_BUFFER /\
              ds_res (deserialize_frame p 2 (wire_frame (ex_frame FRAME_TYPE_FINAL))) = Err E_BAD_CIPHERTEXT
  | None => False end.
Proof. vm_compute. auto. Qed.

(** ** C12 *)
(** Full statement (false, see below): [Nlen s < ds_csize .. <= Nlen (wire_frame f)] for every
    proper prefix [s] of a frame.  Missing: final frames of which fewer than four bytes have arrived. *)
Theorem C12_short_size_lower_bound_partial : forall alg p fs s f t,
  alg_lookup alg = Some p -> fs < 4294967296 -> frame_wf fs f ->
  wire_frame f = s ++ t -> t <> [] -> (fs = 0 \/ 4 <= Nlen s \/ fr_type f = FRAME_TYPE_FRAME) ->
  Nlen s < ds_csize (deserialize_frame p fs s) <= Nlen (wire_frame f).
Proof. exact C12_partial_lemma. Qed.
Print Assumptions C12_short_size_lower_bound_partial.

Theorem C12_short_size_lower_bound_refuted : exists alg p fs f s t,
  alg_lookup alg = Some p /\ fs < 4294967296 /\ frame_wf fs f /\
  wire_frame f = s ++ t /\ t <> [] /\
  ds_res (deserialize_frame p fs s) = Err E_SHORT_BUFFER /\
  Nlen (wire_frame f) < ds_csize (deserialize_frame p fs s).
Proof. exact C12_refuted_lemma. Qed.
Print Assumptions C12_short_size_lower_bound_refuted.

Example C12_example : match alg_lookup 0x0178 with
  | Some p => ds_csize (deserialize_frame p 100 (firstn 5 (wire_frame (ex_frame FRAME_TYPE_FINAL)))) = 40
  | None => False end.
Proof. vm_compute. auto. Qed.
