(** Specification of the AWS Encryption SDK message format, written from the published format
    description and independent of the parsing and serialising code.  Only the data types of the model
    (byte lists, [edk], [hdr]) are used. *)
From Verif Require Import Base EncCtxModel HdrModel FrameModel.
From Coq Require Import Permutation Sorted.

Definition u8 (n : N) : list N := [n].
Definition u16 (n : N) : list N := [n / 256; n mod 256].
Definition u32 (n : N) : list N :=
  [n / 16777216; (n / 65536) mod 256; (n / 256) mod 256; n mod 256].
Definition u64 (n : N) : list N := u32 (n / 4294967296) ++ u32 (n mod 4294967296).

(** Two-byte length followed by the content. *)
Definition field16 (b : list N) : list N := u16 (Nlen b) ++ b.
Definition fits16 (b : list N) : Prop := Nlen b <= 65535.

(** ** Encryption context *)

Definition wire_pair (e : list N * list N) : list N := field16 (fst e) ++ field16 (snd e).

(** The pairs in the given order. *)
Definition wire_ctx (c : list (list N * list N)) : list N :=
  match c with
  | [] => []
  | _ => u16 (Nlen c) ++ concat (map wire_pair c)
  end.

Definition distinct_keys (c : list (list N * list N)) : Prop := NoDup (map fst c).

(** Two tables hold the same mapping. *)
Definition same_map (c d : list (list N * list N)) : Prop :=
  forall k v, In (k, v) c <-> In (k, v) d.

(** Lexicographic order of byte strings. *)
Inductive lex_lt : list N -> list N -> Prop :=
| lex_nil : forall y b, lex_lt [] (y :: b)
| lex_head : forall x y a b, x < y -> lex_lt (x :: a) (y :: b)
| lex_tail : forall x a b, lex_lt a b -> lex_lt (x :: a) (x :: b).

Definition keys_ascending (c : list (list N * list N)) : Prop :=
  StronglySorted (fun e f => lex_lt (fst e) (fst f)) c.

(** A context that fits the two-byte total length of the header. *)
Definition ctx_fits (c : list (list N * list N)) : Prop := Nlen (wire_ctx c) <= 65535.

(** ** Header *)

Definition wire_edk (e : edk) : list N :=
  field16 (edk_provider_id e) ++ field16 (edk_provider_info e) ++ field16 (edk_ciphertext e).

Definition edk_fits (e : edk) : Prop :=
  fits16 (edk_provider_id e) /\ fits16 (edk_provider_info e) /\ fits16 (edk_ciphertext e).

(** Algorithm suite identifiers by message format version. *)
Definition v1_suites : list N :=
  [0x0014; 0x0046; 0x0078; 0x0114; 0x0146; 0x0178; 0x0214; 0x0346; 0x0378].
Definition v2_suites : list N := [0x0478; 0x0578].

(** The part of the header covered by the header tag: version 1 and version 2 layouts. *)
Definition wire_body_v1 (h : hdr) : list N :=
  u8 1 ++ u8 0x80 ++ u16 (h_alg_id h) ++ h_message_id h ++
  field16 (wire_ctx (h_enc_ctx h)) ++
  u16 (Nlen (h_edks h)) ++ concat (map wire_edk (h_edks h)) ++
  u8 (if h_frame_len h =? 0 then 1 else 2) ++ u32 0 ++ u8 12 ++ u32 (h_frame_len h).
Definition wire_body_v2 (h : hdr) : list N :=
  u8 2 ++ u16 (h_alg_id h) ++ h_message_id h ++
  field16 (wire_ctx (h_enc_ctx h)) ++
  u16 (Nlen (h_edks h)) ++ concat (map wire_edk (h_edks h)) ++
  u8 (if h_frame_len h =? 0 then 1 else 2) ++ u32 (h_frame_len h) ++ h_alg_suite_data h.

Definition is_v1 (h : hdr) : Prop := In (h_alg_id h) v1_suites.
Definition is_v2 (h : hdr) : Prop := In (h_alg_id h) v2_suites.

(** [wire_header h b]: the bytes [b] are the serialised header [h], context pairs in list order. *)
Inductive wire_header (h : hdr) : list N -> list N -> Prop :=
| wire_v1 : is_v1 h -> wire_header h (wire_body_v1 h) (h_iv h ++ h_auth_tag h)
| wire_v2 : is_v2 h -> wire_header h (wire_body_v2 h) (h_auth_tag h).

(** Headers the format can represent. *)
Definition hdr_wf (h : hdr) : Prop :=
  ((is_v1 h /\ Nlen (h_message_id h) = 16 /\ h_alg_suite_data h = [] /\ Nlen (h_iv h) = 12) \/
   (is_v2 h /\ Nlen (h_message_id h) = 32 /\ Nlen (h_alg_suite_data h) = 32 /\ h_iv h = [])) /\
  Nlen (h_auth_tag h) = 16 /\
  h_frame_len h < 4294967296 /\
  distinct_keys (h_enc_ctx h) /\ ctx_fits (h_enc_ctx h) /\
  1 <= Nlen (h_edks h) <= 65535 /\ Forall edk_fits (h_edks h).

(** The same, for a header value about to be written.  The IV field of the struct is not part of
    a version 2 header, so it is unconstrained there. *)
Definition hdr_representable (h : hdr) : Prop :=
  ((is_v1 h /\ Nlen (h_message_id h) = 16 /\ h_alg_suite_data h = [] /\ Nlen (h_iv h) = 12) \/
   (is_v2 h /\ Nlen (h_message_id h) = 32 /\ Nlen (h_alg_suite_data h) = 32)) /\
  Nlen (h_auth_tag h) = 16 /\
  h_frame_len h < 4294967296 /\
  distinct_keys (h_enc_ctx h) /\ ctx_fits (h_enc_ctx h) /\
  1 <= Nlen (h_edks h) <= 65535 /\ Forall edk_fits (h_edks h).

(** Everything a version 1 or version 2 header carries before the list of encrypted data keys, and the
    number of keys. *)
Inductive wire_upto_edks : list N -> N -> Prop :=
| upto_v1 : forall alg mid c n, In alg v1_suites -> Nlen mid = 16 -> distinct_keys c -> ctx_fits c ->
    n <= 65535 ->
    wire_upto_edks (u8 1 ++ u8 0x80 ++ u16 alg ++ mid ++ field16 (wire_ctx c) ++ u16 n) n
| upto_v2 : forall alg mid c n, In alg v2_suites -> Nlen mid = 32 -> distinct_keys c -> ctx_fits c ->
    n <= 65535 ->
    wire_upto_edks (u8 2 ++ u16 alg ++ mid ++ field16 (wire_ctx c) ++ u16 n) n.

(** The limit on the number of encrypted data keys; 0 means no limit. *)
Definition edk_limit_ok (max_edks : N) (h : hdr) : Prop :=
  max_edks = 0 \/ Nlen (h_edks h) <= max_edks.

(** ** Frames *)

Definition wire_frame (f : frame) : list N :=
  match fr_type f with
  | FRAME_TYPE_FRAME => u32 (fr_seqno f) ++ fr_iv f ++ fr_ciphertext f ++ fr_authtag f
  | FRAME_TYPE_FINAL =>
      u32 0xFFFFFFFF ++ u32 (fr_seqno f) ++ fr_iv f ++ u32 (Nlen (fr_ciphertext f)) ++
      fr_ciphertext f ++ fr_authtag f
  | FRAME_TYPE_SINGLE =>
      fr_iv f ++ u64 (Nlen (fr_ciphertext f)) ++ fr_ciphertext f ++ fr_authtag f
  end.

(** Frames that may occur in a body with frame size [fs] (0: unframed). *)
Definition frame_wf (fs : N) (f : frame) : Prop :=
  Nlen (fr_iv f) = 12 /\ Nlen (fr_authtag f) = 16 /\
  match fr_type f with
  | FRAME_TYPE_FRAME => fs <> 0 /\ Nlen (fr_ciphertext f) = fs /\ fr_seqno f < 0xFFFFFFFF
  | FRAME_TYPE_FINAL => fs <> 0 /\ Nlen (fr_ciphertext f) <= fs /\ fr_seqno f <= 0xFFFFFFFF
  | FRAME_TYPE_SINGLE => fs = 0 /\ Nlen (fr_ciphertext f) < 0xFFFFFFFE0 /\ fr_seqno f = 1
  end.
