(** Specification of messages and of what a session may do, independent of the session code: keys,
    frames, message bytes, and predicates on histories.  Only data types and oracles of the model are
    used. *)
From Verif Require Import Base AlgModel EncCtxModel HdrModel FrameModel CryptoModel SessionModel WireSpec.
From Coq Require Import String Ascii.
Import List.
Open Scope list_scope.
Open Scope N_scope.

(** ** Keys *)

Definition text (s : string) : list N := map N_of_ascii (list_ascii_of_string s).

(** Suites without key derivation. *)
Definition plain_suites : list N := [0x0014; 0x0046; 0x0078].
(** Suites with a trailing signature. *)
Definition signed_suites : list N := [0x0214; 0x0346; 0x0378; 0x0578].

(** Length of data key and content key: the low byte of the suite identifier names the cipher. *)
Definition suite_key_len (alg : N) : N :=
  if alg mod 256 =? 0x14 then 16 else if alg mod 256 =? 0x46 then 24 else 32.

(** The content key of a message is the data key itself, or derived by HKDF from the data key, the suite
    identifier and the message id. *)
Inductive content_key (cr : crypto) (alg : N) (mid dk : list N) : list N -> Prop :=
| ck_plain : In alg plain_suites -> content_key cr alg mid dk dk
| ck_sha256 : forall k, In alg [0x0114; 0x0146; 0x0178; 0x0214] ->
    cr_hkdf cr SHA256 (zeros 32) dk (u16 alg ++ mid) (suite_key_len alg) = Some k ->
    content_key cr alg mid dk k
| ck_sha384 : forall k, In alg [0x0346; 0x0378] ->
    cr_hkdf cr SHA384 (zeros 48) dk (u16 alg ++ mid) (suite_key_len alg) = Some k ->
    content_key cr alg mid dk k
| ck_commit : forall k, In alg v2_suites ->
    cr_hkdf cr SHA512 mid dk (u16 alg ++ text "DERIVEKEY") 32 = Some k ->
    content_key cr alg mid dk k.

(** The key commitment of a committing suite. *)
Definition key_commitment (cr : crypto) (mid dk com : list N) : Prop :=
  cr_hkdf cr SHA512 mid dk (text "COMMITKEY") 32 = Some com.

(** What the key derivation function is asked for: hash, salt, input key, info, output length. *)
Inductive purpose := P_CONTENT | P_COMMIT.
Definition kdf_input (alg : N) (mid dk : list N) (pu : purpose) : option (sha_version * list N * list N * list N * N) :=
  match pu with
  | P_CONTENT =>
      if existsb (N.eqb alg) [0x0114; 0x0146; 0x0178; 0x0214] then Some (SHA256, zeros 32, dk, u16 alg ++ mid, suite_key_len alg)
      else if existsb (N.eqb alg) [0x0346; 0x0378] then Some (SHA384, zeros 48, dk, u16 alg ++ mid, suite_key_len alg)
      else if existsb (N.eqb alg) v2_suites then Some (SHA512, mid, dk, u16 alg ++ text "DERIVEKEY", 32)
      else None
  | P_COMMIT => if existsb (N.eqb alg) v2_suites then Some (SHA512, mid, dk, text "COMMITKEY", 32) else None
  end.

(** Suites a commitment policy lets through. *)
Definition policy_permits_encrypt (c : cpolicy) (alg : N) : Prop :=
  match c with
  | CP_REQUIRE_REQUIRE | CP_REQUIRE_ALLOW => In alg v2_suites
  | CP_FORBID_ALLOW => In alg v1_suites
  | CP_INVALID _ => False
  end.
Definition policy_permits_decrypt (c : cpolicy) (alg : N) : Prop :=
  match c with
  | CP_REQUIRE_REQUIRE => In alg v2_suites
  | CP_REQUIRE_ALLOW | CP_FORBID_ALLOW => In alg v1_suites \/ In alg v2_suites
  | CP_INVALID _ => False
  end.

(** ** Frames *)

Definition body_label (ty : frame_type) : string :=
  match ty with
  | FRAME_TYPE_SINGLE => "AWSKMSEncryptionClient Single Block"
  | FRAME_TYPE_FRAME => "AWSKMSEncryptionClient Frame"
  | FRAME_TYPE_FINAL => "AWSKMSEncryptionClient Final Frame"
  end.
Definition body_aad (mid : list N) (ty : frame_type) (seqno len : N) : list N :=
  mid ++ text (body_label ty) ++ u32 seqno ++ u64 len.

(** Initialisation vector number [n]; the header uses number 0. *)
Definition msg_iv (n : N) : list N := u32 0 ++ u64 n.

(** Length of the plaintext in a frame written with frame size [fs]. *)
Definition chunk_len_ok (fs : N) (ty : frame_type) (n : N) : Prop :=
  match ty with
  | FRAME_TYPE_FRAME => n = fs
  | FRAME_TYPE_FINAL => n < fs
  | FRAME_TYPE_SINGLE => True
  end.

(** Frame [fst x] is the encryption of [snd x]. *)
Definition sealed (cr : crypto) (key mid : list N) (fs : N) (x : frame * list N) : Prop :=
  let (f, pt) := x in
  frame_wf fs f /\ chunk_len_ok fs (fr_type f) (Nlen pt) /\ fr_iv f = msg_iv (fr_seqno f) /\
  Nlen (fr_ciphertext f) = Nlen pt /\
  cr_enc cr key (fr_iv f) (body_aad mid (fr_type f) (fr_seqno f) (Nlen pt)) pt =
    Some (fr_ciphertext f, fr_authtag f).

(** Frame [fst x] decrypts to [snd x]. *)
Definition opened (cr : crypto) (key mid : list N) (fs : N) (x : frame * list N) : Prop :=
  let (f, pt) := x in
  frame_wf fs f /\ Nlen pt = Nlen (fr_ciphertext f) /\
  cr_dec cr key (fr_iv f) (body_aad mid (fr_type f) (fr_seqno f) (Nlen (fr_ciphertext f)))
    (fr_ciphertext f) (fr_authtag f) = OpenOk pt.

(** Ordinary frames numbered [n], [n+1], ... *)
Fixpoint regular_from (n : N) (l : list (frame * list N)) : Prop :=
  match l with
  | [] => True
  | (f, _) :: l' => fr_type f = FRAME_TYPE_FRAME /\ fr_seqno f = n /\ regular_from (n + 1) l'
  end.

(** A whole body: ordinary frames 1, 2, ... and one last frame (final, or the single block). *)
Definition whole_body (l : list (frame * list N)) : Prop :=
  exists l0 f p, l = l0 ++ [(f, p)] /\ regular_from 1 l0 /\ fr_seqno f = 1 + Nlen l0 /\
    fr_type f <> FRAME_TYPE_FRAME.

Definition body_wire (l : list (frame * list N)) : list N := concat (map (fun x => wire_frame (fst x)) l).
Definition body_text (l : list (frame * list N)) : list N := concat (map snd l).

(** The AES-GCM operations of a list of frames. *)
Definition seal_event (key mid : list N) (x : frame * list N) : event :=
  let (f, pt) := x in
  EvSeal key (fr_iv f) (body_aad mid (fr_type f) (fr_seqno f) (Nlen pt)) pt (fr_ciphertext f) (fr_authtag f).
Definition open_event (key mid : list N) (x : frame * list N) : event :=
  let (f, pt) := x in
  EvOpen key (fr_iv f) (body_aad mid (fr_type f) (fr_seqno f) (Nlen (fr_ciphertext f)))
    (fr_ciphertext f) (fr_authtag f) pt.

(** Initialisation vectors used for encryption. *)
Definition seal_nonce (ev : event) : list (list N * list N) :=
  match ev with EvSeal key iv _ _ _ _ => [(key, iv)] | _ => [] end.
Definition seal_nonces (log : list event) : list (list N * list N) := concat (map seal_nonce log).

(** Trailer of a signed message. *)
Definition wire_trailer (sg : list N) : list N := field16 sg.

(** ** Assumptions on the primitives *)

(** Sizes: AES-GCM preserves length and makes 16-byte tags, HKDF returns what was asked for. *)
Definition crypto_sizes (cr : crypto) : Prop :=
  (forall k iv a p c t, cr_enc cr k iv a p = Some (c, t) -> Nlen c = Nlen p /\ Nlen t = 16) /\
  (forall k iv a c t p, cr_dec cr k iv a c t = OpenOk p -> Nlen p = Nlen c) /\
  (forall h s i f n k, cr_hkdf cr h s i f n = Some k -> Nlen k = n).

(** Inputs are byte strings. *)
Definition op_bytes (o : op) : Prop :=
  match o with
  | OProcess _ _ input | OProcessFull _ _ input => bytes_ok input
  | _ => True
  end.

(** ** Histories *)

(** [history cr m ops w]: a session made for mode [m] got the calls [ops], none of which failed an assert;
    [w] is what has happened since the last reset. *)
Definition history (cr : crypto) (m : smode) (ops : list op) (w : world) : Prop :=
  is_valid_mode m = true /\ Forall op_bytes ops /\
  exists rs, run cr (new_world m) ops = (w, rs) /\ Forall (fun r => stuck (o_rc r) = false) rs.

(** The message size declared, and the bound in force, since the last reset, according to the calls that
    succeeded. *)
Definition size_after (d : option N) (x : op * opres) : option N :=
  match fst x, o_rc (snd x) with
  | OReset _, _ => None
  | OSetSize _ n, POk => Some (n mod 18446744073709551616)
  | OProcessFull _ _ input, POk => Some (Nlen input mod 18446744073709551616)
  | _, _ => d
  end.
Definition declared_size (calls : list (op * opres)) : option N := fold_left size_after calls None.

Definition bound_after (b : N) (x : op * opres) : N :=
  match fst x, o_rc (snd x) with
  | OReset _, _ => 18446744073709551615
  | OSetBound n, POk => N.min b (n mod 18446744073709551616)
  | _, _ => b
  end.
Definition bound_in_force (calls : list (op * opres)) : N :=
  fold_left bound_after calls 18446744073709551615.

(** ** Messages *)

(** The header [h], serialised as [hb ++ ha], is authentic under the content key [key] that belongs to the
    data key [dk]; [iv] is the initialisation vector of the header. *)
Record authentic_header (cr : crypto) (dk : list N) (h : hdr) (hb ha iv key : list N) : Prop := {
  ah_wf : hdr_wf h;
  ah_wire : wire_header h hb ha;
  ah_key : content_key cr (h_alg_id h) (h_message_id h) dk key;
  ah_iv1 : is_v1 h -> iv = h_iv h;
  ah_iv2 : is_v2 h -> iv = msg_iv 0;
  ah_open : cr_dec cr key iv hb [] (h_auth_tag h) = OpenOk [];
}.

(** Start of a message: version, type (version 1), suite, message id. *)
Definition head_start (alg : N) (mid : list N) : list N :=
  if existsb (N.eqb alg) v2_suites then u8 2 ++ u16 alg ++ mid else u8 1 ++ u8 0x80 ++ u16 alg ++ mid.

(** Ordinary frames only, or a whole body. *)
Definition body_so_far (l : list (frame * list N)) : Prop := regular_from 1 l \/ whole_body l.

(** [x] is an initial part of [y]. *)
Definition prefix {A} (x y : list A) : Prop := exists z, y = x ++ z.
