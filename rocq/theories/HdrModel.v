(** Message header codec: source/header.c. *)
From Verif Require Import Base AlgModel EncCtxModel.

(** struct aws_cryptosdk_edk, include/aws/cryptosdk/edk.h *)
Record edk := mk_edk { edk_provider_id : list N; edk_provider_info : list N; edk_ciphertext : list N }.

(** struct aws_cryptosdk_hdr, include/aws/cryptosdk/private/header.h 24-41 (without allocator) *)
Record hdr := mk_hdr {
  h_alg_id : N;
  h_frame_len : N;
  h_iv : list N;
  h_auth_tag : list N;
  h_message_id : list N;
  h_alg_suite_data : list N;
  h_enc_ctx : enc_ctx;
  h_edks : list edk;
  h_auth_len : N;
}.

(** aws_cryptosdk_hdr_clear, source/header.c 128-142 *)
Definition hdr_cleared : hdr := mk_hdr 0 0 [] [] [] [] [] [] 0.

(** enum aws_cryptosdk_hdr_type, aws_cryptosdk_hdr_content_type,
    include/aws/cryptosdk/private/header.h 43-51 *)
Definition HEADER_TYPE_CUSTOMER_AED : N := 0x80.
Definition CTYPE_NONFRAMED : N := 1.
Definition CTYPE_FRAMED : N := 2.

(** aws_cryptosdk_priv_hdr_parse_header_version, source/header.c 230-239 (and 44-50) *)
Definition parse_header_version : parser N := fun s =>
  do (v, s) <- read_be 1 s;
  if (v =? HEADER_VERSION_1_0) || (v =? HEADER_VERSION_2_0) then Ok (v, s)
  else Err E_BAD_CIPHERTEXT.

(** aws_cryptosdk_priv_hdr_parse_message_type, source/header.c 241-249 *)
Definition parse_message_type : parser unit := fun s =>
  do (t, s) <- read_be 1 s;
  if t =? HEADER_TYPE_CUSTOMER_AED then Ok (tt, s) else Err E_BAD_CIPHERTEXT.

(** aws_cryptosdk_priv_hdr_parse_alg_id, source/header.c 251-268.  If aws_cryptosdk_alg_props
    returned NULL for a known id the C code would dereference NULL; both functions enumerate the same
    ids (lemma [alg_known_lookup]), here that branch is [E_UNKNOWN]. *)
Definition parse_alg_id (header_version : N) : parser (N * alg_props) := fun s =>
  do (alg_id, s) <- read_be 2 s;
  if negb (alg_is_known alg_id) then Err E_BAD_CIPHERTEXT
  else match alg_lookup alg_id with
       | None => Err E_UNKNOWN
       | Some p =>
           if negb (ap_version p =? header_version) then Err E_BAD_CIPHERTEXT
           else Ok ((alg_id, p), s)
       end.

(** aws_cryptosdk_priv_hdr_parse_message_id, source/header.c 270-280 *)
Definition parse_message_id (p : alg_props) : parser (list N) := fun s =>
  read_bytes (message_id_len p) s.

(** aws_cryptosdk_priv_hdr_parse_aad, source/header.c 282-299 *)
Definition parse_aad : parser enc_ctx := fun s =>
  do (aad_len, s) <- read_be 2 s;
  if aad_len =? 0 then Ok ([], s)
  else
    do (aad, s) <- read_bytes aad_len s;
    match enc_ctx_deserialize [] aad with
    | (_, Err _) => Err E_BAD_CIPHERTEXT
    | (c, Ok []) => Ok (c, s)
    | (_, Ok (_ :: _)) => Err E_BAD_CIPHERTEXT
    end.

(** One length-prefixed EDK field, source/header.c 166-168, 170-172, 174-176 *)
Definition parse_field16 : parser (list N) := fun s =>
  do (field_len, s) <- read_be 2 s;
  read_bytes field_len s.

(** parse_edk, source/header.c 160-187 *)
Definition parse_edk : parser edk := fun s =>
  do (pid, s) <- parse_field16 s;
  do (pinfo, s) <- parse_field16 s;
  do (ct, s) <- parse_field16 s;
  Ok (mk_edk pid pinfo ct, s).

(** Loop of aws_cryptosdk_priv_hdr_parse_edks, source/header.c 313-317 *)
Fixpoint parse_edk_loop (n : nat) : parser (list edk) := fun s =>
  match n with
  | O => Ok ([], s)
  | S n' =>
      do (e, s) <- parse_edk s;
      do (l, s) <- parse_edk_loop n' s;
      Ok (e :: l, s)
  end.

(** aws_cryptosdk_priv_hdr_parse_edks, source/header.c 301-320 *)
Definition parse_edks (max_edks : N) : parser (list edk) := fun s =>
  do (edk_count, s) <- read_be 2 s;
  if edk_count =? 0 then Err E_BAD_CIPHERTEXT
  else if negb (max_edks =? 0) && (max_edks <? edk_count) then Err E_LIMIT_EXCEEDED
  else parse_edk_loop (N.to_nat edk_count) s.

(** aws_cryptosdk_priv_hdr_parse_content_type, source/header.c 322-330 (and 95-101) *)
Definition parse_content_type : parser N := fun s =>
  do (t, s) <- read_be 1 s;
  if (t =? CTYPE_FRAMED) || (t =? CTYPE_NONFRAMED) then Ok (t, s) else Err E_BAD_CIPHERTEXT.

(** aws_cryptosdk_priv_hdr_parse_reserved, source/header.c 332-339 *)
Definition parse_reserved : parser unit := fun s =>
  do (r, s) <- read_be 4 s;
  if r =? 0 then Ok (tt, s) else Err E_BAD_CIPHERTEXT.

(** aws_cryptosdk_priv_hdr_parse_iv_len, source/header.c 341-349 *)
Definition parse_iv_len (alg_id : N) : parser N := fun s =>
  do (l, s) <- read_be 1 s;
  match algorithm_ivlen alg_id with
  | Some n => if l =? n then Ok (l, s) else Err E_BAD_CIPHERTEXT
  | None => Err E_BAD_CIPHERTEXT
  end.

(** aws_cryptosdk_priv_hdr_parse_frame_len, source/header.c 351-362 *)
Definition parse_frame_len (content_type : N) : parser N := fun s =>
  do (l, s) <- read_be 4 s;
  if ((content_type =? CTYPE_NONFRAMED) && negb (l =? 0)) ||
     ((content_type =? CTYPE_FRAMED) && (l =? 0))
  then Err E_BAD_CIPHERTEXT else Ok (l, s).

(** aws_cryptosdk_priv_hdr_parse_alg_suite_data, source/header.c 364-375 *)
Definition parse_alg_suite_data (p : alg_props) : parser (list N) := fun s =>
  if ap_suite_data_len p =? 0 then Ok ([], s) else read_bytes (ap_suite_data_len p) s.

(** aws_cryptosdk_priv_hdr_parse_auth_tag, source/header.c 385-394.  A tag length of -1 (unknown
    suite) cannot occur here, see [parse_alg_id]. *)
Definition parse_auth_tag (alg_id : N) : parser (list N) := fun s =>
  match algorithm_taglen alg_id with
  | Some n => read_bytes n s
  | None => Err E_UNKNOWN
  end.

(** aws_cryptosdk_hdr_parse, source/header.c 189-228.  On failure the C code leaves the header
    cleared and the cursor unchanged; the error result carries neither.  [h_auth_len] is the pointer
    difference of line 220. *)
Definition hdr_parse (max_edks : N) : parser hdr := fun s0 =>
  do (version, s) <- parse_header_version s0;
  do (_, s) <- (if version =? HEADER_VERSION_1_0 then parse_message_type s else Ok (tt, s));
  do ((alg_id, p), s) <- parse_alg_id version s;
  do (mid, s) <- parse_message_id p s;
  do (ctx, s) <- parse_aad s;
  do (edks, s) <- parse_edks max_edks s;
  do (ctype, s) <- parse_content_type s;
  do (_, s) <- (if version =? HEADER_VERSION_1_0 then parse_reserved s else Ok (tt, s));
  do (iv_len, s) <- (if version =? HEADER_VERSION_1_0 then parse_iv_len alg_id s else Ok (0, s));
  do (frame_len, s) <- parse_frame_len ctype s;
  do (suite, s) <- (if version =? HEADER_VERSION_2_0 then parse_alg_suite_data p s else Ok ([], s));
  let auth_len := Nlen s0 - Nlen s in
  do (iv, s) <- (if version =? HEADER_VERSION_1_0 then read_bytes iv_len s else Ok ([], s));
  do (tag, s) <- parse_auth_tag alg_id s;
  Ok (mk_hdr alg_id frame_len iv tag mid suite ctx edks auth_len, s).

(** saturating_add, source/header.c 428-434 *)
Definition saturating_add (a b : N) : N :=
  let c := add64 a b in if c <? a then UINT64_MAX else c.

(** EDK loop of aws_cryptosdk_hdr_size, source/header.c 456-469 *)
Fixpoint hdr_size_edks (l : list edk) (sz : N) : N :=
  match l with
  | [] => sz
  | e :: l' =>
      let sz := saturating_add sz 6 in
      let sz := saturating_add sz (Nlen (edk_provider_id e)) in
      let sz := saturating_add sz (Nlen (edk_provider_info e)) in
      let sz := saturating_add sz (Nlen (edk_ciphertext e)) in
      hdr_size_edks l' sz
  end.

(** Conversion of a size_t through the int return type of aws_cryptosdk_hdr_size back to
    size_t (source/header.c 436, 471; callers session_encrypt.c 191, session_decrypt.c 104, 208):
    truncation to 32 bits, then sign extension to 64 bits. *)
Definition through_int (n : N) : N :=
  let m := n mod two32 in
  if m <? 2 ^ 31 then m else m + (two64 - two32).

(** aws_cryptosdk_hdr_size, source/header.c 436-472, as seen by a caller storing the int result in a
    size_t.  The memcmp with an all-zero header is never equal because hdr->alloc is set. *)
Definition hdr_size (h : hdr) : N :=
  match alg_lookup (h_alg_id h) with
  | None => 0
  | Some p =>
      match static_fields_len (ap_version p) with
      | None => 0
      | Some st =>
          let dynamic := add64 (Nlen (h_message_id h)) (Nlen (h_alg_suite_data h)) in
          let sz := add64 (add64 st dynamic) (authtag_len p) in
          match enc_ctx_size (h_enc_ctx h) with
          | Err _ => 0
          | Ok aad_len =>
              let sz := add64 sz aad_len in
              let sz := hdr_size_edks (h_edks h) sz in
              if sz =? UINT64_MAX then 0 else through_int sz
          end
      end
  end.

(** One EDK of aws_cryptosdk_hdr_write, source/header.c 524-537; lengths are cast to uint16_t. *)
Definition ser_edk (e : edk) : list N :=
  be_bytes 2 (Nlen (edk_provider_id e)) ++ edk_provider_id e ++
  be_bytes 2 (Nlen (edk_provider_info e)) ++ edk_provider_info e ++
  be_bytes 2 (Nlen (edk_ciphertext e)) ++ edk_ciphertext e.

(** aws_cryptosdk_hdr_write, source/header.c 479-575.  [outlen] is the size of the output buffer;
    the result is the bytes written (their number is *bytes_written).  On failure the buffer is zeroed
    (566-574).  The sequence of bounded writes fails iff the concatenation does not fit, tested
    once at the end. *)
Definition hdr_write (h : hdr) (outlen : N) : res (list N) :=
  match alg_lookup (h_alg_id h) with
  | None => Err E_BAD_STATE
  | Some p =>
      let v1 := ap_version p =? HEADER_VERSION_1_0 in
      let pre :=
        be_bytes 1 (ap_version p) ++
        (if v1 then be_bytes 1 HEADER_TYPE_CUSTOMER_AED else []) ++
        be_bytes 2 (h_alg_id h) ++ h_message_id h in
      match enc_ctx_serialize outlen (Nlen pre + 2) (h_enc_ctx h) with
      | Err _ => Err E_SHORT_BUFFER
      | Ok aad =>
          let out :=
            pre ++ be_bytes 2 (Nlen aad) ++ aad ++
            be_bytes 2 (Nlen (h_edks h)) ++ concat (map ser_edk (h_edks h)) ++
            be_bytes 1 (if h_frame_len h =? 0 then CTYPE_NONFRAMED else CTYPE_FRAMED) ++
            (if v1 then zeros 4 ++ be_bytes 1 (Nlen (h_iv h)) else []) ++
            be_bytes 4 (h_frame_len h) ++
            h_alg_suite_data h ++
            (if v1 then h_iv h else []) ++
            h_auth_tag h in
          if outlen <? Nlen out then Err E_SHORT_BUFFER else Ok out
      end
  end.
