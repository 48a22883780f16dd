(** Body frame codec: source/framefmt.c. *)
From Verif Require Import Base AlgModel.

(** include/aws/cryptosdk/private/framefmt.h 38-42, source/framefmt.c 21 *)
Definition LAST_FRAME_MARK : N := 0xFFFFFFFF.
Definition MAX_FRAME_SIZE : N := 0xFFFFFFFF.
Definition MAX_UNFRAMED_PLAINTEXT_SIZE : N := 0xFFFFFFFE0.

(** enum aws_cryptosdk_frame_type *)
Inductive frame_type := FRAME_TYPE_SINGLE | FRAME_TYPE_FRAME | FRAME_TYPE_FINAL.

(** struct aws_cryptosdk_frame when reading; the byte bufs point into the ciphertext. *)
Record frame := mk_frame {
  fr_type : frame_type;
  fr_seqno : N;
  fr_iv : list N;
  fr_ciphertext : list N;
  fr_authtag : list N;
}.

(** struct aws_cryptosdk_framestate (29-58), reading: cursor, accumulated ciphertext size,
    plaintext size, too_small.  max_frame_size and alg_props are passed as parameters. *)
Record rstate := mk_rstate { rs_cur : list N; rs_csize : N; rs_psize : N; rs_small : bool }.

(** field_helper, reading branch, source/framefmt.c 85-96; [w] = sizeof(type). *)
Definition rd_int (w : nat) (st : rstate) : N * rstate :=
  let csize := add64 (rs_csize st) (N.of_nat w) in
  if rs_small st then (0, mk_rstate (rs_cur st) csize (rs_psize st) true)
  else match read_be w (rs_cur st) with
       | Ok (v, r) => (v, mk_rstate r csize (rs_psize st) false)
       | Err _ => (0, mk_rstate (rs_cur st) csize (rs_psize st) true)
       end.

(** field_sized, reading branch, source/framefmt.c 109-127.  A cursor with a NULL pointer has
    length 0 and then an earlier field of non-zero size has already set too_small. *)
Definition rd_sized (n : N) (st : rstate) : list N * rstate :=
  let csize := add64 (rs_csize st) n in
  match read_bytes n (rs_cur st) with
  | Ok (b, r) => (b, mk_rstate r csize (rs_psize st) (rs_small st))
  | Err _ => ([], mk_rstate (rs_cur st) csize (rs_psize st) true)
  end.

Definition rs_set_psize (n : N) (st : rstate) : rstate :=
  mk_rstate (rs_cur st) (rs_csize st) n (rs_small st).

(** serde_last_frame, reading, source/framefmt.c 179-201 *)
Definition rd_last_frame (p : alg_props) (max_frame_size : N) (st : rstate) : res frame * rstate :=
  let '(seqno, st) := rd_int 4 st in
  let '(iv, st) := rd_sized (ap_iv_len p) st in
  let '(psize, st) := rd_int 4 st in
  let st := rs_set_psize psize st in
  if max_frame_size <? psize then (Err E_BAD_CIPHERTEXT, st)
  else
    let '(ct, st) := rd_sized psize st in
    let '(tag, st) := rd_sized (ap_tag_len p) st in
    (Ok (mk_frame FRAME_TYPE_FINAL seqno iv ct tag), st).

(** serde_framed, reading, source/framefmt.c 138-177 *)
Definition rd_framed (p : alg_props) (max_frame_size : N) (st : rstate) : res frame * rstate :=
  let '(mark, st) := rd_int 4 st in
  if mark =? LAST_FRAME_MARK then rd_last_frame p max_frame_size st
  else
    let st := rs_set_psize max_frame_size st in
    let '(iv, st) := rd_sized (ap_iv_len p) st in
    let '(ct, st) := rd_sized max_frame_size st in
    let '(tag, st) := rd_sized (ap_tag_len p) st in
    (Ok (mk_frame FRAME_TYPE_FRAME mark iv ct tag), st).

(** serde_nonframed, reading, source/framefmt.c 203-222 *)
Definition rd_nonframed (p : alg_props) (st : rstate) : res frame * rstate :=
  let '(iv, st) := rd_sized (ap_iv_len p) st in
  let '(psize, st) := rd_int 8 st in
  let st := rs_set_psize psize st in
  if MAX_UNFRAMED_PLAINTEXT_SIZE <=? psize then (Err E_BAD_CIPHERTEXT, st)
  else
    let '(ct, st) := rd_sized psize st in
    let '(tag, st) := rd_sized (ap_tag_len p) st in
    (Ok (mk_frame FRAME_TYPE_SINGLE 1 iv ct tag), st).

(** Outcome of aws_cryptosdk_deserialize_frame: result with remaining cursor, and the two sizes
    that are always stored. *)
Record des_result := mk_des { ds_res : res (frame * list N); ds_csize : N; ds_psize : N }.

(** aws_cryptosdk_deserialize_frame, source/framefmt.c 373-432 (64-bit size_t: the test of line 409
    is never true).  On failure the cursor is unchanged. *)
Definition deserialize_frame (p : alg_props) (max_frame_size : N) (s : list N) : des_result :=
  let st := mk_rstate s 0 0 false in
  let '(r, st) := if max_frame_size =? 0 then rd_nonframed p st else rd_framed p max_frame_size st in
  let r' := match r with
            | Err e => Err e
            | Ok f => if rs_small st then Err E_SHORT_BUFFER else Ok (f, rs_cur st)
            end in
  mk_des r' (rs_csize st) (rs_psize st).

(** Layout produced by aws_cryptosdk_serialize_frame: integer fields already written, with holes for
    IV, ciphertext and tag that encrypt_body fills in later.  [lo_fixed1] precedes the IV,
    [lo_fixed2] follows it, then ciphertext and tag. *)
Record layout := mk_layout { lo_type : frame_type; lo_seqno : N; lo_fixed1 : list N; lo_fixed2 : list N;
                             lo_ct_len : N }.

(** Outcome of aws_cryptosdk_serialize_frame; [sr_size = None]: *ciphertext_size was not written
    (early return of lines 313-318). *)
Record ser_result := mk_ser { sr_res : res layout; sr_size : option N }.

(** State while writing: remaining capacity of the buffer, ciphertext size, too_small. *)
Record wstate := mk_wstate { ws_room : N; ws_csize : N; ws_small : bool }.

(** field_helper, writing branch, source/framefmt.c 85-96 *)
Definition wr_int (w : N) (st : wstate) : wstate :=
  let csize := add64 (ws_csize st) w in
  if ws_small st then mk_wstate (ws_room st) csize true
  else if ws_room st <? w then mk_wstate (ws_room st) csize true
  else mk_wstate (ws_room st - w) csize false.

(** field_sized, writing branch, source/framefmt.c 109-127.  A NULL output buffer has capacity 0,
    for which an earlier field has already set too_small. *)
Definition wr_sized (n : N) (st : wstate) : wstate :=
  let csize := add64 (ws_csize st) n in
  if n <=? ws_room st then mk_wstate (ws_room st - n) csize (ws_small st)
  else mk_wstate (ws_room st) csize true.

(** serde_nonframed / serde_framed / serde_last_frame, writing, source/framefmt.c 138-222, called with
    state->max_frame_size = state->plaintext_size = [psize] (lines 324-325).  The error code is
    returned together with the state reached. *)
Definition wr_frame (p : alg_props) (ty : frame_type) (seqno psize : N) (st : wstate)
  : res layout * wstate :=
  match ty with
  | FRAME_TYPE_SINGLE =>
      let st := wr_sized (ap_iv_len p) st in
      let st := wr_int 8 st in
      if MAX_UNFRAMED_PLAINTEXT_SIZE <=? psize then (Err E_BAD_CIPHERTEXT, st)
      else
        let st := wr_sized psize st in
        let st := wr_sized (ap_tag_len p) st in
        (Ok (mk_layout FRAME_TYPE_SINGLE 1 [] (be_bytes 8 psize) psize), st)
  | FRAME_TYPE_FINAL =>
      let st := wr_int 4 st in
      let st := wr_int 4 st in
      let st := wr_sized (ap_iv_len p) st in
      let st := wr_int 4 st in
      let st := wr_sized psize st in
      let st := wr_sized (ap_tag_len p) st in
      (Ok (mk_layout FRAME_TYPE_FINAL seqno (be_bytes 4 LAST_FRAME_MARK ++ be_bytes 4 seqno)
             (be_bytes 4 psize) psize), st)
  | FRAME_TYPE_FRAME =>
      if seqno =? LAST_FRAME_MARK then (Err E_LIMIT_EXCEEDED, st)
      else
        let st := wr_int 4 st in
        let st := wr_sized (ap_iv_len p) st in
        let st := wr_sized psize st in
        let st := wr_sized (ap_tag_len p) st in
        (Ok (mk_layout FRAME_TYPE_FRAME seqno (be_bytes 4 seqno) [] psize), st)
  end.

(** aws_cryptosdk_serialize_frame, source/framefmt.c 298-359.  [room] is the free capacity of
    ciphertext_buf; on failure the free space is zeroed (316, 350).  Simplification for the final frame: the
    test "plaintext_size > max_frame_size" (191) compares equal values when writing; but
    field_be32 (186) first truncates plaintext_size to 32 bits only in the temporary, the checked
    bound MAX_FRAME_SIZE makes that the identity. *)
Definition serialize_frame (p : alg_props) (ty : frame_type) (seqno psize room : N) : ser_result :=
  let too_large := match ty with
                   | FRAME_TYPE_SINGLE => MAX_UNFRAMED_PLAINTEXT_SIZE <? psize
                   | _ => MAX_FRAME_SIZE <? psize
                   end in
  if too_large then mk_ser (Err E_LIMIT_EXCEEDED) None
  else
    let '(r, st) := wr_frame p ty seqno psize (mk_wstate room 0 false) in
    let r' := match r with
              | Err e => Err e
              | Ok l => if ws_small st then Err E_SHORT_BUFFER else Ok l
              end in
    mk_ser r' (Some (ws_csize st)).

(** The bytes of the frame once encrypt_body has filled in IV, ciphertext and tag. *)
Definition layout_bytes (l : layout) (iv ct tag : list N) : list N :=
  lo_fixed1 l ++ iv ++ lo_fixed2 l ++ ct ++ tag.
