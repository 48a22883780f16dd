(** Base definitions: bytes, sizes, errors, byte cursors, big-endian integers.

    aws-c-common is not part of /repo.  The cursor and buffer primitives used by the
    sources (aws_byte_cursor_read_be16, aws_byte_cursor_advance, aws_byte_buf_write, ...) are modelled
    here from their documented behaviour:
    a read or a write either happens completely or fails and changes nothing.
    Simplification: the "len > SIZE_MAX/2" guards of aws-c-common are omitted; no C object
    is that large. *)
From Coq Require Export List NArith Lia Bool.
Export ListNotations.
#[global] Open Scope N_scope.

(** A byte is an [N]; [bytes_ok] (below) states that all values are < 256. *)
Notation bytes := (list N) (only parsing).

Definition Nlen {A} (l : list A) : N := N.of_nat (length l).

Definition byte_ok (b : N) : Prop := b < 256.
Definition bytes_ok (l : list N) : Prop := Forall byte_ok l.

(** Unsigned arithmetic of C: size_t and uint64_t are 64 bits wide. *)
Definition two64 : N := 2 ^ 64.
Definition two32 : N := 2 ^ 32.
Definition two16 : N := 2 ^ 16.
Definition UINT64_MAX : N := 2 ^ 64 - 1.
Definition UINT32_MAX : N := 2 ^ 32 - 1.
Definition UINT16_MAX : N := 2 ^ 16 - 1.
Definition add64 (a b : N) : N := (a + b) mod two64.
(** uint64_t subtraction with wrap-around. *)
Definition sub64 (a b : N) : N := (a + two64 - b) mod two64.

(** Error codes: include/aws/cryptosdk/error.h and aws-c-common's aws/common/error.h.
    [E_OTHER n] is any code raised by an external component (CMM, keyring, allocator);
    [E_STALE] is "whatever aws_last_error() was before": the C code returned failure
    without raising an error. *)
Inductive err : Type :=
| E_SHORT_BUFFER
| E_BAD_CIPHERTEXT
| E_LIMIT_EXCEEDED
| E_BAD_STATE
| E_CRYPTO_UNKNOWN
| E_UNSUPPORTED_FORMAT
| E_CANNOT_DECRYPT
| E_RESERVED_NAME
| E_COMMITMENT_POLICY_VIOLATION
| E_SIGNED_NOT_ALLOWED
| E_INVALID_ARGUMENT
| E_INVALID_BUFFER_SIZE
| E_UNIMPLEMENTED
| E_OOM
| E_UNKNOWN
| E_KMS_FAILURE
| E_INVALID_STATE
| E_OTHER (n : N)
| E_STALE.

Definition err_eq_dec (a b : err) : {a = b} + {a <> b}.
Proof. decide equality. apply N.eq_dec. Defined.

Inductive res (A : Type) : Type :=
| Ok (a : A)
| Err (e : err).
Arguments Ok {A} a.
Arguments Err {A} e.

Definition bind {A B} (m : res A) (f : A -> res B) : res B :=
  match m with Ok a => f a | Err e => Err e end.
Notation "'do' x <- m ; f" := (bind m (fun x => f))
  (at level 200, x pattern, m at level 100, f at level 200).

(** Big-endian encoding of [n] on [k] bytes; truncates like a C cast to the field type. *)
Fixpoint be_bytes (k : nat) (n : N) : list N :=
  match k with
  | O => []
  | S k' => (n / 2 ^ (8 * N.of_nat k')) mod 256 :: be_bytes k' n
  end.

(** Value of a big-endian byte string. *)
Definition be_val (l : list N) : N := fold_left (fun a b => a * 256 + b) l 0.

(** Result of a parser on a byte string: value and remaining bytes. *)
Definition parser (A : Type) := list N -> res (A * list N).

(** aws_byte_cursor_advance / aws_byte_cursor_read_and_fill_buffer:
    take exactly [n] bytes or fail with the cursor unchanged. *)
Definition read_bytes (n : N) : parser (list N) := fun s =>
  if Nlen s <? n then Err E_SHORT_BUFFER
  else Ok (firstn (N.to_nat n) s, skipn (N.to_nat n) s).

(** aws_byte_cursor_read_u8 / _be16 / _be32 / _be64 *)
Definition read_be (k : nat) : parser N := fun s =>
  do (b, r) <- read_bytes (N.of_nat k) s;
  Ok (be_val b, r).

(** Equality of byte strings (aws_string_eq, aws_byte_buf_eq, aws_byte_cursor_eq). *)
Fixpoint bytes_eqb (a b : list N) : bool :=
  match a, b with
  | [], [] => true
  | x :: a', y :: b' => (x =? y) && bytes_eqb a' b'
  | _, _ => false
  end.

(** aws_string_compare: memcmp on the common prefix, then the shorter string first. *)
Fixpoint bytes_compare (a b : list N) : comparison :=
  match a, b with
  | [], [] => Eq
  | [], _ :: _ => Lt
  | _ :: _, [] => Gt
  | x :: a', y :: b' =>
      match x ?= y with
      | Eq => bytes_compare a' b'
      | c => c
      end
  end.

Definition zeros (n : N) : list N := repeat 0 (N.to_nat n).
