(** The algorithm suites of the message format, by the structure of their identifiers: the low byte is the AES key,
    the high byte says how the content key is derived and whether the message is signed. *)
From Verif Require Import Base AlgModel.
From Coq Require Import String.
Import List.
Open Scope list_scope.
Open Scope N_scope.

Inductive derivation := D_NONE | D_HKDF256 | D_HKDF384 | D_COMMIT512.
Inductive signature := S_NONE | S_P256 | S_P384.

(** AES key length in bytes. *)
Definition cipher_of (low : N) : option N :=
  if low =? 0x14 then Some 16 else if low =? 0x46 then Some 24 else if low =? 0x78 then Some 32 else None.
Definition family_of (high : N) : option (derivation * signature) :=
  if high =? 0 then Some (D_NONE, S_NONE)
  else if high =? 1 then Some (D_HKDF256, S_NONE)
  else if high =? 2 then Some (D_HKDF256, S_P256)
  else if high =? 3 then Some (D_HKDF384, S_P384)
  else if high =? 4 then Some (D_COMMIT512, S_NONE)
  else if high =? 5 then Some (D_COMMIT512, S_P384)
  else None.

(** Not every pair exists: P-256 goes with 128-bit keys, SHA-384 with longer ones, commitment with 256-bit keys. *)
Definition pairs (d : derivation * signature) (key : N) : bool :=
  match d with
  | (D_HKDF256, S_P256) => key =? 16
  | (D_HKDF384, _) => negb (key =? 16)
  | (D_COMMIT512, _) => key =? 32
  | _ => true
  end.

(** Key length, derivation and signature of suite [id]. *)
Definition suite_kind (id : N) : option (N * derivation * signature) :=
  match cipher_of (id mod 256), family_of (id / 256) with
  | Some key, Some d => if pairs d key then Some (key, fst d, snd d) else None
  | _, _ => None
  end.

(** Bytes of an ECDSA signature in DER: two integers as long as the curve, and seven bytes of structure. *)
Definition der_len (s : signature) : N :=
  match s with S_NONE => 0 | S_P256 => 2 * 32 + 7 | S_P384 => 2 * 48 + 7 end.
Definition hash_of (d : derivation) : sha_version :=
  match d with D_NONE => NOSHA | D_HKDF256 => SHA256 | D_HKDF384 => SHA384 | D_COMMIT512 => SHA512 end.
Definition commits (d : derivation) : bool := match d with D_COMMIT512 => true | _ => false end.
