(** HKDF as specified by RFC 5869, over any HMAC with output of constant length. *)
From Verif Require Import Base AlgModel WireSpec SessionSpec.
From Coq Require Import String.
Import List.
Open Scope list_scope.
Open Scope N_scope.

Section RFC5869.
  (** HMAC-Hash(key, data) and HashLen. *)
  Variable hmac : list N -> list N -> list N.
  Variable hash_len : nat.

  (** Section 2.2: the salt is "if not provided, set to a string of HashLen zeros". *)
  Definition rfc_extract (salt ikm : list N) : list N :=
    hmac (match salt with [] => repeat 0 hash_len | _ => salt end) ikm.

  (** Section 2.3: T(0) is empty, T(i) = HMAC-Hash(PRK, T(i-1) | info | i). *)
  Fixpoint rfc_block (prk info : list N) (i : nat) : list N :=
    match i with
    | O => []
    | S j => hmac prk (rfc_block prk info j ++ info ++ [N.of_nat i])
    end.

  (** "T = T(1) | T(2) | ... | T(N), OKM = first L octets of T", N = ceil(L/HashLen), L <= 255*HashLen. *)
  Definition rfc_okm (prk info : list N) (L : nat) (okm : list N) : Prop :=
    exists n, (L <= n * hash_len < L + hash_len)%nat /\ (n <= 255)%nat /\
      okm = firstn L (concat (map (rfc_block prk info) (seq 1 n))).

  Definition rfc_hkdf (salt ikm info : list N) (L : nat) (okm : list N) : Prop :=
    rfc_okm (rfc_extract salt ikm) info L okm.
End RFC5869.

(** Output length of the hash functions in bytes. *)
Definition digest_len (sha : sha_version) : nat := match sha with NOSHA => 0 | SHA256 => 32 | SHA384 => 48 | SHA512 => 64 end.

(** HMACs of the three hash functions have the length of the hash. *)
Definition hmac_sane (hmac : sha_version -> list N -> list N -> list N) : Prop :=
  forall sha k d, sha <> NOSHA -> length (hmac sha k d) = digest_len sha.

(** The keys of a message in terms of RFC 5869: suites of message format 1 use no salt and the message id as part of the info, suites of
    format 2 the message id as salt. *)
Inductive rfc_key (hmac : sha_version -> list N -> list N -> list N) (alg : N) (mid dk : list N) : purpose -> list N -> Prop :=
| rk_plain : In alg plain_suites -> rfc_key hmac alg mid dk P_CONTENT dk
| rk_sha256 : forall k, In alg [0x0114; 0x0146; 0x0178; 0x0214] ->
    rfc_hkdf (hmac SHA256) 32 [] dk (u16 alg ++ mid) (N.to_nat (suite_key_len alg)) k -> rfc_key hmac alg mid dk P_CONTENT k
| rk_sha384 : forall k, In alg [0x0346; 0x0378] ->
    rfc_hkdf (hmac SHA384) 48 [] dk (u16 alg ++ mid) (N.to_nat (suite_key_len alg)) k -> rfc_key hmac alg mid dk P_CONTENT k
| rk_sha512 : forall k, In alg v2_suites ->
    rfc_hkdf (hmac SHA512) 64 mid dk (u16 alg ++ text "DERIVEKEY") 32 k -> rfc_key hmac alg mid dk P_CONTENT k
| rk_commitment : forall k, In alg v2_suites ->
    rfc_hkdf (hmac SHA512) 64 mid dk (text "COMMITKEY") 32 k -> rfc_key hmac alg mid dk P_COMMIT k.
