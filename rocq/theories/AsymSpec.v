(** What RSA wrapping and key derivation with OpenSSL are to do, said without calls and objects. *)
From Verif Require Import Base AlgModel CryptoModel KeyringModel HkdfSpec CipherModel CipherSpec AsymModel.
From Coq Require Import ZArith.
Import List.
Open Scope list_scope.
Open Scope N_scope.

(** RSA: ciphertexts are as long as the key, plaintexts at most as long, and nothing longer is written; memory has the size asked for. *)
Definition asym_wf (a : asym) : Prop :=
  (forall k p r t c, a_enc a k p r t = Some c -> Nlen c = a_size a k) /\
  (forall k p c t, a_dec a k p c = Some t -> Nlen t <= a_size a k) /\
  (forall k m, a_size a k <= Nlen m -> Nlen (a_junk a k m) <= a_size a k) /\
  (forall n, Nlen (a_fresh a n) = n) /\
  (forall sha s k i n, Nlen (a_hkdf a sha s k i n) = n).

(** The three modes of raw_rsa_keyring.h: PKCS #1 v1.5, OAEP with SHA-1, OAEP with SHA-256, each with MGF1 of the same hash. *)
Definition rsa_scheme (mode : Z) (p : padding) : Prop :=
  (mode = 0%Z /\ p = PadPkcs1) \/ (mode = 1%Z /\ p = PadOaep H_SHA1 H_SHA1) \/ (mode = 2%Z /\ p = PadOaep H_SHA256 H_SHA256).

(** [c] is the text [t] wrapped under the key of a PEM string; a wrapped text that can be unwrapped. *)
Definition rsa_wraps (a : asym) (pem : list N) (mode : Z) (seed t c : list N) : Prop :=
  exists k p, a_pub a pem = Some k /\ a_rsa a k = true /\ rsa_scheme mode p /\ a_enc a k p seed t = Some c.
Definition rsa_unwraps (a : asym) (pem : list N) (mode : Z) (c t : list N) : Prop :=
  exists k p, a_priv a pem = Some k /\ a_rsa a k = true /\ rsa_scheme mode p /\ a_dec a k p c = Some t.
Definition private_key (a : asym) (pem : list N) : Prop := exists k, a_priv a pem = Some k /\ a_rsa a k = true.

(** The part of a PEM string that OpenSSL reads: its length is an int, and a negative one means everything before the first NUL. *)
Definition pem_part (pem : list N) : list N :=
  let n := Nlen pem mod 2 ^ 32 in if n <? 2 ^ 31 then firstn (N.to_nat n) pem else c_string pem.

(** A run that is not stopped, frees the objects it makes and no others, and gives back only memory that is all zero. *)
Definition ends_clean {A} (m : P A) (s : pst) (Q : A -> pst -> Prop) : Prop :=
  exists r s' gone, m s = inr (r, s') /\ p_objs s' = p_objs s /\
    p_freed s' = gone ++ p_freed s /\ Forall (Forall (fun b => b = 0)) gone /\ Q r s'.

(** A buffer whose memory is [t] followed by anything, of length |t|; it holds exactly [t] from the caller's point of view. *)
Definition holds (b : abuf) (t : list N) : Prop := exists rest, b = Some (t ++ rest, Nlen t).

(** Lengths for which OpenSSL derives a key. *)
Definition derivable (sha : sha_version) (ikm info : list N) (len : N) : Prop :=
  sha <> NOSHA /\ ikm <> [] /\ Nlen info <= 1024 /\ len <= 255 * N.of_nat (digest_len sha).

(** The bytes that OpenSSL uses of an argument whose length it gets as an int, unless that is negative. *)
Definition int_part (x : list N) : option (list N) :=
  let n := Nlen x mod 2 ^ 32 in if n <? 2 ^ 31 then Some (firstn (N.to_nat n) x) else None.

(** OpenSSL's HKDF is that of RFC 5869 over this HMAC, for the salts it is given here. *)
Definition hkdf_is_rfc (a : asym) (hmac : sha_version -> list N -> list N -> list N) : Prop :=
  forall sha salt ikm info len, sha <> NOSHA -> salt <> [] -> len <= 255 * N.of_nat (digest_len sha) ->
    rfc_hkdf (hmac sha) (digest_len sha) salt ikm info (N.to_nat len) (a_hkdf a sha salt ikm info len).

(** The oracles of KeyringModel and CryptoModel that belong to [a]. *)
Definition rsa_for (a : asym) (rs : rsa) : Prop :=
  (forall mode pem seed t c, rs_enc rs mode pem seed t = Some c <-> rsa_wraps a pem (Z.of_N mode) seed t c) /\
  (forall mode pem c t, rs_dec rs mode pem c = Some t <-> rsa_unwraps a pem (Z.of_N mode) c t).
Definition hkdf_for (a : asym) (cr : crypto) : Prop :=
  forall sha salt ikm info len okm, cr_hkdf cr sha salt ikm info len = Some okm <->
    derivable sha ikm info len /\ okm = a_hkdf a sha salt ikm info len.
