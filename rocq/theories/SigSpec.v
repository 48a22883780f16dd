(** Specification of ECDSA keys and signatures: the image of a key, what OpenSSL is trusted for. *)
From Verif Require Import Base AlgModel SigModel WireSpec SessionSpec KeyringSpec.
From Coq Require Import ZArith String.
Import List.
Open Scope list_scope.
Open Scope N_scope.

(** [s] is a stored key of suite [alg]: the suite, the two lengths, the public key and the private key. *)
Definition key_image (alg : N) (pubb privb s : list N) : Prop :=
  s = [alg / 256; alg mod 256; Nlen pubb; Nlen privb] ++ pubb ++ privb.

(** Decoding inverts encoding; an ASN.1 integer has at least one byte; base64 text contains no NUL (aws-c-common may add one
    at the end). *)
Record ec_sane (o : ec) : Prop := {
  es_point : forall c p b, ec_i2o o c p = Some b -> ec_o2i o c b = Some (p, Nlen b);
  es_int : forall d b, ec_i2d o d = Some b -> b <> [] /\ ec_d2i o b = Some (d, Nlen b);
  es_text : forall b, exists t, (ec_b64 o b = t \/ ec_b64 o b = t ++ [0]) /\ ~ In 0 t /\ ec_unb64 o t = Some b
}.

Definition no_faults (f : sig_faults) : Prop :=
  ok_group f = true /\ ok_key_new f = true /\ ok_set_group f = true /\ ok_to_asn1 f = true /\ ok_to_bn f = true /\
  ok_set_priv f = true /\ ok_string f = true /\ ok_ctx f = true /\ ok_pkey f = true /\ ok_digest f = true.

(** A context for signing with suite [alg]. *)
Definition signer (x : ec_ctx) (alg pub : N) (d : Z) : Prop :=
  ex_alg x = alg /\ ex_pub x = pub /\ ex_priv x = Some d /\ ex_sign x = true.

(** The curve of a suite and the length its signatures must have. *)
Definition suite_curve (alg : N) (c : string) : Prop :=
  (alg = 0x0214 /\ c = "prime256v1"%string) \/ (In alg [0x0346; 0x0378; 0x0578] /\ c = "secp384r1"%string).
Definition suite_sig_len (alg : N) : N := if alg =? 0x0214 then 71 else 103.

(** What is asked of ECDSA: what the signer writes is valid, and a valid signature (r, s) stays valid as (r, n - s). *)
Definition ecdsa_sane (o : ec) (c : string) (valid : list N -> Prop) (tries : list sign_try) : Prop :=
  (forall t b, In t tries -> st_sig t = Some b -> valid b) /\
  (forall b r s b', valid b -> ec_sig_d2i o b = Some (r, s) -> ec_sig_i2d o (r, (ec_order o c - s)%Z) = Some b' -> valid b').

(** What the signer wrote in pass [t] does not have length [n], neither as it is nor with s replaced by n - s. *)
Definition misses (o : ec) (c : string) (n : N) (t : sign_try) : Prop :=
  exists b, st_sig t = Some b /\ Nlen b <> n /\
    forall r s b', ec_sig_d2i o b = Some (r, s) -> ec_sig_i2d o (r, (ec_order o c - s)%Z) = Some b' -> Nlen b' <> n.
