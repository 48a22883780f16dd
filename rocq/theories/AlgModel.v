(** Algorithm suite table: source/cipher.c 33-224, 226-254; source/header.c 27-109;
    include/aws/cryptosdk/cipher.h. *)
From Verif Require Import Base.
From Coq Require Import String.

(** enum aws_cryptosdk_sha_version, source/cipher.c 239-254 *)
Inductive sha_version := NOSHA | SHA256 | SHA384 | SHA512.

(** struct aws_cryptosdk_alg_properties, include/aws/cryptosdk/cipher.h.
    Only the fields used by the modelled code.  [ap_md_name] is a C string pointer:
    [None] would be the NULL pointer. *)
Record alg_props := mk_alg_props {
  ap_id : N;
  ap_md_name : option string;
  ap_version : N;
  ap_data_key_len : N;
  ap_content_key_len : N;
  ap_iv_len : N;
  ap_tag_len : N;
  ap_sig_len : N;
  ap_suite_data_len : N;
  ap_commitment_len : N;
}.

(** include/aws/cryptosdk/header.h: AWS_CRYPTOSDK_HEADER_VERSION_1_0 / _2_0 *)
Definition HEADER_VERSION_1_0 : N := 1.
Definition HEADER_VERSION_2_0 : N := 2.

(** include/aws/cryptosdk/header.h: enum aws_cryptosdk_alg_id *)
Definition ALG_AES256_COMMIT_P384 : N := 0x0578.
Definition ALG_AES256_COMMIT : N := 0x0478.
Definition ALG_AES256_HKDF_P384 : N := 0x0378.
Definition ALG_AES192_HKDF_P384 : N := 0x0346.
Definition ALG_AES128_HKDF_P256 : N := 0x0214.
Definition ALG_AES256_HKDF : N := 0x0178.
Definition ALG_AES192_HKDF : N := 0x0146.
Definition ALG_AES128_HKDF : N := 0x0114.
Definition ALG_AES256_NO_KDF : N := 0x0078.
Definition ALG_AES192_NO_KDF : N := 0x0046.
Definition ALG_AES128_NO_KDF : N := 0x0014.

(** STATIC_ALG_PROPS macro, source/cipher.c 35-73.  Line 56 [.md_name = #md] stringifies the
    macro argument, so for the suites without key derivation (argument [NULL]) the field is the
    four-character string "NULL", not a null pointer. *)
Definition static_alg_props (id ver : N) (md : string) (dk iv tag sig suite commit : N) : alg_props :=
  {| ap_id := id; ap_md_name := Some md; ap_version := ver;
     ap_data_key_len := dk / 8; ap_content_key_len := dk / 8;
     ap_iv_len := iv; ap_tag_len := tag; ap_sig_len := sig;
     ap_suite_data_len := suite / 8; ap_commitment_len := commit / 8 |}.

(** aws_cryptosdk_alg_props, source/cipher.c 33-224 *)
Definition alg_lookup (id : N) : option alg_props :=
  if id =? ALG_AES128_NO_KDF then
    Some (static_alg_props id HEADER_VERSION_1_0 "NULL" 128 12 16 0 0 0)
  else if id =? ALG_AES128_HKDF then
    Some (static_alg_props id HEADER_VERSION_1_0 "sha256" 128 12 16 0 0 0)
  else if id =? ALG_AES192_NO_KDF then
    Some (static_alg_props id HEADER_VERSION_1_0 "NULL" 192 12 16 0 0 0)
  else if id =? ALG_AES192_HKDF then
    Some (static_alg_props id HEADER_VERSION_1_0 "sha256" 192 12 16 0 0 0)
  else if id =? ALG_AES256_NO_KDF then
    Some (static_alg_props id HEADER_VERSION_1_0 "NULL" 256 12 16 0 0 0)
  else if id =? ALG_AES256_HKDF then
    Some (static_alg_props id HEADER_VERSION_1_0 "sha256" 256 12 16 0 0 0)
  else if id =? ALG_AES256_COMMIT then
    Some (static_alg_props id HEADER_VERSION_2_0 "sha512" 256 12 16 0 256 256)
  else if id =? ALG_AES128_HKDF_P256 then
    Some (static_alg_props id HEADER_VERSION_1_0 "sha256" 128 12 16 71 0 0)
  else if id =? ALG_AES192_HKDF_P384 then
    Some (static_alg_props id HEADER_VERSION_1_0 "sha384" 192 12 16 103 0 0)
  else if id =? ALG_AES256_HKDF_P384 then
    Some (static_alg_props id HEADER_VERSION_1_0 "sha384" 256 12 16 103 0 0)
  else if id =? ALG_AES256_COMMIT_P384 then
    Some (static_alg_props id HEADER_VERSION_2_0 "sha512" 256 12 16 103 256 256)
  else None.

(** aws_cryptosdk_algorithm_is_known, source/header.c 27-42 *)
Definition alg_is_known (id : N) : bool :=
  existsb (N.eqb id)
    [ALG_AES256_COMMIT; ALG_AES256_COMMIT_P384; ALG_AES256_HKDF_P384; ALG_AES192_HKDF_P384;
     ALG_AES128_HKDF_P256; ALG_AES256_HKDF; ALG_AES192_HKDF; ALG_AES128_HKDF;
     ALG_AES256_NO_KDF; ALG_AES192_NO_KDF; ALG_AES128_NO_KDF].

(** aws_cryptosdk_algorithm_is_committing, source/header.c 103-109 *)
Definition alg_is_committing (id : N) : bool :=
  (id =? ALG_AES256_COMMIT) || (id =? ALG_AES256_COMMIT_P384).

(** aws_cryptosdk_which_sha, source/cipher.c 239-254 *)
Definition which_sha (id : N) : sha_version :=
  if (id =? ALG_AES256_COMMIT_P384) || (id =? ALG_AES256_COMMIT) then SHA512
  else if (id =? ALG_AES256_HKDF_P384) || (id =? ALG_AES192_HKDF_P384) then SHA384
  else if (id =? ALG_AES128_HKDF_P256) || (id =? ALG_AES256_HKDF) ||
          (id =? ALG_AES192_HKDF) || (id =? ALG_AES128_HKDF) then SHA256
  else NOSHA.

(** aws_cryptosdk_private_algorithm_message_id_len, source/cipher.c 226-234 *)
Definition message_id_len (p : alg_props) : N :=
  if ap_version p =? HEADER_VERSION_1_0 then 16
  else if ap_version p =? HEADER_VERSION_2_0 then 32
  else 0.

(** aws_cryptosdk_private_authtag_len, include/aws/cryptosdk/private/cipher.h *)
Definition authtag_len (p : alg_props) : N :=
  if ap_version p =? HEADER_VERSION_1_0 then ap_iv_len p + ap_tag_len p
  else ap_tag_len p.

(** aws_cryptosdk_header_version_static_fields_len, source/header.c 70-93; [None] is -1. *)
Definition static_fields_len (version : N) : option N :=
  if version =? HEADER_VERSION_1_0 then Some (1 + 1 + 2 + 2 + 2 + 1 + 4 + 1 + 4)
  else if version =? HEADER_VERSION_2_0 then Some (1 + 2 + 2 + 2 + 1 + 4)
  else None.

(** aws_cryptosdk_private_algorithm_ivlen / _taglen, source/header.c 52-68; [None] is -1. *)
Definition algorithm_ivlen (id : N) : option N := if alg_is_known id then Some 12 else None.
Definition algorithm_taglen (id : N) : option N := if alg_is_known id then Some 16 else None.
