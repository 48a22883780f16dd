(** C85: cache ids, headers, encryption contexts and provider infos are those of the unit tests of /repo. *)
From Verif Require Import Base AlgModel EncCtxModel HdrModel CryptoModel SessionModel CachingModel KeyringModel RawKeyringProofs RealCrypto RealProofs VectorData KnownData KnownProofs.
From Coq Require Import String.
Import List.
Open Scope list_scope.
Open Scope N_scope.

(** Cache ids of encryption requests; the size of the plaintext and the commitment policy do not matter. *)
Theorem C85_known_encryption_ids : Forall enc_id_known enc_id_kats.
Proof. exact C85_enc_lemma. Qed.
Print Assumptions C85_known_encryption_ids.
Example enc_id_cases : map (fun x => (ei_alg x, Nlen (ei_ctx x), Nlen (ei_id x))) enc_id_kats = [(0, 0, 64); (0x0378, 0, 64); (0, 3, 64); (0x0378, 3, 64)].
Proof. reflexivity. Qed.

(** Cache ids of decryption requests. *)
Theorem C85_known_decryption_ids : Forall dec_id_known dec_id_kats.
Proof. exact C85_dec_lemma. Qed.
Print Assumptions C85_known_decryption_ids.
Example dec_id_cases : map (fun x => (di_alg x, Nlen (di_edks x), Nlen (di_ctx x), Nlen (di_id x))) dec_id_kats = [(0x0114, 1, 0, 64); (0x0378, 2, 3, 64); (0x0214, 4, 3, 64)].
Proof. reflexivity. Qed.

(** A partition id made from a name has the 64 bytes that the claims about cache ids assume. *)
Theorem C85_partition_id_length : forall name random, length (partition_id sha512 (Some name) random) = 64%nat /\ bytes_ok (partition_id sha512 (Some name) random).
Proof. exact (fun name _ => sha512_out name). Qed.
Print Assumptions C85_partition_id_length.
Example partition_id_case : length (partition_id sha512 (Some name_1) []) = 64%nat.
Proof. vm_compute. reflexivity. Qed.

(** The test headers are read, measured and written as the tests expect; the order of the pairs in the context table does not matter. *)
Theorem C85_known_headers :
  header_known header_1 (struct_1 [pair_0; pair_1] header_1) /\ header_known header_2 (struct_1 [] header_2) /\ header_known header_v2 struct_v2 /\
  hdr_write (struct_1 [pair_1; pair_0] header_1) (Nlen header_1 - 1) = Ok (removelast header_1).
Proof. exact C85_headers_lemma. Qed.
Print Assumptions C85_known_headers.
Example header_lengths : map Nlen [header_1; header_2; header_v2] = [116; 97; 147].
Proof. reflexivity. Qed.

(** Headers that the tests want refused are refused, whatever follows; every proper part of a good header is too short. *)
Theorem C85_known_bad_headers :
  (forall bad rest, In bad bad_headers -> hdr_parse 0 (bad ++ rest) = Err E_BAD_CIPHERTEXT) /\
  (forall h n, In h [header_1; header_2; header_v2] -> (n < length h - 1)%nat -> hdr_parse 0 (firstn n h) = Err E_SHORT_BUFFER).
Proof. exact C85_bad_headers_lemma. Qed.
Print Assumptions C85_known_bad_headers.
Example bad_header_count : length bad_headers = 3%nat /\ forallb (fun b => 60 <? Nlen b) bad_headers = true.
Proof. split; reflexivity. Qed.

(** Encryption contexts have the known sizes and serializations, in whatever order the table yields their pairs; a context with a key
    twice is refused. *)
Theorem C85_known_contexts : Forall ctx_known ctx_kats /\ forall old, enc_ctx_deserialize old twice_ctx = ([], Err E_BAD_CIPHERTEXT).
Proof. exact C85_contexts_lemma. Qed.
Print Assumptions C85_known_contexts.
Example context_sizes : map (fun x => (Nlen (fst x), Nlen (snd x))) ctx_kats = [(0, 0); (4, 143); (2, 44)].
Proof. vm_compute. reflexivity. Qed.

(** Provider infos of the raw AES keyring: the known one; and of a keyring with any name, it is exactly this form that is accepted. *)
Theorem C85_known_provider_info :
  let iv := [0x00; 0x11; 0x22; 0x33; 0x44; 0x55; 0x66; 0x77; 0x88; 0x99; 0xaa; 0xbb] in
  serialize_provider_info (ascii_bytes "Master key id") iv = ascii_bytes "Master key id" ++ [0; 0; 0; 128; 0; 0; 0; 12] ++ iv /\
  (forall name iv, serialize_provider_info name iv = name ++ [0; 0; 0; 128; 0; 0; 0; 12] ++ iv) /\
  (forall name info iv, bytes_ok info ->
     (parse_provider_info name info = Some iv <-> info = name ++ [0; 0; 0; 128; 0; 0; 0; 12] ++ iv /\ Nlen iv = 12)).
Proof. exact C85_info_lemma. Qed.
Print Assumptions C85_known_provider_info.
Example provider_info_case : parse_provider_info (ascii_bytes "Master key id")
  (ascii_bytes "Master key id" ++ [0; 0; 0; 128; 0; 0; 0; 12; 0x00; 0x11; 0x22; 0x33; 0x44; 0x55; 0x66; 0x77; 0x88; 0x99; 0xaa; 0xbb]) =
  Some [0x00; 0x11; 0x22; 0x33; 0x44; 0x55; 0x66; 0x77; 0x88; 0x99; 0xaa; 0xbb].
Proof. vm_compute. reflexivity. Qed.
