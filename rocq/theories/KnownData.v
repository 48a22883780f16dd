(** Known answers of tests/unit/t_caching_cmm.c (cache ids) and tests/unit/t_header.c (headers), copied from /repo; the model run on them. *)
From Verif Require Import Base AlgModel EncCtxModel HdrModel CryptoModel SessionModel CachingModel RealCrypto VectorData.
From Coq Require Import String Permutation.
Import List.
Open Scope list_scope.
Open Scope N_scope.

(** hash_or_generate_partition_id, source/caching_cmm.c 68-99: the partition id of a CMM with a partition name, the hash functions not
    failing; the random id of a CMM without name has 64 bytes (AWS_CRYPTOSDK_MD_MAX_SIZE). *)
Definition partition_id (sha : list N -> list N) (name : option (list N)) (random : list N) : list N :=
  match name with Some n => sha n | None => random end.
(** A caching CMM with that partition; nothing else matters for cache ids. *)
Definition named (name : list N) : caching := mk_caching (partition_id sha512 (Some name) []) 1 0 1.

(** encrypt_id_vector, tests/unit/t_caching_cmm.c 289-374: expected id, suite, context *)
Definition name_1 : list N := ascii_bytes "c15b9079-6d0e-42b6-8784-5e804b025692".
Definition full_ctx : enc_ctx :=
  [(ascii_bytes "this", ascii_bytes "is"); (ascii_bytes "a", ascii_bytes "non-empty"); (ascii_bytes "encryption", ascii_bytes "context")].
Record enc_id_kat := mk_enc_id_kat { ei_id : list N; ei_alg : N; ei_ctx : enc_ctx }.
Definition enc_id_kats : list enc_id_kat :=
  [mk_enc_id_kat [174; 74; 197; 2; 202; 53; 99; 35; 219; 56; 150; 230; 193; 83; 35; 172; 252; 62; 195; 2; 201; 79; 188; 110; 178; 127; 45; 3; 204; 204; 123; 215; 183; 248; 234; 155; 181; 240; 238; 120; 30; 219; 190; 130; 139; 83; 119; 236; 153; 213; 47; 103; 167; 140; 183; 185; 129; 167; 84; 225; 48; 192; 118; 229] 0 [];
   mk_enc_id_kat [222; 39; 1; 34; 66; 202; 225; 93; 223; 87; 6; 230; 223; 52; 177; 81; 213; 16; 87; 166; 111; 101; 133; 14; 46; 95; 27; 184; 221; 250; 131; 168; 3; 50; 160; 36; 130; 23; 6; 175; 44; 87; 237; 8; 149; 0; 25; 22; 212; 152; 65; 232; 100; 105; 231; 63; 155; 205; 184; 174; 114; 32; 92; 41] 0x0378 [];
   mk_enc_id_kat [32; 120; 148; 29; 131; 148; 85; 65; 5; 77; 205; 193; 113; 147; 201; 14; 91; 22; 114; 221; 144; 203; 80; 59; 37; 215; 208; 151; 219; 16; 161; 95; 200; 44; 134; 209; 166; 140; 253; 171; 180; 109; 25; 223; 204; 150; 38; 218; 26; 94; 98; 132; 78; 186; 112; 223; 50; 128; 207; 0; 230; 187; 88; 110] 0 full_ctx;
   mk_enc_id_kat [153; 19; 74; 238; 168; 83; 111; 249; 9; 138; 44; 134; 62; 0; 30; 190; 157; 32; 192; 84; 92; 17; 62; 10; 121; 227; 88; 193; 145; 225; 160; 64; 239; 73; 76; 208; 136; 56; 37; 240; 231; 254; 97; 16; 218; 87; 50; 177; 2; 170; 77; 6; 7; 0; 184; 85; 221; 123; 210; 101; 105; 20; 108; 155] 0x0378 full_ctx].

(** dec_test_vector and dec_cache_id_test_vecs, tests/unit/t_caching_cmm.c 661-770: expected id, partition name, suite, EDKs, context *)
Definition edk_of (a b c : string) : edk := mk_edk (ascii_bytes a) (ascii_bytes b) (ascii_bytes c).
Definition edks_1 : list edk :=
  [edk_of "this is a provider ID" "this is some key info" "super secret key, now with encryption!";
   edk_of "another provider ID!" "this is some different key info" "better super secret key, now with encryption!"].
Definition edks_2 : list edk :=
  [mk_edk [] [] []; mk_edk [0] [0] [0]; mk_edk [0xc2; 0x81] [0x81] [0x81]; mk_edk (ascii_bytes "abc") [0xde; 0xad; 0xbe; 0xef] [0xba; 0xd0; 0xca; 0xfe]].
Definition odd_ctx : enc_ctx :=
  [(0 :: 0 :: ascii_bytes "TEST", 0 :: 0 :: ascii_bytes "test"); ([0xf0; 0x90; 0x80; 0x80], ascii_bytes "UTF-16 surrogate");
   ([0xea; 0xaf; 0x8d], ascii_bytes "\uABCD")].
Record dec_id_kat := mk_dec_id_kat { di_id : list N; di_name : list N; di_alg : N; di_edks : list edk; di_ctx : enc_ctx }.
Definition dec_id_kats : list dec_id_kat :=
  [mk_dec_id_kat [159; 76; 213; 206; 79; 80; 33; 92; 97; 207; 161; 19; 249; 162; 72; 40; 163; 137; 55; 27; 105; 26; 212; 158; 215; 32; 27; 187; 181; 148; 230; 93; 187; 216; 140; 63; 142; 104; 101; 17; 30; 41; 176; 49; 201; 179; 211; 43; 240; 166; 34; 34; 242; 198; 73; 124; 224; 128; 208; 194; 115; 109; 254; 247] name_1 0x0114 (firstn 1 edks_1) [];
   mk_dec_id_kat [250; 187; 112; 81; 237; 252; 8; 105; 220; 204; 105; 152; 187; 93; 162; 168; 101; 135; 35; 32; 242; 103; 142; 4; 189; 132; 56; 75; 160; 2; 154; 200; 18; 241; 86; 132; 166; 44; 52; 69; 49; 169; 14; 78; 153; 255; 182; 24; 55; 248; 213; 28; 224; 28; 52; 160; 242; 8; 211; 252; 18; 107; 45; 22] name_1 0x0378 edks_1 full_ctx;
   mk_dec_id_kat [225; 99; 68; 99; 67; 80; 254; 140; 181; 30; 105; 236; 78; 6; 129; 200; 74; 199; 239; 45; 244; 39; 189; 77; 228; 174; 251; 235; 205; 62; 173; 34; 149; 241; 177; 90; 152; 206; 96; 105; 158; 14; 251; 246; 157; 187; 193; 46; 37; 82; 177; 110; 255; 132; 166; 233; 181; 118; 110; 228; 214; 154; 120; 151] (ascii_bytes "partition ID") 0x0214 edks_2 odd_ctx].

(** tests/unit/t_header.c 39-141, 295-417: the headers, each followed by one byte that is not part of it *)
Definition header_1 : list N := [1; 128; 2; 20; 17; 34; 51; 68; 85; 102; 119; 136; 17; 34; 51; 68; 85; 102; 119; 136; 0; 19; 0; 2; 0; 0; 0; 0; 0; 4; 1; 2; 3; 4; 0; 5; 1; 0; 1; 0; 1; 0; 3; 0; 0; 0; 0; 0; 0; 0; 4; 16; 17; 18; 0; 0; 4; 1; 2; 3; 4; 0; 8; 17; 2; 3; 4; 5; 6; 7; 136; 0; 0; 0; 0; 0; 0; 2; 0; 0; 0; 0; 12; 0; 0; 16; 0; 0; 1; 2; 3; 4; 5; 6; 7; 8; 9; 10; 11; 222; 173; 0; 0; 0; 0; 0; 0; 0; 0; 0; 0; 0; 0; 190; 239; 255].
Definition header_2 : list N := [1; 128; 2; 20; 17; 34; 51; 68; 85; 102; 119; 136; 17; 34; 51; 68; 85; 102; 119; 136; 0; 0; 0; 3; 0; 0; 0; 0; 0; 0; 0; 4; 16; 17; 18; 0; 0; 4; 1; 2; 3; 4; 0; 8; 17; 2; 3; 4; 5; 6; 7; 136; 0; 0; 0; 0; 0; 0; 2; 0; 0; 0; 0; 12; 0; 0; 16; 0; 0; 1; 2; 3; 4; 5; 6; 7; 8; 9; 10; 11; 222; 173; 0; 0; 0; 0; 0; 0; 0; 0; 0; 0; 0; 0; 190; 239; 255].
Definition header_v2 : list N := [2; 4; 120; 0; 1; 2; 3; 4; 5; 6; 7; 8; 9; 10; 11; 12; 13; 14; 15; 16; 17; 18; 19; 20; 21; 22; 23; 24; 25; 26; 27; 28; 29; 30; 31; 0; 24; 0; 2; 0; 4; 84; 101; 115; 116; 0; 3; 79; 110; 101; 0; 4; 84; 115; 115; 116; 0; 3; 84; 119; 111; 0; 1; 0; 4; 80; 114; 111; 118; 0; 4; 73; 110; 102; 111; 0; 16; 89; 101; 108; 108; 111; 119; 32; 83; 117; 98; 109; 97; 114; 105; 110; 101; 2; 0; 0; 16; 0; 16; 17; 18; 19; 20; 21; 22; 23; 24; 25; 26; 27; 28; 29; 30; 31; 0; 1; 2; 3; 4; 5; 6; 7; 8; 9; 10; 11; 12; 13; 14; 15; 0; 1; 2; 3; 4; 5; 6; 7; 8; 9; 10; 11; 12; 13; 14; 15; 255].
Definition bad_headers : list (list N) :=
  [[1; 128; 2; 20; 17; 34; 51; 68; 85; 102; 119; 136; 17; 34; 51; 68; 85; 102; 119; 136; 0; 0; 0; 1; 0; 0; 0; 0; 0; 0; 2; 0; 0; 0; 1; 12; 0; 0; 16; 0; 0; 1; 2; 3; 4; 5; 6; 7; 8; 9; 10; 11; 222; 173; 0; 0; 0; 0; 0; 0; 0; 0; 0; 0; 0; 0; 190; 239];
   [1; 128; 2; 20; 17; 34; 51; 68; 85; 102; 119; 136; 17; 34; 51; 68; 85; 102; 119; 136; 0; 2; 0; 0; 0; 1; 0; 0; 0; 0; 0; 0; 2; 0; 0; 0; 0; 12; 0; 0; 16; 0; 0; 1; 2; 3; 4; 5; 6; 7; 8; 9; 10; 11; 222; 173; 0; 0; 0; 0; 0; 0; 0; 0; 0; 0; 0; 0; 190; 239];
   [1; 128; 2; 20; 17; 34; 51; 68; 85; 102; 119; 136; 17; 34; 51; 68; 85; 102; 119; 136; 0; 0; 0; 0; 2; 0; 0; 0; 0; 12; 0; 0; 16; 0; 0; 1; 2; 3; 4; 5; 6; 7; 8; 9; 10; 11; 222; 173; 0; 0; 0; 0; 0; 0; 0; 0; 0; 0; 0; 0; 190; 239]].
(** test_header_1_hdr, test_header_2_hdr, test_headerV2_1_hdr, tests/unit/t_header.c 259-310, 422-445 *)
Definition hdr_edks : list edk := [mk_edk [] [] []; mk_edk [16; 17; 18; 0] [1; 2; 3; 4] [17; 2; 3; 4; 5; 6; 7; 136]; mk_edk [] [] []].
Definition hdr_iv : list N := [0; 1; 2; 3; 4; 5; 6; 7; 8; 9; 10; 11].
Definition hdr_tag : list N := [222; 173; 0; 0; 0; 0; 0; 0; 0; 0; 0; 0; 0; 0; 190; 239].
Definition hdr_mid : list N := [17; 34; 51; 68; 85; 102; 119; 136; 17; 34; 51; 68; 85; 102; 119; 136].
Definition pair_1 : list N * list N := ([1; 2; 3; 4], [1; 0; 1; 0; 1]).
Definition pair_0 : list N * list N := ([], []).
Definition struct_1 (c : enc_ctx) (src : list N) : hdr := mk_hdr 0x0214 0x1000 hdr_iv hdr_tag hdr_mid [] c hdr_edks (Nlen src - 29).
Definition v2_pairs : enc_ctx := [([84; 101; 115; 116], [79; 110; 101]); ([84; 115; 115; 116], [84; 119; 111])].
Definition struct_v2 : hdr := mk_hdr 0x0478 0x1000 [] [0; 1; 2; 3; 4; 5; 6; 7; 8; 9; 10; 11; 12; 13; 14; 15] [0; 1; 2; 3; 4; 5; 6; 7; 8; 9; 10; 11; 12; 13; 14; 15; 16; 17; 18; 19; 20; 21; 22; 23; 24; 25; 26; 27; 28; 29; 30; 31]
  [16; 17; 18; 19; 20; 21; 22; 23; 24; 25; 26; 27; 28; 29; 30; 31; 0; 1; 2; 3; 4; 5; 6; 7; 8; 9; 10; 11; 12; 13; 14; 15] v2_pairs
  [mk_edk [80; 114; 111; 118] [73; 110; 102; 111] [89; 101; 108; 108; 111; 119; 32; 83; 117; 98; 109; 97; 114; 105; 110; 101]] (Nlen header_v2 - 17).

(** What the tests ask of the model: *)
Definition enc_id_known (x : enc_id_kat) : Prop :=
  forall psize policy, enc_cache_id sha512 (named name_1) (mk_enc_request (ei_ctx x) (ei_alg x) psize policy) = Ok (ei_id x).
Definition dec_id_known (x : dec_id_kat) : Prop :=
  dec_cache_id sha512 (named (di_name x)) (mk_dec_request (di_alg x) (di_edks x) (di_ctx x)) = Ok (di_id x).
(** [bytes] without its last byte is the header [h], whatever follows it, and [h] is written as that; not into a smaller buffer, and not
    for an unknown suite. *)
Definition header_known (bytes : list N) (h : hdr) : Prop :=
  (forall rest, hdr_parse 0 (removelast bytes ++ rest) = Ok (h, rest)) /\
  hdr_size h = Nlen bytes - 1 /\ hdr_write h (Nlen bytes - 1) = Ok (removelast bytes) /\
  (exists e, hdr_write h (Nlen bytes - 2) = Err e) /\
  hdr_write (mk_hdr 0xfaff (h_frame_len h) (h_iv h) (h_auth_tag h) (h_message_id h) (h_alg_suite_data h) (h_enc_ctx h) (h_edks h) (h_auth_len h)) (Nlen bytes - 1) = Err E_BAD_STATE.

(** tests/unit/t_enc_ctx.c 81-190: contexts in the order of the tests, and their serializations *)
Definition ctx_kats : list (enc_ctx * list N) :=
  [([], []);
   ([(ascii_bytes "key_b", ascii_bytes "value_b"); (ascii_bytes "key_a", ascii_bytes "value_a");
     (ascii_bytes "aws-crypto-public-key", ascii_bytes "AmZvwV/dN6o9p/usAnJdRcdnE12UbaDHuEFPeyVkw5FC1ULGlSznzDdD3FP8SW1UMg==");
     (ascii_bytes "key_c", ascii_bytes "value_c")],
    [0; 4; 0; 21; 97; 119; 115; 45; 99; 114; 121; 112; 116; 111; 45; 112; 117; 98; 108; 105; 99; 45; 107; 101; 121; 0; 68; 65; 109; 90; 118; 119; 86; 47; 100; 78; 54; 111; 57; 112; 47; 117; 115; 65; 110; 74; 100; 82; 99; 100; 110; 69; 49; 50; 85; 98; 97; 68; 72; 117; 69; 70; 80; 101; 121; 86; 107; 119; 53; 70; 67; 49; 85; 76; 71; 108; 83; 122; 110; 122; 68; 100; 68; 51; 70; 80; 56; 83; 87; 49; 85; 77; 103; 61; 61; 0; 5; 107; 101; 121; 95; 97; 0; 7; 118; 97; 108; 117; 101; 95; 97; 0; 5; 107; 101; 121; 95; 98; 0; 7; 118; 97; 108; 117; 101; 95; 98; 0; 5; 107; 101; 121; 95; 99; 0; 7; 118; 97; 108; 117; 101; 95; 99]);
   ([(ascii_bytes "aaaaaaaa" ++ [0x80], ascii_bytes "AAAAAAAA"); (ascii_bytes "aaaaaaaa" ++ [0x7f], ascii_bytes "BBBBBBBB")],
    [0; 2; 0; 9; 97; 97; 97; 97; 97; 97; 97; 97; 127; 0; 8; 66; 66; 66; 66; 66; 66; 66; 66; 0; 9; 97; 97; 97; 97; 97; 97; 97; 97; 128; 0; 8; 65; 65; 65; 65; 65; 65; 65; 65])].
(** tests/unit/t_enc_ctx.c 385-404 *)
Definition twice_ctx : list N := [0; 4; 0; 11; 105; 110; 102; 111; 114; 109; 97; 116; 105; 111; 110; 0; 12; 194; 189; 32; 43; 32; 194; 188; 32; 61; 32; 194; 190; 0; 11; 105; 110; 102; 111; 114; 109; 97; 116; 105; 111; 110; 0; 12; 194; 189; 32; 43; 32; 194; 188; 32; 61; 32; 194; 190; 0; 4; 115; 111; 109; 101; 0; 6; 112; 117; 98; 108; 105; 99; 0; 4; 115; 111; 109; 101; 0; 6; 112; 117; 98; 108; 105; 99].
(** In whatever order the table yields the pairs: *)
Definition ctx_known (x : enc_ctx * list N) : Prop :=
  forall c, Permutation (fst x) c -> enc_ctx_size c = Ok (Nlen (snd x)) /\ enc_ctx_serialize (Nlen (snd x)) 0 c = Ok (snd x).
