(** Known answers of the unit tests of /repo, copied: tests/unit/t_cipher.c (test_kdf, test_decrypt_frame_all_algos, six of test_verify_header),
    tests/unit/t_hkdf.c (vectors 0, 2, 3 and 6), tests/lib/raw_aes_keyring_test_vectors.c, tests/unit/t_raw_aes_keyring_decrypt.c. *)
From Verif Require Import Base AlgModel EncCtxModel HdrModel FrameModel CryptoModel KeyringModel VectorData.
From Coq Require Import String.
Import List.
Open Scope list_scope.
Open Scope N_scope.

(** t_cipher.c 29-146: suite, data key, message id, content key, commitment *)
Record kdf_kat := mk_kdf_kat { kk_alg : N; kk_data_key : list N; kk_mid : list N; kk_content_key : list N; kk_commit : list N }.
Definition kdf_kats : list kdf_kat :=
  [mk_kdf_kat 0x0478 [191; 40; 45; 198; 215; 171; 2; 211; 99; 86; 133; 194; 166; 202; 49; 118; 0; 40; 174; 2; 66; 46; 62; 181; 66; 33; 105; 170; 154; 20; 187; 153] [51; 57; 109; 180; 32; 190; 238; 72; 6; 170; 191; 182; 224; 142; 6; 7; 233; 227; 70; 93; 120; 54; 55; 156; 203; 208; 29; 155; 69; 43; 130; 4]
     [83; 149; 54; 93; 26; 66; 183; 118; 70; 188; 6; 11; 241; 145; 160; 139; 90; 31; 79; 60; 131; 158; 188; 176; 156; 185; 27; 201; 12; 202; 228; 66] [192; 101; 212; 8; 30; 25; 163; 31; 77; 41; 162; 82; 139; 228; 13; 187; 203; 222; 239; 93; 156; 183; 95; 213; 61; 62; 165; 121; 90; 47; 146; 181];
   mk_kdf_kat 0x0578 [191; 40; 45; 198; 215; 171; 2; 211; 99; 86; 133; 194; 166; 202; 49; 118; 0; 40; 174; 2; 66; 46; 62; 181; 66; 33; 105; 170; 154; 20; 187; 153] [51; 57; 109; 180; 32; 190; 238; 72; 6; 170; 191; 182; 224; 142; 6; 7; 233; 227; 70; 93; 120; 54; 55; 156; 203; 208; 29; 155; 69; 43; 130; 4]
     [204; 83; 202; 124; 42; 40; 194; 218; 99; 177; 160; 41; 196; 243; 253; 86; 211; 14; 182; 6; 131; 145; 254; 232; 8; 142; 1; 236; 21; 253; 230; 237] [192; 101; 212; 8; 30; 25; 163; 31; 77; 41; 162; 82; 139; 228; 13; 187; 203; 222; 239; 93; 156; 183; 95; 213; 61; 62; 165; 121; 90; 47; 146; 181];
   mk_kdf_kat 0x0014 [0; 1; 2; 3; 4; 5; 6; 7; 8; 9; 10; 11; 12; 13; 14; 15] [112; 113; 114; 115; 116; 117; 118; 119; 120; 121; 122; 123; 124; 125; 126; 127]
     [0; 1; 2; 3; 4; 5; 6; 7; 8; 9; 10; 11; 12; 13; 14; 15] [];
   mk_kdf_kat 0x0046 [0; 1; 2; 3; 4; 5; 6; 7; 8; 9; 10; 11; 12; 13; 14; 15; 16; 17; 18; 19; 20; 21; 22; 23] [112; 113; 114; 115; 116; 117; 118; 119; 120; 121; 122; 123; 124; 125; 126; 127]
     [0; 1; 2; 3; 4; 5; 6; 7; 8; 9; 10; 11; 12; 13; 14; 15; 16; 17; 18; 19; 20; 21; 22; 23] [];
   mk_kdf_kat 0x0078 [0; 1; 2; 3; 4; 5; 6; 7; 8; 9; 10; 11; 12; 13; 14; 15; 16; 17; 18; 19; 20; 21; 22; 23; 24; 25; 26; 27; 28; 29; 30; 31] [112; 113; 114; 115; 116; 117; 118; 119; 120; 121; 122; 123; 124; 125; 126; 127]
     [0; 1; 2; 3; 4; 5; 6; 7; 8; 9; 10; 11; 12; 13; 14; 15; 16; 17; 18; 19; 20; 21; 22; 23; 24; 25; 26; 27; 28; 29; 30; 31] [];
   mk_kdf_kat 0x0114 [0; 1; 2; 3; 4; 5; 6; 7; 8; 9; 10; 11; 12; 13; 14; 15] [112; 113; 114; 115; 116; 117; 118; 119; 120; 121; 122; 123; 124; 125; 126; 127]
     [176; 175; 233; 197; 2; 177; 245; 228; 82; 66; 249; 196; 10; 170; 150; 102] [];
   mk_kdf_kat 0x0146 [0; 1; 2; 3; 4; 5; 6; 7; 8; 9; 10; 11; 12; 13; 14; 15; 16; 17; 18; 19; 20; 21; 22; 23] [112; 113; 114; 115; 116; 117; 118; 119; 120; 121; 122; 123; 124; 125; 126; 127]
     [141; 92; 212; 137; 5; 178; 120; 25; 116; 192; 10; 164; 16; 40; 201; 54; 254; 92; 232; 192; 176; 71; 56; 141] [];
   mk_kdf_kat 0x0178 [0; 1; 2; 3; 4; 5; 6; 7; 8; 9; 10; 11; 12; 13; 14; 15; 16; 17; 18; 19; 20; 21; 22; 23; 24; 25; 26; 27; 28; 29; 30; 31] [112; 113; 114; 115; 116; 117; 118; 119; 120; 121; 122; 123; 124; 125; 126; 127]
     [202; 99; 51; 126; 15; 27; 81; 230; 216; 234; 43; 186; 71; 104; 81; 175; 129; 185; 161; 171; 97; 16; 101; 136; 163; 104; 222; 191; 222; 40; 21; 149] [];
   mk_kdf_kat 0x0214 [0; 1; 2; 3; 4; 5; 6; 7; 8; 9; 10; 11; 12; 13; 14; 15] [112; 113; 114; 115; 116; 117; 118; 119; 120; 121; 122; 123; 124; 125; 126; 127]
     [171; 123; 161; 83; 87; 201; 96; 147; 18; 32; 5; 71; 106; 221; 141; 32] [];
   mk_kdf_kat 0x0346 [0; 1; 2; 3; 4; 5; 6; 7; 8; 9; 10; 11; 12; 13; 14; 15; 16; 17; 18; 19; 20; 21; 22; 23] [112; 113; 114; 115; 116; 117; 118; 119; 120; 121; 122; 123; 124; 125; 126; 127]
     [132; 40; 189; 0; 170; 71; 160; 141; 238; 83; 20; 88; 66; 125; 209; 163; 49; 54; 103; 173; 10; 235; 6; 223] [];
   mk_kdf_kat 0x0378 [0; 1; 2; 3; 4; 5; 6; 7; 8; 9; 10; 11; 12; 13; 14; 15; 16; 17; 18; 19; 20; 21; 22; 23; 24; 25; 26; 27; 28; 29; 30; 31] [112; 113; 114; 115; 116; 117; 118; 119; 120; 121; 122; 123; 124; 125; 126; 127]
     [157; 70; 226; 112; 158; 89; 62; 186; 174; 129; 112; 68; 22; 175; 93; 249; 12; 87; 95; 164; 220; 240; 218; 120; 17; 107; 107; 109; 89; 157; 230; 44] []].

(** t_cipher.c 306-408: suite, ciphertext, plaintext, message id, content key, sequence number, IV, tag; all of type FRAME_TYPE_FRAME *)
Record frame_kat := mk_frame_kat { fk_alg : N; fk_ct : list N; fk_pt : list N; fk_mid : list N; fk_key : list N; fk_seqno : N; fk_iv : list N; fk_tag : list N }.
Definition frame_kats : list frame_kat :=
  [mk_frame_kat 0x0014 [235; 229; 244; 180; 127; 238; 119; 61; 233; 163; 114] [104; 101; 108; 108; 111; 32; 119; 111; 114; 108; 100] [26; 102; 216; 224; 13; 48; 235; 61; 20; 175; 91; 182; 105; 196; 9; 188]
     [85; 168; 178; 187; 68; 39; 16; 49; 183; 52; 59; 128; 8; 254; 173; 82] 1 [0; 0; 0; 0; 0; 0; 0; 0; 0; 0; 0; 1] [15; 176; 7; 212; 55; 13; 117; 42; 226; 82; 239; 255; 160; 135; 126; 94];
   mk_frame_kat 0x0046 [46; 143; 140; 130; 18; 127; 74; 26; 219; 211; 38] [104; 101; 108; 108; 111; 32; 119; 111; 114; 108; 100] [188; 208; 236; 97; 12; 61; 220; 59; 184; 50; 143; 180; 208; 56; 249; 59]
     [57; 209; 27; 166; 41; 179; 53; 152; 122; 33; 140; 4; 236; 79; 43; 166; 212; 142; 102; 91; 113; 138; 247; 229] 1 [0; 0; 0; 0; 0; 0; 0; 0; 0; 0; 0; 1] [113; 182; 120; 88; 56; 63; 198; 201; 49; 192; 168; 19; 235; 23; 121; 80];
   mk_frame_kat 0x0078 [210; 127; 193; 17; 26; 199; 9; 144; 5; 244; 154] [104; 101; 108; 108; 111; 32; 119; 111; 114; 108; 100] [208; 121; 49; 51; 79; 254; 210; 225; 117; 62; 89; 205; 51; 242; 120; 74]
     [202; 29; 224; 25; 85; 123; 146; 107; 134; 140; 37; 235; 40; 28; 63; 20; 66; 51; 252; 189; 29; 206; 214; 113; 208; 99; 12; 187; 97; 86; 253; 239] 1 [0; 0; 0; 0; 0; 0; 0; 0; 0; 0; 0; 1] [157; 63; 58; 215; 102; 62; 181; 113; 11; 164; 137; 62; 57; 83; 209; 250];
   mk_frame_kat 0x0114 [175; 94; 39; 137; 152; 59; 234; 69; 23; 112; 122] [104; 101; 108; 108; 111; 32; 119; 111; 114; 108; 100] [66; 25; 160; 50; 10; 196; 189; 232; 137; 228; 205; 85; 29; 229; 20; 113]
     [172; 32; 202; 87; 66; 46; 20; 100; 90; 3; 25; 25; 125; 161; 25; 20] 1 [0; 0; 0; 0; 0; 0; 0; 0; 0; 0; 0; 1] [16; 127; 51; 46; 73; 115; 193; 37; 29; 180; 18; 153; 242; 246; 183; 139];
   mk_frame_kat 0x0178 [130; 63; 144; 176; 64; 230; 4; 61; 179; 122; 123] [104; 101; 108; 108; 111; 32; 119; 111; 114; 108; 100] [97; 209; 204; 242; 62; 28; 143; 163; 110; 86; 95; 247; 208; 41; 122; 198]
     [190; 202; 11; 146; 163; 217; 166; 21; 91; 61; 141; 127; 3; 118; 102; 91; 186; 245; 3; 155; 215; 153; 167; 122; 200; 145; 51; 79; 138; 19; 214; 163] 1 [0; 0; 0; 0; 0; 0; 0; 0; 0; 0; 0; 1] [198; 255; 99; 218; 77; 214; 0; 238; 225; 223; 216; 178; 207; 68; 174; 195];
   mk_frame_kat 0x0146 [12; 149; 44; 55; 245; 227; 158; 207; 12; 86; 76] [104; 101; 108; 108; 111; 32; 119; 111; 114; 108; 100] [223; 211; 3; 132; 196; 85; 138; 23; 181; 41; 216; 46; 117; 62; 46; 129]
     [62; 119; 55; 2; 20; 118; 68; 126; 182; 225; 66; 138; 234; 197; 244; 231; 208; 232; 184; 217; 72; 83; 140; 190] 1 [0; 0; 0; 0; 0; 0; 0; 0; 0; 0; 0; 1] [91; 249; 41; 45; 174; 46; 18; 26; 134; 205; 221; 158; 88; 194; 211; 0];
   mk_frame_kat 0x0346 [22; 192; 50; 93; 40; 234; 73; 180; 78; 142; 29] [104; 101; 108; 108; 111; 32; 119; 111; 114; 108; 100] [21; 63; 178; 41; 170; 200; 51; 138; 150; 146; 144; 142; 19; 2; 43; 145]
     [127; 43; 98; 69; 54; 44; 92; 70; 92; 94; 15; 179; 54; 235; 39; 241; 112; 17; 248; 167; 159; 226; 167; 175] 1 [0; 0; 0; 0; 0; 0; 0; 0; 0; 0; 0; 1] [158; 207; 200; 246; 229; 234; 185; 116; 67; 122; 109; 17; 182; 231; 56; 86];
   mk_frame_kat 0x0214 [33; 246; 209; 7; 142; 77; 47; 149; 46; 155; 158] [104; 101; 108; 108; 111; 32; 119; 111; 114; 108; 100] [54; 187; 249; 16; 255; 231; 242; 247; 108; 65; 38; 45; 167; 68; 163; 210]
     [46; 122; 154; 148; 136; 170; 83; 198; 130; 116; 204; 126; 227; 126; 70; 241] 1 [0; 0; 0; 0; 0; 0; 0; 0; 0; 0; 0; 1] [225; 160; 14; 222; 83; 123; 234; 244; 252; 144; 201; 119; 17; 116; 249; 39];
   mk_frame_kat 0x0378 [58; 237; 167; 39; 159; 192; 170; 226; 34; 52; 151] [104; 101; 108; 108; 111; 32; 119; 111; 114; 108; 100] [128; 188; 133; 21; 129; 121; 103; 143; 90; 51; 93; 4; 218; 13; 131; 50]
     [215; 173; 30; 5; 50; 46; 70; 98; 14; 204; 252; 122; 214; 200; 51; 240; 119; 22; 228; 100; 31; 168; 176; 231; 52; 27; 20; 9; 103; 18; 215; 182] 1 [0; 0; 0; 0; 0; 0; 0; 0; 0; 0; 0; 1] [118; 96; 35; 191; 243; 126; 11; 128; 141; 225; 233; 89; 50; 38; 121; 231]].

(** t_cipher.c 471-658: suite, header, authentication fields, data key *)
Record header_kat := mk_header_kat { hk_alg : N; hk_header : list N; hk_auth : list N; hk_data_key : list N }.
Definition header_kats : list header_kat :=
  [mk_header_kat 0x0014 [1; 128; 0; 20; 251; 178; 173; 182; 201; 103; 225; 143; 226; 36; 155; 7; 218; 240; 114; 118; 0; 0; 0; 1; 0; 1; 120; 0; 0; 0; 0; 2; 0; 0; 0; 0; 12; 0; 0; 16; 0]
     [0; 0; 0; 0; 0; 0; 0; 0; 0; 0; 0; 0; 2; 63; 69; 96; 105; 245; 60; 220; 115; 50; 43; 30; 39; 108; 57; 37] [98; 150; 217; 82; 103; 16; 253; 199; 161; 183; 165; 205; 228; 224; 118; 76];
   mk_header_kat 0x0046 [1; 128; 0; 70; 6; 16; 220; 105; 104; 10; 82; 1; 223; 21; 77; 65; 198; 90; 24; 137; 0; 0; 0; 1; 0; 1; 120; 0; 0; 0; 0; 2; 0; 0; 0; 0; 12; 0; 0; 16; 0]
     [0; 0; 0; 0; 0; 0; 0; 0; 0; 0; 0; 0; 235; 24; 163; 97; 171; 37; 7; 251; 44; 18; 139; 95; 88; 143; 6; 237] [60; 92; 174; 197; 56; 207; 10; 6; 19; 1; 17; 14; 77; 102; 218; 255; 240; 42; 189; 85; 44; 188; 169; 165];
   mk_header_kat 0x0078 [1; 128; 0; 120; 85; 54; 190; 234; 227; 100; 55; 169; 177; 190; 46; 98; 27; 8; 30; 60; 0; 0; 0; 1; 0; 1; 120; 0; 0; 0; 0; 2; 0; 0; 0; 0; 12; 0; 0; 16; 0]
     [0; 0; 0; 0; 0; 0; 0; 0; 0; 0; 0; 0; 170; 127; 22; 201; 121; 136; 207; 52; 159; 109; 162; 65; 115; 210; 142; 102] [222; 87; 42; 177; 183; 223; 79; 151; 39; 188; 135; 123; 207; 128; 148; 229; 159; 20; 84; 141; 211; 75; 103; 194; 94; 11; 203; 173; 161; 48; 162; 232];
   mk_header_kat 0x0114 [1; 128; 1; 20; 23; 179; 169; 100; 52; 137; 125; 96; 205; 127; 242; 133; 65; 77; 192; 61; 0; 0; 0; 1; 0; 1; 120; 0; 0; 0; 0; 2; 0; 0; 0; 0; 12; 0; 0; 16; 0]
     [0; 0; 0; 0; 0; 0; 0; 0; 0; 0; 0; 0; 181; 78; 25; 130; 44; 9; 201; 130; 9; 199; 99; 12; 127; 76; 198; 247] [235; 112; 157; 240; 52; 138; 4; 9; 20; 51; 93; 158; 72; 117; 236; 170];
   mk_header_kat 0x0378 [1; 128; 3; 120; 132; 174; 103; 88; 122; 110; 231; 220; 183; 211; 57; 232; 77; 11; 194; 239; 0; 95; 0; 1; 0; 21; 97; 119; 115; 45; 99; 114; 121; 112; 116; 111; 45; 112; 117; 98; 108; 105; 99; 45; 107; 101; 121; 0; 68; 65; 53; 52; 116; 110; 85; 118; 57; 76; 66; 55; 74; 68; 84; 118; 71; 54; 47; 53; 76; 90; 54; 112; 101; 83; 106; 70; 119; 119; 121; 98; 104; 69; 111; 75; 111; 72; 48; 122; 97; 121; 72; 87; 100; 100; 119; 107; 54; 52; 98; 49; 118; 106; 103; 90; 113; 75; 56; 113; 89; 84; 121; 65; 68; 80; 65; 61; 61; 0; 1; 0; 1; 120; 0; 0; 0; 0; 2; 0; 0; 0; 0; 12; 0; 0; 16; 0]
     [0; 0; 0; 0; 0; 0; 0; 0; 0; 0; 0; 0; 181; 193; 42; 136; 178; 195; 247; 84; 143; 182; 169; 53; 103; 211; 217; 222] [227; 206; 206; 27; 83; 226; 79; 59; 204; 163; 196; 176; 29; 119; 45; 82; 81; 154; 159; 54; 163; 88; 11; 39; 61; 16; 221; 200; 164; 218; 47; 99];
   mk_header_kat 0x0478 [2; 4; 120; 77; 251; 209; 49; 77; 157; 85; 146; 91; 129; 114; 50; 197; 227; 109; 110; 62; 94; 35; 15; 1; 137; 48; 226; 194; 193; 242; 67; 246; 125; 193; 121; 0; 0; 0; 1; 0; 12; 80; 114; 111; 118; 105; 100; 101; 114; 78; 97; 109; 101; 0; 25; 75; 101; 121; 73; 100; 0; 0; 0; 128; 0; 0; 0; 12; 248; 230; 199; 55; 112; 59; 201; 103; 176; 248; 63; 123; 0; 48; 161; 59; 119; 252; 60; 206; 36; 45; 216; 45; 42; 30; 204; 181; 66; 237; 132; 218; 175; 118; 120; 129; 132; 254; 66; 231; 23; 246; 52; 211; 113; 202; 189; 60; 113; 239; 27; 246; 102; 255; 55; 98; 227; 157; 192; 115; 11; 229; 2; 0; 0; 16; 0; 23; 207; 8; 247; 51; 219; 81; 4; 159; 58; 92; 203; 94; 255; 174; 33; 141; 190; 155; 241; 58; 143; 99; 204; 177; 184; 30; 29; 81; 255; 47; 76]
     [11; 169; 9; 88; 251; 144; 139; 211; 61; 241; 156; 211; 140; 33; 150; 158] [250; 158; 190; 194; 19; 213; 195; 217; 14; 173; 130; 217; 20; 196; 65; 39; 105; 250; 86; 88; 186; 79; 254; 211; 146; 48; 232; 185; 47; 182; 230; 205]].

(** t_hkdf.c 575-636: hash, salt, input key, info, output *)
Record hkdf_kat := mk_hkdf_kat { hv_sha : sha_version; hv_salt : list N; hv_ikm : list N; hv_info : list N; hv_okm : list N }.
Definition hkdf_kats : list hkdf_kat :=
  [mk_hkdf_kat SHA256 [0; 1; 2; 3; 4; 5; 6; 7; 8; 9; 10; 11; 12] [11; 11; 11; 11; 11; 11; 11; 11; 11; 11; 11; 11; 11; 11; 11; 11; 11; 11; 11; 11; 11; 11]
     [240; 241; 242; 243; 244; 245; 246; 247; 248; 249] [60; 178; 95; 37; 250; 172; 213; 122; 144; 67; 79; 100; 208; 54; 47; 42; 45; 45; 10; 144; 207; 26; 90; 76; 93; 176; 45; 86; 236; 196; 197; 191; 52; 0; 114; 8; 213; 184; 135; 24; 88; 101];
   mk_hkdf_kat SHA256 [] [11; 11; 11; 11; 11; 11; 11; 11; 11; 11; 11; 11; 11; 11; 11; 11; 11; 11; 11; 11; 11; 11]
     [] [141; 164; 231; 117; 165; 99; 193; 143; 113; 95; 128; 42; 6; 60; 90; 49; 184; 161; 31; 92; 94; 225; 135; 158; 195; 69; 78; 95; 60; 115; 141; 45; 157; 32; 19; 149; 250; 164; 182; 26; 150; 200];
   mk_hkdf_kat SHA384 [0; 1; 2; 3; 4; 5; 6; 7; 8; 9; 10; 11; 12] [11; 11; 11; 11; 11; 11; 11; 11; 11; 11; 11; 11; 11; 11; 11; 11; 11; 11; 11; 11; 11; 11]
     [240; 241; 242; 243; 244; 245; 246; 247; 248; 249] [155; 80; 151; 168; 96; 56; 184; 5; 48; 144; 118; 164; 75; 58; 159; 56; 6; 62; 37; 181; 22; 220; 191; 54; 159; 57; 76; 250; 180; 54; 133; 247; 72; 182; 69; 119; 99; 228; 240; 32; 79; 197]].

(** raw_aes_keyring_tv_new, tests/lib/raw_aes_keyring_test_vectors.c 21-37: a keyring with the first [n] bytes of the wrapping key *)
Definition tv_name : list N := ascii_bytes "asdfhasiufhiasuhviawurhgiuawrhefiuawhf".
Definition tv_keyring (n : nat) : raw_aes := mk_raw_aes (ascii_bytes "static-random") tv_name (map N.of_nat (seq 0 n)).
(** build_test_edk_init, the same file 48-69 *)
Definition tv_edk (iv bytes : list N) : edk :=
  mk_edk (ascii_bytes "static-random") (tv_name ++ [0; 0; 0; 0x80] ++ [0; 0; 0; 0x0c] ++ iv) bytes.
(** The vectors of raw_aes_keyring_test_vectors.c 129-160 and of t_raw_aes_keyring_decrypt.c 247-354: length of the wrapping key, suite,
    data key, IV, encrypted data key and tag, encryption context *)
Record aes_kat := mk_aes_kat { ak_wrap : nat; ak_alg : N; ak_data_key : list N; ak_iv : list N; ak_bytes : list N; ak_ctx : enc_ctx }.
Definition aes_kats : list aes_kat :=
  [mk_aes_kat 32 0x0178 [221; 194; 246; 95; 150; 162; 218; 150; 134; 234; 214; 88; 254; 233; 192; 195; 182; 212; 177; 146; 242; 186; 80; 147; 33; 151; 98; 171; 125; 37; 159; 44] [190; 160; 251; 208; 14; 238; 13; 148; 217; 177; 179; 147]
     [84; 43; 240; 220; 53; 32; 7; 56; 228; 158; 52; 250; 166; 191; 17; 237; 69; 64; 151; 253; 184; 227; 54; 117; 92; 3; 187; 159; 164; 66; 158; 102; 68; 124; 57; 247; 127; 254; 188; 165; 152; 112; 233; 168; 201; 181; 127; 111]
     [];
   mk_aes_kat 24 0x0178 [250; 206; 160; 114; 16; 128; 128; 122; 157; 219; 31; 154; 141; 104; 238; 176; 134; 181; 69; 204; 77; 141; 197; 117; 122; 54; 193; 210; 120; 139; 1; 31] [117; 33; 159; 150; 119; 170; 200; 158; 216; 83; 143; 87]
     [112; 115; 71; 25; 145; 119; 59; 172; 100; 74; 32; 10; 129; 86; 140; 92; 105; 228; 98; 40; 188; 108; 108; 107; 214; 58; 60; 251; 240; 128; 199; 241; 184; 238; 200; 161; 92; 108; 194; 129; 58; 204; 210; 219; 82; 119; 85; 73]
     [([97; 97; 97; 97; 97; 97; 97; 97; 194; 128], [65; 65; 65; 65; 65; 65; 65; 65]); ([97; 97; 97; 97; 97; 97; 97; 97; 127], [66; 66; 66; 66; 66; 66; 66; 66])];
   mk_aes_kat 16 0x0114 [109; 63; 247; 233; 14; 228; 129; 9; 135; 143; 55; 217; 106; 33; 229; 248] [142; 43; 253; 37; 102; 90; 28; 13; 13; 74; 73; 20]
     [41; 9; 56; 137; 228; 78; 28; 220; 240; 77; 11; 161; 228; 82; 213; 119; 83; 248; 35; 122; 82; 217; 202; 168; 83; 110; 249; 203; 174; 34; 99; 174]
     [([99; 111; 114; 114; 101; 99; 116], [99; 111; 110; 116; 101; 120; 116])];
   mk_aes_kat 32 0x0378 [155; 1; 193; 170; 98; 37; 29; 15; 22; 160; 162; 21; 234; 228; 194; 55; 74; 140; 199; 159; 250; 58; 231; 162; 164; 168; 30; 131; 186; 56; 35; 22] [27; 72; 118; 180; 122; 16; 22; 25; 235; 63; 147; 29]
     [255; 175; 180; 130; 240; 15; 155; 78; 94; 14; 117; 234; 103; 187; 128; 198; 90; 55; 24; 53; 85; 98; 251; 156; 158; 144; 216; 174; 221; 57; 208; 103; 133; 14; 24; 91; 203; 146; 199; 187; 255; 136; 253; 232; 249; 51; 108; 116]
     [([97; 119; 115; 45; 99; 114; 121; 112; 116; 111; 45; 112; 117; 98; 108; 105; 99; 45; 107; 101; 121], [65; 103; 117; 65; 84; 116; 106; 74; 70; 122; 74; 110; 108; 112; 78; 88; 100; 121; 68; 71; 55; 101; 56; 98; 102; 76; 90; 89; 82; 120; 43; 118; 120; 100; 65; 109; 89; 122; 43; 122; 116; 86; 66; 89; 121; 70; 104; 115; 77; 112; 99; 104; 106; 122; 57; 101; 118; 51; 77; 100; 88; 81; 77; 68; 57; 81; 61; 61])];
   mk_aes_kat 32 0x0378 [175; 78; 170; 111; 62; 52; 250; 80; 72; 209; 72; 2; 51; 134; 197; 152; 44; 100; 227; 84; 196; 39; 227; 102; 57; 40; 148; 137; 245; 113; 104; 205] [83; 211; 6; 71; 238; 162; 77; 62; 205; 40; 22; 130]
     [20; 204; 251; 254; 129; 80; 30; 7; 230; 200; 52; 0; 149; 177; 23; 211; 14; 124; 185; 21; 199; 69; 148; 13; 52; 247; 222; 17; 27; 51; 92; 187; 199; 64; 197; 35; 236; 92; 62; 193; 160; 84; 122; 96; 171; 32; 133; 255]
     [([97; 119; 115; 45; 99; 114; 121; 112; 116; 111; 45; 112; 117; 98; 108; 105; 99; 45; 107; 101; 121], [65; 47; 102; 56; 85; 48; 73; 102; 80; 67; 53; 118; 115; 101; 81; 49; 51; 114; 72; 108; 107; 98; 80; 106; 75; 54; 99; 48; 106; 105; 107; 102; 118; 89; 55; 70; 43; 73; 50; 80; 90; 120; 86; 73; 57; 90; 72; 87; 51; 56; 108; 98; 120; 77; 85; 97; 98; 98; 80; 90; 100; 73; 103; 77; 79; 103; 61; 61]); ([97; 97; 97; 97; 97; 97; 97; 97], [65; 65; 65; 65; 65; 65; 65; 65]); ([98; 98; 98; 98; 98; 98; 98; 98], [66; 66; 66; 66; 66; 66; 66; 66])]].
(** The wrong EDKs of t_raw_aes_keyring_decrypt.c 22-108, in the order of edk_gens (191-200), and the good one *)
Definition good_iv : list N := [190; 160; 251; 208; 14; 238; 13; 148; 217; 177; 179; 147].
Definition good_bytes : list N := [84; 43; 240; 220; 53; 32; 7; 56; 228; 158; 52; 250; 166; 191; 17; 237; 69; 64; 151; 253; 184; 227; 54; 117; 92; 3; 187; 159; 164; 66; 158; 102; 68; 124; 57; 247; 127; 254; 188; 165; 152; 112; 233; 168; 201; 181; 127; 111].
Definition wrong_info (name tag iv : list N) : edk := mk_edk (ascii_bytes "static-random") (name ++ tag ++ iv ++ good_iv) good_bytes.
Definition wrong_edks : list edk :=
  [mk_edk [] [] [];
   mk_edk (ascii_bytes "foobar") (edk_provider_info (tv_edk good_iv good_bytes)) good_bytes;
   tv_edk good_iv (removelast good_bytes);
   mk_edk (ascii_bytes "static-random") (removelast (edk_provider_info (tv_edk good_iv good_bytes))) good_bytes;
   wrong_info (ascii_bytes "asdfhasiufhiasuhviawurhgiuawrhefiuOOPS") [0; 0; 0; 0x80] [0; 0; 0; 0x0c];
   wrong_info tv_name [0; 0; 0; 0x80] [0; 0; 0; 0x0d];
   wrong_info tv_name [0; 0; 0; 0x81] [0; 0; 0; 0x0c];
   tv_edk good_iv [222; 173; 190; 239; 53; 32; 7; 56; 228; 158; 52; 250; 166; 191; 17; 237; 69; 64; 151; 253; 184; 227; 54; 117; 92; 3; 187; 159; 164; 66; 158; 102; 68; 124; 57; 247; 127; 254; 188; 165; 152; 112; 233; 168; 201; 181; 127; 111];
   tv_edk (zeros 12) good_bytes].
