(** The algorithms behind the oracles, as functions that compute: AES (FIPS 197), GCM (NIST SP 800-38D), SHA-384 and
    SHA-512 (FIPS 180-4), HMAC (RFC 2104).  SHA-256 is in HkdfExamples.  Nothing here models code of /repo: the library
    calls OpenSSL for all of this.  These functions exist to show that the hypotheses about the oracles are met by the
    algorithms that OpenSSL implements, and to run the model on the messages that come with the tests of /repo. *)
From Verif Require Import Base AlgModel CryptoModel HkdfModel HkdfSpec HkdfProofs HkdfExamples CipherModel CipherTop.
From Coq Require Import ZArith Lia.
Import List.
Open Scope list_scope.
Open Scope N_scope.

(** ** AES, FIPS 197.  The state is the list of its 16 bytes, column by column. *)
Definition aes_sbox : list N := [99; 124; 119; 123; 242; 107; 111; 197; 48; 1; 103; 43; 254; 215; 171; 118; 202; 130; 201; 125; 250; 89; 71; 240; 173; 212; 162; 175; 156; 164; 114; 192; 183; 253; 147; 38; 54; 63; 247; 204; 52; 165; 229; 241; 113; 216; 49; 21; 4; 199; 35; 195; 24; 150; 5; 154; 7; 18; 128; 226; 235; 39; 178; 117; 9; 131; 44; 26; 27; 110; 90; 160; 82; 59; 214; 179; 41; 227; 47; 132; 83; 209; 0; 237; 32; 252; 177; 91; 106; 203; 190; 57; 74; 76; 88; 207; 208; 239; 170; 251; 67; 77; 51; 133; 69; 249; 2; 127; 80; 60; 159; 168; 81; 163; 64; 143; 146; 157; 56; 245; 188; 182; 218; 33; 16; 255; 243; 210; 205; 12; 19; 236; 95; 151; 68; 23; 196; 167; 126; 61; 100; 93; 25; 115; 96; 129; 79; 220; 34; 42; 144; 136; 70; 238; 184; 20; 222; 94; 11; 219; 224; 50; 58; 10; 73; 6; 36; 92; 194; 211; 172; 98; 145; 149; 228; 121; 231; 200; 55; 109; 141; 213; 78; 169; 108; 86; 244; 234; 101; 122; 174; 8; 186; 120; 37; 46; 28; 166; 180; 198; 232; 221; 116; 31; 75; 189; 139; 138; 112; 62; 181; 102; 72; 3; 246; 14; 97; 53; 87; 185; 134; 193; 29; 158; 225; 248; 152; 17; 105; 217; 142; 148; 155; 30; 135; 233; 206; 85; 40; 223; 140; 161; 137; 13; 191; 230; 66; 104; 65; 153; 45; 15; 176; 84; 187; 22].
Definition sub_byte (b : N) : N := nth (N.to_nat b) aes_sbox 0.
Definition xor_bytes (a b : list N) : list N := map (fun p => N.lxor (fst p) (snd p)) (combine a b).
Definition xtime (b : N) : N := if b <? 128 then 2 * b else N.lxor (2 * b) 283.
Definition shift_rows (st : list N) : list N :=
  map (fun i => nth i st 0) [0; 5; 10; 15; 4; 9; 14; 3; 8; 13; 2; 7; 12; 1; 6; 11]%nat.
Fixpoint mix_columns (st : list N) : list N :=
  match st with
  | a :: b :: c :: d :: r =>
      let all := N.lxor (N.lxor a b) (N.lxor c d) in
      N.lxor (N.lxor a all) (xtime (N.lxor a b)) :: N.lxor (N.lxor b all) (xtime (N.lxor b c)) ::
      N.lxor (N.lxor c all) (xtime (N.lxor c d)) :: N.lxor (N.lxor d all) (xtime (N.lxor d a)) :: mix_columns r
  | _ => []
  end.

(** The key schedule: words of four bytes, newest first; [i] is the number of the next word, [nk] the number of words of
    the key. *)
Definition rot_word (w : list N) : list N := match w with a :: r => r ++ [a] | [] => [] end.
Fixpoint key_words (n : nat) (nk i : nat) (rcon : N) (rw : list (list N)) : list (list N) :=
  match n with
  | O => rev rw
  | S n' =>
      let prev := nth 0 rw [] in
      let old := nth (nk - 1) rw [] in
      let '(t, rcon') :=
        if (i mod nk =? 0)%nat then (xor_bytes (map sub_byte (rot_word prev)) [rcon; 0; 0; 0], xtime rcon)
        else if andb (6 <? nk)%nat (i mod nk =? 4)%nat then (map sub_byte prev, rcon)
        else (prev, rcon) in
      key_words n' nk (S i) rcon' (xor_bytes old t :: rw)
  end.
Fixpoint chunks {A} (n k : nat) (l : list A) : list (list A) :=
  match n with O => [] | S n' => firstn k l :: chunks n' k (skipn k l) end.
(** Round keys of 16 bytes. *)
Definition round_keys (key : list N) : list (list N) :=
  let nk := (length key / 4)%nat in
  chunks (nk + 7) 16 (concat (key_words (4 * (nk + 7) - nk) nk nk 1 (rev (chunks nk 4 key)))).

Fixpoint aes_rounds (rks : list (list N)) (st : list N) : list N :=
  match rks with
  | [] => st
  | [rk] => xor_bytes (shift_rows (map sub_byte st)) rk
  | rk :: r => aes_rounds r (xor_bytes (mix_columns (shift_rows (map sub_byte st))) rk)
  end.
Definition aes_with (rks : list (list N)) (blk : list N) : list N :=
  match rks with [] => blk | rk :: r => aes_rounds r (xor_bytes blk rk) end.
Definition aes (key blk : list N) : list N := aes_with (round_keys key) blk.

(** ** GCM, NIST SP 800-38D.  Blocks are numbers below 2^128, the first bit of a block is the highest. *)
Definition be_num (l : list N) : N := fold_left (fun a b => 256 * a + b) l 0.
Definition gcm_r : N := 225 * 2 ^ 120.
(** Section 6.3: multiplication; [bits] of [x] from the highest down. *)
Fixpoint gf_mul_bits (bits : nat) (x z v : N) : N :=
  match bits with
  | O => z
  | S b => gf_mul_bits b x (if N.testbit x (N.of_nat b) then N.lxor z v else z)
                           (if N.odd v then N.lxor (N.div2 v) gcm_r else N.div2 v)
  end.
Definition gf_mul (x y : N) : N := gf_mul_bits 128 x 0 y.
(** Section 6.4: GHASH of a string made of whole blocks. *)
Definition ghash (h : N) (data : list N) : N :=
  fold_left (fun y b => gf_mul (N.lxor y (be_num b)) h) (chunks (length data / 16) 16 data) 0.
Definition pad16 (l : list N) : list N := l ++ repeat 0 ((16 - length l mod 16) mod 16)%nat.
Definition len64 (l : list N) : list N := be_bytes 8 (8 * Nlen l).
Definition zero_block : list N := repeat 0 16%nat.
(** Section 7.1, step 2: the block before the first counter block. *)
Definition gcm_j0 (h : N) (iv : list N) : list N :=
  if Nlen iv =? 12 then iv ++ [0; 0; 0; 1] else be_bytes 16 (ghash h (pad16 iv ++ repeat 0 8%nat ++ len64 iv)).
(** Section 6.2: the last 32 bits count modulo 2^32. *)
Definition inc32 (blk : list N) (n : N) : list N := firstn 12 blk ++ be_bytes 4 ((be_num (skipn 12 blk) + n) mod two32).

(** Byte [pos] of the key stream. *)
Definition real_stream (key iv : list N) : N -> N :=
  let rks := round_keys key in
  let h := if Nlen iv =? 12 then 0 else be_num (aes_with rks zero_block) in
  let j0 := gcm_j0 h iv in
  fun pos => nth (N.to_nat (pos mod 16)) (aes_with rks (inc32 j0 (pos / 16 + 1))) 0 mod 256.
(** The tag of the ciphertext [c] with additional data [a]. *)
Definition real_tag (key iv a c : list N) : list N :=
  let rks := round_keys key in
  let h := be_num (aes_with rks zero_block) in
  be_bytes 16 (N.lxor (ghash h (pad16 a ++ pad16 c ++ len64 a ++ len64 c)) (be_num (aes_with rks (gcm_j0 h iv)))).
Definition real_gcm : gcm := mk_gcm real_stream real_tag.

(** ** SHA-384 and SHA-512, FIPS 180-4 *)
Definition sha5_k : list N := [4794697086780616226; 8158064640168781261; 13096744586834688815; 16840607885511220156; 4131703408338449720; 6480981068601479193; 10538285296894168987; 12329834152419229976; 15566598209576043074; 1334009975649890238; 2608012711638119052; 6128411473006802146; 8268148722764581231; 9286055187155687089; 11230858885718282805; 13951009754708518548; 16472876342353939154; 17275323862435702243; 1135362057144423861; 2597628984639134821; 3308224258029322869; 5365058923640841347; 6679025012923562964; 8573033837759648693; 10970295158949994411; 12119686244451234320; 12683024718118986047; 13788192230050041572; 14330467153632333762; 15395433587784984357; 489312712824947311; 1452737877330783856; 2861767655752347644; 3322285676063803686; 5560940570517711597; 5996557281743188959; 7280758554555802590; 8532644243296465576; 9350256976987008742; 10552545826968843579; 11727347734174303076; 12113106623233404929; 14000437183269869457; 14369950271660146224; 15101387698204529176; 15463397548674623760; 17586052441742319658; 1182934255886127544; 1847814050463011016; 2177327727835720531; 2830643537854262169; 3796741975233480872; 4115178125766777443; 5681478168544905931; 6601373596472566643; 7507060721942968483; 8399075790359081724; 8693463985226723168; 9568029438360202098; 10144078919501101548; 10430055236837252648; 11840083180663258601; 13761210420658862357; 14299343276471374635; 14566680578165727644; 15097957966210449927; 16922976911328602910; 17689382322260857208; 500013540394364858; 748580250866718886; 1242879168328830382; 1977374033974150939; 2944078676154940804; 3659926193048069267; 4368137639120453308; 4836135668995329356; 5532061633213252278; 6448918945643986474; 6902733635092675308; 7801388544844847127].
Definition sha5_h0 : list N := [7640891576956012808; 13503953896175478587; 4354685564936845355; 11912009170470909681; 5840696475078001361; 11170449401992604703; 2270897969802886507; 6620516959819538809].
Definition sha3_h0 : list N := [14680500436340154072; 7105036623409894663; 10473403895298186519; 1526699215303891257; 7436329637833083697; 10282925794625328401; 15784041429090275239; 5167115440072839076].

Definition w64 (x : N) : N := N.land x 18446744073709551615.
Definition rotr64 (n x : N) : N := N.lor (N.shiftr x n) (w64 (N.shiftl x (64 - n))).
Definition not64 (x : N) : N := N.lxor x 18446744073709551615.

(** The message schedule, newest word first. *)
Definition sched5_next (rw : list N) : N :=
  let w2 := nth 1 rw 0 in let w7 := nth 6 rw 0 in let w15 := nth 14 rw 0 in let w16 := nth 15 rw 0 in
  let s0 := N.lxor (N.lxor (rotr64 1 w15) (rotr64 8 w15)) (N.shiftr w15 7) in
  let s1 := N.lxor (N.lxor (rotr64 19 w2) (rotr64 61 w2)) (N.shiftr w2 6) in
  w64 (s1 + w7 + s0 + w16).
Fixpoint schedule5 (n : nat) (rw : list N) : list N :=
  match n with O => rev rw | S n' => schedule5 n' (sched5_next rw :: rw) end.

Definition sha5_round (st : list N) (kw : N * N) : list N :=
  match st with
  | [a; b; c; d; e; f; g; h] =>
      let s1 := N.lxor (N.lxor (rotr64 14 e) (rotr64 18 e)) (rotr64 41 e) in
      let ch := N.lxor (N.land e f) (N.land (not64 e) g) in
      let t1 := w64 (h + s1 + ch + fst kw + snd kw) in
      let s0 := N.lxor (N.lxor (rotr64 28 a) (rotr64 34 a)) (rotr64 39 a) in
      let mj := N.lxor (N.lxor (N.land a b) (N.land a c)) (N.land b c) in
      [w64 (t1 + w64 (s0 + mj)); a; b; c; w64 (d + t1); e; f; g]
  | _ => st
  end.
Definition sha5_block (st blk : list N) : list N :=
  let w := schedule5 64 (rev (map be_num (chunks 16 8 blk))) in
  map (fun p => w64 (fst p + snd p)) (combine st (fold_left sha5_round (combine sha5_k w) st)).
Definition sha5_pad (msg : list N) : list N :=
  let l := length msg in
  msg ++ [128] ++ repeat 0 ((128 - (l + 17) mod 128) mod 128)%nat ++ be_bytes 16 (8 * N.of_nat l).
Definition sha5 (h0 msg : list N) : list N :=
  let p := sha5_pad msg in
  concat (map (be_bytes 8) (fold_left sha5_block (chunks (length p / 128) 128 p) h0)).
Definition sha512 (msg : list N) : list N := sha5 sha5_h0 msg.
Definition sha384 (msg : list N) : list N := firstn 48 (sha5 sha3_h0 msg).

(** ** HMAC, RFC 2104, for a hash function with blocks of [b] bytes *)
Definition hmac_with (hash : list N -> list N) (b : nat) (key msg : list N) : list N :=
  let k0 := if (b <? length key)%nat then hash key else key in
  let k1 := k0 ++ repeat 0 (b - length k0)%nat in
  hash (map (N.lxor 92) k1 ++ hash (map (N.lxor 54) k1 ++ msg)).
Definition real_hmac (sha : sha_version) (key msg : list N) : list N :=
  match sha with
  | NOSHA => []
  | SHA256 => hmac_with sha256 64 key msg
  | SHA384 => hmac_with sha384 128 key msg
  | SHA512 => hmac_with sha512 128 key msg
  end.
Definition real_mac : mac := mk_mac real_hmac (fun _ => false).

(** ** The oracles of CryptoModel.  Verification of signatures is left to [verify]. *)
Definition real_cr (verify : sigctx -> list N -> bool) : crypto :=
  with_own_hkdf (crypto_of real_gcm (mk_crypto (fun _ _ _ _ => None) (fun _ _ _ _ _ => OpenFail) (fun _ _ _ _ _ => None) (fun _ _ => true) verify)) real_mac.
