(** SHA-256 (FIPS 180-4) and HMAC (RFC 2104), to run the HKDF model on the test cases of RFC 5869. *)
From Verif Require Import Base AlgModel CryptoModel HkdfModel HkdfSpec.
From Coq Require Import ZArith Lia.
Import List.
Open Scope list_scope.
Open Scope N_scope.

Definition sha_k : list N := [1116352408; 1899447441; 3049323471; 3921009573; 961987163; 1508970993; 2453635748; 2870763221; 3624381080; 310598401; 607225278; 1426881987; 1925078388; 2162078206; 2614888103; 3248222580; 3835390401; 4022224774; 264347078; 604807628; 770255983; 1249150122; 1555081692; 1996064986; 2554220882; 2821834349; 2952996808; 3210313671; 3336571891; 3584528711; 113926993; 338241895; 666307205; 773529912; 1294757372; 1396182291; 1695183700; 1986661051; 2177026350; 2456956037; 2730485921; 2820302411; 3259730800; 3345764771; 3516065817; 3600352804; 4094571909; 275423344; 430227734; 506948616; 659060556; 883997877; 958139571; 1322822218; 1537002063; 1747873779; 1955562222; 2024104815; 2227730452; 2361852424; 2428436474; 2756734187; 3204031479; 3329325298].
Definition sha_h0 : list N := [1779033703; 3144134277; 1013904242; 2773480762; 1359893119; 2600822924; 528734635; 1541459225].

Definition w32 (x : N) : N := x mod two32.
Definition rotr (n x : N) : N := N.lor (N.shiftr x n) (w32 (N.shiftl x (32 - n))).
Definition not32 (x : N) : N := N.lxor x 4294967295.

Fixpoint words (fuel : nat) (b : list N) : list N :=
  match fuel, b with
  | S f, b0 :: b1 :: b2 :: b3 :: r => (b0 * 16777216 + b1 * 65536 + b2 * 256 + b3) :: words f r
  | _, _ => []
  end.

(** The message schedule, newest word first. *)
Definition sched_next (rw : list N) : N :=
  let w2 := nth 1 rw 0 in let w7 := nth 6 rw 0 in let w15 := nth 14 rw 0 in let w16 := nth 15 rw 0 in
  let s0 := N.lxor (N.lxor (rotr 7 w15) (rotr 18 w15)) (N.shiftr w15 3) in
  let s1 := N.lxor (N.lxor (rotr 17 w2) (rotr 19 w2)) (N.shiftr w2 10) in
  w32 (s1 + w7 + s0 + w16).
Fixpoint schedule (n : nat) (rw : list N) : list N :=
  match n with O => rev rw | S n' => schedule n' (sched_next rw :: rw) end.

Definition sha_round (st : list N) (kw : N * N) : list N :=
  match st with
  | [a; b; c; d; e; f; g; h] =>
      let s1 := N.lxor (N.lxor (rotr 6 e) (rotr 11 e)) (rotr 25 e) in
      let ch := N.lxor (N.land e f) (N.land (not32 e) g) in
      let t1 := w32 (h + s1 + ch + fst kw + snd kw) in
      let s0 := N.lxor (N.lxor (rotr 2 a) (rotr 13 a)) (rotr 22 a) in
      let mj := N.lxor (N.lxor (N.land a b) (N.land a c)) (N.land b c) in
      [w32 (t1 + w32 (s0 + mj)); a; b; c; w32 (d + t1); e; f; g]
  | _ => st
  end.

Definition sha_block (st blk : list N) : list N :=
  let w := schedule 48 (rev (words 16 blk)) in
  map (fun p => w32 (fst p + snd p)) (combine st (fold_left sha_round (combine sha_k w) st)).
Fixpoint sha_blocks (n : nat) (st b : list N) : list N :=
  match n with O => st | S n' => sha_blocks n' (sha_block st (firstn 64 b)) (skipn 64 b) end.

Definition sha256 (msg : list N) : list N :=
  let l := length msg in
  let z := ((64 - (l + 9) mod 64) mod 64)%nat in
  let p := msg ++ [128] ++ repeat 0 z ++ be_bytes 8 (8 * N.of_nat l) in
  concat (map (be_bytes 4) (sha_blocks (length p / 64) sha_h0 p)).

Definition hmac256 (key msg : list N) : list N :=
  let k0 := if (64 <? length key)%nat then sha256 key else key in
  let k1 := k0 ++ repeat 0 (64 - length k0)%nat in
  sha256 (map (N.lxor 92) k1 ++ sha256 (map (N.lxor 54) k1 ++ msg)).

(** A toy HMAC for the other two hash functions. *)
Definition toy_hmac (sha : sha_version) (k d : list N) : list N :=
  match sha with
  | SHA256 => hmac256 k d
  | _ => map (fun i => (N.of_nat i + fold_left (fun a x => (a * 31 + x) mod 65521) (k ++ 256 :: d) 7) mod 256) (seq 0 (digest_len sha))
  end.
Definition test_mac : mac := mk_mac toy_hmac (fun _ => false).
(** The third OpenSSL call fails. *)
Definition faulty_mac : mac := mk_mac toy_hmac (Nat.eqb 3).

Lemma round_len : forall l st, length st = 8%nat -> length (fold_left sha_round l st) = 8%nat.
Proof.
  induction l as [|x l IH]; intros st L; cbn [fold_left]; [exact L|]. apply IH.
  do 9 (destruct st as [|? st]; try discriminate L). reflexivity.
Qed.
Lemma blocks_len : forall n st b, length st = 8%nat -> length (sha_blocks n st b) = 8%nat.
Proof.
  induction n as [|n IH]; intros st b L; cbn [sha_blocks]; [exact L|]. apply IH. unfold sha_block.
  rewrite map_length, combine_length, L, round_len; [reflexivity|exact L].
Qed.
Lemma sha256_len : forall msg, length (sha256 msg) = 32%nat.
Proof.
  intros msg. unfold sha256. cbv zeta.
  match goal with |- context [sha_blocks ?n ?s ?b] => pose proof (blocks_len n s b eq_refl) as L; set (l := sha_blocks n s b) in * end.
  clearbody l. do 9 (destruct l as [|? l]; try discriminate L). reflexivity.
Qed.
Lemma toy_hmac_sane : hmac_sane toy_hmac.
Proof.
  intros [] k d N; [contradiction| | |]; unfold toy_hmac.
  - unfold hmac256. cbv zeta. apply sha256_len.
  - now rewrite map_length, seq_length.
  - now rewrite map_length, seq_length.
Qed.
