(** C80: what cipher.c does with OpenSSL's AES-GCM, call by call.  Specification: CipherSpec.v (with body_aad and msg_iv of SessionSpec.v). *)
From Verif Require Import Base BaseProofs AlgModel FrameModel CryptoModel KeyringModel SessionSpec StreamSpec CipherModel CipherSpec CipherTop CipherLong.
From Coq Require Import ZArith String.
Import List ListNotations.
Open Scope string_scope.
Open Scope list_scope.
Open Scope N_scope.

(** A stand-in for AES-GCM, OpenSSL before the first call, and a run of which call [n] fails. *)
Definition toy : gcm :=
  mk_gcm (fun k iv n => (nth 0 k 0 + nth 11 iv 0 + 3 * n) mod 256)
         (fun k iv a c => be_bytes 16 (fold_left (fun h b => (h * 257 + b) mod 2 ^ 128) (k ++ iv ++ a ++ [256] ++ c) 1)).
Lemma toy_wf : gcm_wf toy.
Proof. intros k iv a c. cbn [g_tag toy]. rewrite Nlen_be_bytes. reflexivity. Qed.
Definition fresh : ssl := mk_ssl 0 [] 0.
Definition fails_at (n : nat) (codes : list N) : nat -> option (list N) := fun m => if Nat.eqb m n then Some codes else None.
Definition fine : nat -> option (list N) := fun _ => None.
Definition suite : alg_props := static_alg_props ALG_AES192_HKDF 1 "sha256" 192 12 16 0 0 0.
Definition suite2 : alg_props := static_alg_props ALG_AES256_COMMIT 2 "sha512" 256 12 16 0 256 256.
Definition room (n : N) : buf := mk_buf (repeat 170 (N.to_nat n)) 0.
Definition kb : list N := map N.of_nat (seq 1 32).
Definition mid16 : list N := map N.of_nat (seq 100 16).
Definition text10 : list N := [1; 2; 3; 4; 5; 6; 7; 8; 9; 10].

(** aws_cryptosdk_encrypt_body, for input of any length, whichever calls fail.  It never writes outside its buffer, never aborts and
    frees the context it makes.  If it succeeds the output buffer is the encryption of the input under the first bytes of the content
    key, the IV is made of the sequence number, and the tag covers message ID, kind and number of the frame and length.  If it fails
    there is no tag, and either nothing was done or the output buffer holds zeros only. *)
Theorem C80_seal_body : forall g fault p outp inp mid seqno key ty s,
  gcm_wf g -> is_suite p -> length key = 32%nat -> seqno < 2 ^ 32 -> Nlen inp < 2 ^ 64 -> Nlen mid < 2 ^ 31 -> b_len outp <= b_cap outp ->
  ends (encrypt_body g fault p outp inp mid seqno key (frame_type_int ty)) s (fun r _ =>
    match sl_rc r with
    | Ok _ => exists ct tag, sl_out r = mk_buf ct (Nlen ct) /\ sl_iv r = Some (msg_iv seqno) /\ sl_tag r = Some tag /\ seqno <> 0 /\ Nlen inp = b_cap outp /\
                gcm_sealed g (content_key_of p key) (msg_iv seqno) (body_aad mid ty seqno (Nlen inp)) inp ct tag
    | Err e => sl_tag r = None /\
        ((sl_out r = outp /\ sl_iv r = None /\ ((e = E_SHORT_BUFFER /\ Nlen inp <> b_cap outp) \/ (e = E_CRYPTO_UNKNOWN /\ Nlen inp = b_cap outp /\ seqno = 0))) \/
         (e = E_CRYPTO_UNKNOWN /\ Nlen inp = b_cap outp /\ seqno <> 0 /\ cleared outp (sl_out r) /\ (faulty fault \/ b_len outp <> 0)))
    end /\
    (~ faulty fault -> Nlen inp = b_cap outp -> seqno <> 0 -> b_len outp = 0 -> sl_rc r = Ok tt)).
Proof. exact seal_body. Qed.
Print Assumptions C80_seal_body.
Example C80_seal_body_ex :
  is_suite suite /\ Nlen (content_key_of suite kb) = 24 /\
  (exists r s', encrypt_body toy fine suite (room 10) text10 mid16 7 kb 1%Z fresh = inr (r, s') /\ sl_rc r = Ok tt /\
    b_mem (sl_out r) = [9; 9; 13; 21; 17; 17; 29; 21; 41; 41] /\ sl_iv r = Some [0; 0; 0; 0; 0; 0; 0; 0; 0; 0; 0; 7] /\ o_tick s' = 11%nat) /\
  forall n, (n < 11)%nat ->
    exists s', encrypt_body toy (fails_at n [1]) suite (room 10) text10 mid16 7 kb 1%Z fresh =
               inr (mk_sealed (Err E_CRYPTO_UNKNOWN) (mk_buf (repeat 0 10) 0) (Some [0; 0; 0; 0; 0; 0; 0; 0; 0; 0; 0; 7]) None, s') /\ o_live s' = O.
Proof.
  split; [reflexivity|]. split; [reflexivity|]. split; [eexists; eexists; vm_compute; repeat split|].
  intros n H. do 11 (destruct n as [|n]; [eexists; vm_compute; split; reflexivity|]). exfalso. apply Nat.lt_nge in H. apply H.
  do 11 apply le_n_S. apply Nat.le_0_l.
Qed.

(** aws_cryptosdk_decrypt_body: it puts text behind what the buffer holds only if the tag is that of this text, this frame and this
    key; otherwise the whole buffer is zero.  The error is BAD_CIPHERTEXT exactly for a wrong tag, as long as failing calls leave
    error codes. *)
Theorem C80_open_body : forall g fault p outp inp mid seqno iv key tag ty s,
  gcm_wf g -> is_suite p -> length key = 32%nat -> seqno < 2 ^ 32 -> b_cap outp < 2 ^ 64 -> Nlen mid < 2 ^ 31 -> b_len outp <= b_cap outp ->
  Nlen inp < 2 ^ 64 -> Nlen iv = 12 -> Nlen tag = 16 ->
  let ok := exists pt, gcm_sealed g (content_key_of p key) iv (body_aad mid ty seqno (Nlen inp)) pt inp tag in
  let fits := b_len outp + Nlen inp = b_cap outp in
  ends (decrypt_body g fault p outp inp mid seqno iv key tag (frame_type_int ty)) s (fun r _ =>
    match fst r with
    | Ok _ => fits /\ exists pt, snd r = mk_buf (firstn (N.to_nat (b_len outp)) (b_mem outp) ++ pt) (b_cap outp) /\
                gcm_sealed g (content_key_of p key) iv (body_aad mid ty seqno (Nlen inp)) pt inp tag
    | Err e => (e = E_SHORT_BUFFER /\ snd r = outp /\ ~ fits) \/
               (fits /\ cleared outp (snd r) /\
                ((e = E_CRYPTO_UNKNOWN /\ faulty fault) \/ (e = E_BAD_CIPHERTEXT /\ (~ ok \/ ~ loud fault))))
    end /\
    (~ faulty fault -> fits -> fst r = Ok tt \/ (fst r = Err E_BAD_CIPHERTEXT /\ ~ ok))).
Proof. exact open_body. Qed.
Print Assumptions C80_open_body.
Definition sealed10 : sealed :=
  match encrypt_body toy fine suite (room 10) text10 mid16 7 kb 1%Z fresh with inr (r, _) => r | inl _ => mk_sealed (Ok tt) (room 0) None None end.
Definition tag10 : list N := match sl_tag sealed10 with Some t => t | None => [] end.
Example C80_open_body_ex :
  (exists s', decrypt_body toy fine suite (mk_buf (5 :: 6 :: repeat 170 10) 2) (b_mem (sl_out sealed10)) mid16 7 (msg_iv 7) kb tag10 1%Z fresh =
              inr (Ok tt, mk_buf (5 :: 6 :: text10) 12, s') /\ o_live s' = O /\ o_tick s' = 11%nat) /\
  (forall n, (n < 11)%nat -> exists s',
     decrypt_body toy (fails_at n [1]) suite (room 10) (b_mem (sl_out sealed10)) mid16 7 (msg_iv 7) kb tag10 1%Z fresh =
     inr (Err E_CRYPTO_UNKNOWN, mk_buf (repeat 0 10) 0, s') /\ o_live s' = O) /\
  (forall mid seqno ty, In (mid, seqno, ty) [(kb, 7, 1%Z); (mid16, 8, 1%Z); (mid16, 7, 2%Z); (mid16, 7, 0%Z)] -> exists s',
     decrypt_body toy fine suite (room 10) (b_mem (sl_out sealed10)) mid seqno (msg_iv 7) kb tag10 ty fresh =
     inr (Err E_BAD_CIPHERTEXT, mk_buf (repeat 0 10) 0, s')).
Proof.
  split; [eexists; vm_compute; repeat split|]. split.
  - intros n H. do 11 (destruct n as [|n]; [eexists; vm_compute; split; reflexivity|]). exfalso. apply Nat.lt_nge in H. apply H.
    do 11 apply le_n_S. apply Nat.le_0_l.
  - intros mid seqno ty H. repeat (destruct H as [H|H]; [injection H as <- <- <-; eexists; vm_compute; reflexivity|]). contradiction.
Qed.

(** What encrypt_body makes decrypt_body opens, in pieces of at most INT_MAX bytes, whatever the length. *)
Theorem C80_body_round_trip : forall g f1 f2 p o1 o2 pt mid seqno key1 key2 ty s1 s2 s1' r,
  gcm_wf g -> is_suite p -> length key1 = 32%nat -> length key2 = 32%nat -> content_key_of p key1 = content_key_of p key2 ->
  seqno < 2 ^ 32 -> Nlen pt < 2 ^ 64 -> Nlen mid < 2 ^ 31 -> b_len o1 <= b_cap o1 ->
  b_len o2 + Nlen pt = b_cap o2 -> b_cap o2 < 2 ^ 64 -> ~ faulty f2 ->
  encrypt_body g f1 p o1 pt mid seqno key1 (frame_type_int ty) s1 = inr (r, s1') -> sl_rc r = Ok tt ->
  exists iv tag s2', sl_iv r = Some iv /\ sl_tag r = Some tag /\
    decrypt_body g f2 p o2 (b_mem (sl_out r)) mid seqno iv key2 tag (frame_type_int ty) s2 =
    inr (Ok tt, mk_buf (firstn (N.to_nat (b_len o2)) (b_mem o2) ++ pt) (b_cap o2), s2').
Proof. exact body_round_trip. Qed.
Print Assumptions C80_body_round_trip.
Example C80_body_round_trip_ex :
  exists r s', encrypt_body toy (fails_at 40 [1]) suite (room 10) text10 mid16 7 kb 2%Z fresh = inr (r, s') /\ sl_rc r = Ok tt /\
    content_key_of suite kb = content_key_of suite (firstn 24 kb ++ repeat 0 8) /\ ~ faulty fine.
Proof. eexists; eexists. split; [vm_compute; reflexivity|]. split; [reflexivity|]. split; [reflexivity|]. intros [n H]. apply H. reflexivity. Qed.

(** aws_cryptosdk_sign_header and aws_cryptosdk_verify_header.  Missing: headers of 2^31 bytes and more, for which the claim is false
    (below). *)
Theorem C80_sign_header_partial : forall g fault p key authtag header s, gcm_wf g -> is_suite p -> length key = 32%nat -> Nlen header < 2 ^ 31 ->
  ends (sign_header g fault p key authtag header) s (fun r _ =>
    match fst r with
    | Ok _ => Nlen authtag = auth_len p /\ auth_field p (msg_iv 0) (g_tag g (content_key_of p key) (msg_iv 0) header []) (snd r)
    | Err e => (e = E_BAD_CIPHERTEXT /\ Nlen authtag <> auth_len p /\ snd r = authtag) \/
               (e = E_CRYPTO_UNKNOWN /\ Nlen authtag = auth_len p /\ faulty fault /\ length (snd r) = length authtag)
    end /\ (~ faulty fault -> Nlen authtag = auth_len p -> fst r = Ok tt)).
Proof. exact sign_field. Qed.
Print Assumptions C80_sign_header_partial.
Theorem C80_verify_header_partial : forall g fault p key authtag header s, gcm_wf g -> is_suite p -> length key = 32%nat -> Nlen header < 2 ^ 31 ->
  let ok := exists iv, auth_field p iv (g_tag g (content_key_of p key) iv header []) authtag in
  ends (verify_header g fault p key authtag header) s (fun r _ =>
    match r with
    | Ok _ => ok
    | Err e => (e = E_CRYPTO_UNKNOWN /\ faulty fault) \/ (e = E_BAD_CIPHERTEXT /\ (~ ok \/ ~ loud fault))
    end /\ (~ faulty fault -> r = Ok tt \/ (r = Err E_BAD_CIPHERTEXT /\ ~ ok))).
Proof. exact verify_field. Qed.
Print Assumptions C80_verify_header_partial.
Theorem C80_header_round_trip : forall g f1 f2 p key1 key2 old header s1 s2 field s1',
  gcm_wf g -> is_suite p -> length key1 = 32%nat -> length key2 = 32%nat -> content_key_of p key1 = content_key_of p key2 -> Nlen header < 2 ^ 31 -> ~ faulty f2 ->
  sign_header g f1 p key1 old header s1 = inr (Ok tt, field, s1') ->
  exists s2', verify_header g f2 p key2 field header s2 = inr (Ok tt, s2').
Proof. exact header_round_trip. Qed.
Print Assumptions C80_header_round_trip.
Example C80_header_ex :
  is_suite suite2 /\ auth_len suite = 28 /\ auth_len suite2 = 16 /\
  (exists field s', sign_header toy fine suite kb (repeat 9 28) text10 fresh = inr (Ok tt, field, s') /\ firstn 12 field = repeat 0 12 /\
     (exists s2, verify_header toy fine suite kb field text10 fresh = inr (Ok tt, s2)) /\
     (exists s2, verify_header toy fine suite kb field (11 :: text10) fresh = inr (Err E_BAD_CIPHERTEXT, s2)) /\
     (forall n, In n [0; 1; 2; 3; 4; 5; 6]%nat -> exists s2, verify_header toy (fails_at n [1; 2]) suite kb field text10 fresh = inr (Err E_CRYPTO_UNKNOWN, s2) /\ o_live s2 = O)) /\
  (exists field s', sign_header toy fine suite2 kb (repeat 9 16) text10 fresh = inr (Ok tt, field, s') /\ Nlen field = 16 /\
     (exists s2, verify_header toy fine suite2 kb field text10 fresh = inr (Ok tt, s2)) /\
     (exists s2, verify_header toy fine suite2 (1 :: kb) field text10 fresh = inr (Err E_BAD_CIPHERTEXT, s2))).
Proof.
  split; [reflexivity|]. split; [reflexivity|]. split; [reflexivity|]. split.
  - eexists; eexists. split; [vm_compute; reflexivity|]. split; [reflexivity|]. split; [eexists; vm_compute; reflexivity|]. split; [eexists; vm_compute; reflexivity|].
    intros n H. cbn [In] in H. repeat (destruct H as [<-|H]; [eexists; split; [vm_compute; reflexivity|reflexivity]|]). contradiction.
  - eexists; eexists. split; [vm_compute; reflexivity|]. split; [reflexivity|]. split; eexists; vm_compute; reflexivity.
Qed.

(** Not so for longer ones: OpenSSL is given the low 32 bits of the length.  All headers of 2^32+1 bytes that begin with the same byte
    have the same tag, and each passes with it. *)
Theorem C80_long_header_refuted : exists h0 h1 : list N, h0 <> h1 /\ Nlen h0 = 2 ^ 32 + 1 /\ Nlen h1 = 2 ^ 32 + 1 /\
  forall g fault p key authtag s, sign_header g fault p key authtag h0 s = sign_header g fault p key authtag h1 s /\
                                  verify_header g fault p key authtag h0 s = verify_header g fault p key authtag h1 s.
Proof. exact (long_headers 1). Qed.
Print Assumptions C80_long_header_refuted.

(** In full, for headers of any length: OpenSSL is given the length modulo 2^32; if that is below 2^31, so many bytes of the header are
    authenticated and the rest is not looked at; otherwise the functions fail. *)
Theorem C80_sign_header_any_length : forall g fault p key authtag header s, gcm_wf g -> is_suite p -> length key = 32%nat ->
  let n := Nlen header mod 2 ^ 32 in let read := firstn (N.to_nat n) header in
  ends (sign_header g fault p key authtag header) s (fun r _ =>
    match fst r with
    | Ok _ => n < 2 ^ 31 /\ Nlen authtag = auth_len p /\ auth_field p (msg_iv 0) (g_tag g (content_key_of p key) (msg_iv 0) read []) (snd r)
    | Err e => (e = E_BAD_CIPHERTEXT /\ Nlen authtag <> auth_len p /\ snd r = authtag) \/
               (e = E_CRYPTO_UNKNOWN /\ Nlen authtag = auth_len p /\ (faulty fault \/ 2 ^ 31 <= n) /\ length (snd r) = length authtag)
    end /\ (~ faulty fault -> n < 2 ^ 31 -> Nlen authtag = auth_len p -> fst r = Ok tt)).
Proof. exact sign_any. Qed.
Print Assumptions C80_sign_header_any_length.
Theorem C80_verify_header_any_length : forall g fault p key authtag header s, gcm_wf g -> is_suite p -> length key = 32%nat ->
  let n := Nlen header mod 2 ^ 32 in let read := firstn (N.to_nat n) header in
  let ok := exists iv, auth_field p iv (g_tag g (content_key_of p key) iv read []) authtag in
  ends (verify_header g fault p key authtag header) s (fun r _ =>
    match r with
    | Ok _ => n < 2 ^ 31 /\ ok
    | Err e => (e = E_CRYPTO_UNKNOWN /\ (faulty fault \/ 2 ^ 31 <= n)) \/ (e = E_BAD_CIPHERTEXT /\ (~ ok \/ ~ loud fault))
    end /\ (~ faulty fault -> n < 2 ^ 31 -> r = Ok tt \/ (r = Err E_BAD_CIPHERTEXT /\ ~ ok))).
Proof. exact verify_any. Qed.
Print Assumptions C80_verify_header_any_length.
(** A header of 2^31 bytes cannot be signed, whatever OpenSSL does. *)
Example C80_any_length_ex : exists h, Nlen h = 2 ^ 31 /\ forall fault s, exists f s', sign_header toy fault suite kb (repeat 9 28) h s = inr (Err E_CRYPTO_UNKNOWN, f, s').
Proof.
  assert (G : forall n, N.of_nat n = 2 ^ 31 -> exists h : list N, Nlen h = 2 ^ 31) by (intros n H; exists (repeat 0 n); unfold Nlen; now rewrite repeat_length).
  destruct (G (N.to_nat (2 ^ 31)) (N2Nat.id _)) as [h L]. exists h. split; [exact L|]. intros fault s.
  destruct (C80_sign_header_any_length toy fault suite kb (repeat 9 28) h s toy_wf ltac:(reflexivity) ltac:(reflexivity)) as ([rc f] & s' & RUN & _ & P & _).
  rewrite L in P. change (2 ^ 31 mod 2 ^ 32) with (2 ^ 31) in P. exists f, s'. rewrite RUN. cbn [fst snd] in P. destruct rc as [u|e].
  - destruct P as [C _]. discriminate C.
  - destruct P as [(_ & C & _)|(-> & _)]; [exfalso; apply C; reflexivity|reflexivity].
Qed.

(** Nor does a frame type that is none of the three stop encrypt_body: it goes on without additional data. *)
Theorem C80_frame_type_refuted : exists ty : Z, (ty <> 0 /\ ty <> 1 /\ ty <> 2)%Z /\
  forall g p outp inp mid seqno key s, gcm_wf g -> is_suite p -> length key = 32%nat -> 0 < seqno < 2 ^ 32 -> Nlen inp < 2 ^ 64 -> b_len outp = 0 -> Nlen inp = b_cap outp ->
  ends (encrypt_body g (fun _ => None) p outp inp mid seqno key ty) s (fun r _ =>
    exists ct tag, r = mk_sealed (Ok tt) (mk_buf ct (Nlen ct)) (Some (msg_iv seqno)) (Some tag) /\ gcm_sealed g (content_key_of p key) (msg_iv seqno) [] inp ct tag).
Proof.
  exists 3%Z. assert (T : (3 <> 0 /\ 3 <> 1 /\ 3 <> 2)%Z) by (repeat split; discriminate). split; [exact T|].
  intros g p outp inp mid seqno key s W S K Q I L E. exact (unknown_frame_type g p outp inp mid seqno key 3 s W S K Q I L E T).
Qed.
Print Assumptions C80_frame_type_refuted.
Example C80_frame_type_ex :
  match encrypt_body toy fine suite (room 10) text10 mid16 7 kb 3%Z fresh, encrypt_body toy fine suite (room 10) text10 kb 7 kb (-5)%Z fresh with
  | inr (a, _), inr (b, _) => sl_rc a = Ok tt /\ sl_tag a = sl_tag b
  | _, _ => False
  end.
Proof. vm_compute. split; reflexivity. Qed.

(** aws_cryptosdk_aes_gcm_encrypt and aws_cryptosdk_aes_gcm_decrypt.  On failure of OpenSSL both buffers are zero and the error queue
    is empty. *)
Theorem C80_wrap : forall g fault cipher tag plain iv aad key s, gcm_wf g -> Nlen plain < 2 ^ 31 -> Nlen aad < 2 ^ 31 ->
  let args := (Nlen key = 16 \/ Nlen key = 24 \/ Nlen key = 32) /\ Nlen iv = 12 /\ 16 <= b_cap tag /\ Nlen plain <= b_cap cipher in
  ends (CipherModel.aes_gcm_encrypt g fault cipher tag plain iv aad key) s (fun r s' =>
    match fst (fst r) with
    | Ok _ => args /\ exists ct t, gcm_sealed g key iv aad plain ct t /\
        snd (fst r) = mk_buf (ct ++ skipn (length plain) (b_mem cipher)) (Nlen plain) /\ snd r = mk_buf (t ++ skipn 16 (b_mem tag)) 16
    | Err e => (e = E_INVALID_BUFFER_SIZE /\ ~ args /\ snd (fst r) = cipher /\ snd r = tag) \/
               (args /\ e = E_CRYPTO_UNKNOWN /\ cleared cipher (snd (fst r)) /\ cleared tag (snd r) /\ o_errs s' = [] /\ faulty fault)
    end /\ (~ faulty fault -> args -> fst (fst r) = Ok tt)).
Proof. exact wrap_data_key. Qed.
Print Assumptions C80_wrap.
Theorem C80_unwrap : forall g fault plain cipher tag iv aad key s, gcm_wf g -> Nlen cipher < 2 ^ 31 -> Nlen aad < 2 ^ 31 ->
  let args := (Nlen key = 16 \/ Nlen key = 24 \/ Nlen key = 32) /\ Nlen iv = 12 /\ Nlen tag = 16 /\ Nlen cipher <= b_cap plain in
  let ok := exists pt, gcm_sealed g key iv aad pt cipher tag in
  ends (CipherModel.aes_gcm_decrypt g fault plain cipher tag iv aad key) s (fun r s' =>
    match fst r with
    | Ok _ => args /\ exists pt, gcm_sealed g key iv aad pt cipher tag /\ snd r = mk_buf (pt ++ skipn (length cipher) (b_mem plain)) (Nlen cipher)
    | Err e => (e = E_INVALID_BUFFER_SIZE /\ ~ args /\ snd r = plain) \/
               (args /\ cleared plain (snd r) /\ o_errs s' = [] /\
                ((e = E_CRYPTO_UNKNOWN /\ faulty fault) \/ (e = E_BAD_CIPHERTEXT /\ (~ ok \/ ~ loud fault))))
    end /\ (~ faulty fault -> args -> fst r = Ok tt \/ (fst r = Err E_BAD_CIPHERTEXT /\ ~ ok))).
Proof. exact unwrap_data_key. Qed.
Print Assumptions C80_unwrap.
(** The bound on the text is needed: of a text of 2^32+1 bytes OpenSSL encrypts one byte, and aws_cryptosdk_aes_gcm_encrypt with good
    arguments and without any failing call ends in the assertion of its lengths (built with NDEBUG it would report success). *)
Theorem C80_long_text_refuted : exists plain : list N, Nlen plain = 2 ^ 32 + 1 /\
  forall g cipher tag iv key s, gcm_wf g -> Nlen key = 16 \/ Nlen key = 24 \/ Nlen key = 32 -> Nlen iv = 12 -> 16 <= b_cap tag -> Nlen plain <= b_cap cipher ->
  CipherModel.aes_gcm_encrypt g (fun _ => None) cipher tag plain iv [] key s = inl Aborted.
Proof. exact long_text_refuted. Qed.
Print Assumptions C80_long_text_refuted.
Example C80_long_text_ex : exists plain, CipherModel.aes_gcm_encrypt toy fine (mk_buf plain 0) (room 16) plain (repeat 4 12) [] (firstn 16 kb) fresh = inl Aborted.
Proof.
  destruct C80_long_text_refuted as (plain & _ & H). exists plain.
  apply H; [exact toy_wf|left; reflexivity|reflexivity|discriminate|apply N.le_refl].
Qed.
(** Of a ciphertext of 2^32+1 bytes one byte is decrypted: there is a tag that OpenSSL takes for good, and then the assertion fails. *)
Theorem C80_long_ciphertext_refuted : exists cipher : list N, Nlen cipher = 2 ^ 32 + 1 /\
  forall g plain iv key s, gcm_wf g -> Nlen key = 16 \/ Nlen key = 24 \/ Nlen key = 32 -> Nlen iv = 12 -> Nlen cipher <= b_cap plain ->
  exists tag, Nlen tag = 16 /\ CipherModel.aes_gcm_decrypt g (fun _ => None) plain cipher tag iv [] key s = inl Aborted.
Proof. exact long_cipher_refuted. Qed.
Print Assumptions C80_long_ciphertext_refuted.
Example C80_long_ciphertext_ex : exists cipher tag, CipherModel.aes_gcm_decrypt toy fine (mk_buf cipher 0) cipher tag (repeat 4 12) [] (firstn 16 kb) fresh = inl Aborted.
Proof.
  destruct C80_long_ciphertext_refuted as (cipher & _ & H).
  destruct (H toy (mk_buf cipher 0) (repeat 4 12) (firstn 16 kb) fresh) as (tag & _ & R); [exact toy_wf|left; reflexivity|reflexivity|apply N.le_refl|].
  exists cipher, tag. exact R.
Qed.
Example C80_wrap_ex :
  exists c t s', CipherModel.aes_gcm_encrypt toy fine (room 12) (room 16) text10 (repeat 4 12) mid16 (firstn 16 kb) fresh = inr (Ok tt, c, t, s') /\
    b_len c = 10 /\ skipn 10 (b_mem c) = [170; 170] /\ o_tick s' = 6%nat /\
    (exists s2, CipherModel.aes_gcm_decrypt toy fine (room 12) (firstn 10 (b_mem c)) (b_mem t) (repeat 4 12) mid16 (firstn 16 kb) fresh =
                inr (Ok tt, mk_buf (text10 ++ [170; 170]) 10, s2)) /\
    (exists s2, CipherModel.aes_gcm_decrypt toy fine (room 12) (firstn 10 (b_mem c)) (b_mem t) (repeat 4 12) [] (firstn 16 kb) fresh =
                inr (Err E_BAD_CIPHERTEXT, mk_buf (repeat 0 12) 0, s2)) /\
    (forall n, In n [0; 1; 2; 3; 4; 5]%nat -> exists s2,
       CipherModel.aes_gcm_decrypt toy (fails_at n [1; 2]) (room 12) (firstn 10 (b_mem c)) (b_mem t) (repeat 4 12) mid16 (firstn 16 kb) fresh =
       inr (Err E_CRYPTO_UNKNOWN, mk_buf (repeat 0 12) 0, s2) /\ o_live s2 = O /\ o_errs s2 = []).
Proof.
  eexists; eexists; eexists. split; [vm_compute; reflexivity|]. split; [reflexivity|]. split; [reflexivity|]. split; [reflexivity|].
  split; [eexists; vm_compute; reflexivity|]. split; [eexists; vm_compute; reflexivity|].
  intros n H. cbn [In] in H. repeat (destruct H as [<-|H]; [eexists; split; [vm_compute; reflexivity|split; reflexivity]|]). contradiction.
Qed.

(** aws_cryptosdk_genrandom: no bytes of a failed RAND_bytes are left in the buffer. *)
Theorem C80_genrandom : forall rand mem len, Nlen mem = len -> (forall n rc b, rand n = (rc, b) -> rc = 1%Z -> Nlen b = n) ->
  match genrandom rand mem len with
  | (Ok _, m) => Nlen m = len /\ (len <> 0 -> rand len = (1%Z, m))
  | (Err e, m) => (e = E_LIMIT_EXCEEDED /\ 2 ^ 31 <= len /\ m = mem) \/ (e = E_CRYPTO_UNKNOWN /\ fst (rand len) <> 1%Z /\ Nlen m = len /\ Forall (fun b => b = 0) m)
  end.
Proof. exact genrandom_spec. Qed.
Print Assumptions C80_genrandom.
Example C80_genrandom_ex :
  genrandom (fun n => (1%Z, repeat 5 (N.to_nat n))) [1; 2; 3] 3 = (Ok tt, [5; 5; 5]) /\
  genrandom (fun n => ((-1)%Z, repeat 5 2)) [1; 2; 3] 3 = (Err E_CRYPTO_UNKNOWN, [0; 0; 0]) /\
  genrandom (fun n => (0%Z, repeat 5 2)) [1; 2; 3] 3 = (Err E_CRYPTO_UNKNOWN, [0; 0; 0]).
Proof. repeat split. Qed.

(** The oracles that the other models use for AES-GCM exist for every key stream and tag function, and have the properties that the other
    theorems ask for. *)
Theorem C80_oracles : forall g cr0, gcm_wf g -> exists cr,
  crypto_for g cr /\ cr_hkdf cr = cr_hkdf cr0 /\ cr_upd_ok cr = cr_upd_ok cr0 /\ cr_verify cr = cr_verify cr0.
Proof. intros g cr0 _. exists (crypto_of g cr0). split; [exact (crypto_of_for g cr0)|]. repeat split. Qed.
Print Assumptions C80_oracles.
Theorem C80_oracle_facts : forall g cr, gcm_wf g -> crypto_for g cr ->
  (forall k iv a p c t, cr_enc cr k iv a p = Some (c, t) -> Nlen c = Nlen p /\ Nlen t = 16) /\
  (forall k iv a c t p, cr_dec cr k iv a c t = OpenOk p -> Nlen p = Nlen c) /\
  dec_inverts cr /\
  (gcm_bytes g -> forall k iv a p c t, bytes_ok p -> cr_enc cr k iv a p = Some (c, t) -> bytes_ok c /\ bytes_ok t).
Proof. exact crypto_for_sizes. Qed.
Print Assumptions C80_oracle_facts.

(** With those oracles the one-step functions of CryptoModel and KeyringModel give the results of the call sequences. *)
Theorem C80_refines_encrypt_body : forall g cr fault p outp inp mid seqno key ty s,
  gcm_wf g -> crypto_for g cr -> is_suite p -> length key = 32%nat -> seqno < 2 ^ 32 -> Nlen inp < 2 ^ 64 -> Nlen mid < 2 ^ 31 -> b_len outp = 0 ->
  ends (encrypt_body g fault p outp inp mid seqno key (frame_type_int ty)) s (fun r _ =>
    (sl_rc r = Err E_CRYPTO_UNKNOWN /\ faulty fault) \/
    match CryptoModel.encrypt_body cr p (b_cap outp) inp mid seqno key ty with
    | SealOk iv ct tag => r = mk_sealed (Ok tt) (mk_buf ct (Nlen ct)) (Some iv) (Some tag)
    | SealErr e => sl_rc r = Err e
    | SealAbort => False
    end).
Proof. exact refines_encrypt_body. Qed.
Print Assumptions C80_refines_encrypt_body.
Theorem C80_refines_decrypt_body : forall g cr fault p outp inp mid seqno iv key tag ty s,
  gcm_wf g -> crypto_for g cr -> is_suite p -> length key = 32%nat -> seqno < 2 ^ 32 -> b_cap outp < 2 ^ 64 -> Nlen mid < 2 ^ 31 -> b_len outp <= b_cap outp ->
  Nlen inp < 2 ^ 64 -> Nlen iv = 12 -> Nlen tag = 16 ->
  ends (decrypt_body g fault p outp inp mid seqno iv key tag (frame_type_int ty)) s (fun r _ =>
    (fst r = Err E_CRYPTO_UNKNOWN /\ faulty fault) \/ (fst r = Err E_BAD_CIPHERTEXT /\ ~ loud fault) \/
    match CryptoModel.decrypt_body cr p (b_cap outp - b_len outp) inp mid seqno iv key tag ty with
    | UnsealOk pt => r = (Ok tt, mk_buf (firstn (N.to_nat (b_len outp)) (b_mem outp) ++ pt) (b_cap outp))
    | UnsealErr e => fst r = Err e
    | UnsealAbort => False
    end).
Proof. exact refines_decrypt_body. Qed.
Print Assumptions C80_refines_decrypt_body.
Theorem C80_refines_sign_header : forall g cr fault p key authtag header s,
  gcm_wf g -> crypto_for g cr -> is_suite p -> length key = 32%nat -> Nlen header < 2 ^ 31 -> Nlen authtag = auth_len p ->
  ends (sign_header g fault p key authtag header) s (fun r _ =>
    (fst r = Err E_CRYPTO_UNKNOWN /\ faulty fault) \/
    exists iv tag, sign_header_tag cr p key header = Ok (iv, tag) /\ fst r = Ok tt /\ auth_field p iv tag (snd r)).
Proof. exact refines_sign_header. Qed.
Print Assumptions C80_refines_sign_header.
Theorem C80_refines_verify_header : forall g cr fault p key authtag header s,
  gcm_wf g -> crypto_for g cr -> is_suite p -> length key = 32%nat -> Nlen header < 2 ^ 31 ->
  ends (verify_header g fault p key authtag header) s (fun r _ =>
    (r = Err E_CRYPTO_UNKNOWN /\ faulty fault) \/ (r = Err E_BAD_CIPHERTEXT /\ ~ loud fault) \/ r = snd (CryptoModel.verify_header cr p key authtag header)).
Proof. exact refines_verify_header. Qed.
Print Assumptions C80_refines_verify_header.
Theorem C80_refines_wrap : forall g cr fault cipher tag plain iv aad key s,
  gcm_wf g -> crypto_for g cr -> Nlen plain < 2 ^ 31 -> Nlen aad < 2 ^ 31 -> 16 <= b_cap tag ->
  ends (CipherModel.aes_gcm_encrypt g fault cipher tag plain iv aad key) s (fun r _ =>
    (fst (fst r) = Err E_CRYPTO_UNKNOWN /\ faulty fault) \/
    match KeyringModel.aes_gcm_encrypt cr (b_cap cipher) plain iv aad key with
    | Ok (c, t) => fst (fst r) = Ok tt /\ firstn (N.to_nat (b_len (snd (fst r)))) (b_mem (snd (fst r))) = c /\ firstn 16 (b_mem (snd r)) = t
    | Err e => fst (fst r) = Err e
    end).
Proof. exact refines_wrap. Qed.
Print Assumptions C80_refines_wrap.
Theorem C80_refines_unwrap : forall g cr fault plain cipher tag iv aad key s,
  gcm_wf g -> crypto_for g cr -> Nlen cipher < 2 ^ 31 -> Nlen aad < 2 ^ 31 ->
  ends (CipherModel.aes_gcm_decrypt g fault plain cipher tag iv aad key) s (fun r _ =>
    (fst r = Err E_CRYPTO_UNKNOWN /\ faulty fault) \/ (fst r = Err E_BAD_CIPHERTEXT /\ ~ loud fault) \/
    match KeyringModel.aes_gcm_decrypt cr (b_cap plain) cipher tag iv aad key with
    | Ok pt => fst r = Ok tt /\ firstn (N.to_nat (b_len (snd r))) (b_mem (snd r)) = pt
    | Err e => fst r = Err e
    end).
Proof. exact refines_unwrap. Qed.
Print Assumptions C80_refines_unwrap.
Example C80_refines_ex : gcm_wf toy /\ gcm_bytes toy /\ exists cr, crypto_for toy cr.
Proof.
  split; [exact toy_wf|]. split.
  - split; [intros k iv n; apply N.mod_lt; discriminate|]. intros k iv a c. apply be_bytes_ok.
  - destruct (C80_oracles toy (mk_crypto (fun _ _ _ _ => None) (fun _ _ _ _ _ => OpenFail) (fun _ _ _ _ _ => None) (fun _ _ => false) (fun _ _ => false)) toy_wf) as (cr & H & _).
    exists cr. exact H.
Qed.
