(** Headers of any length: what sign_header and verify_header of cipher.c do when the length does not fit an int. *)
From Verif Require Import Base BaseProofs AlgModel FrameModel CryptoModel SessionSpec CipherModel CipherSpec CipherProofs CipherTop.
From Coq Require Import ZArith ZifyBool ZifyNat ZifyN String.
Import List.
Open Scope list_scope.
Open Scope N_scope.

(** The bytes of the header that OpenSSL reads. *)
Definition seen (header : list N) : list N := firstn (N.to_nat (Nlen header mod 2 ^ 32)) header.
Lemma seen_len h : Nlen (seen h) = Nlen h mod 2 ^ 32.
Proof.
  unfold seen, Nlen. rewrite firstn_length. assert (N.of_nat (length h) mod 2 ^ 32 <= N.of_nat (length h)) by (apply N.mod_le; discriminate). lia.
Qed.
Lemma seen_short h : Nlen h < 2 ^ 32 -> seen h = h.
Proof. intro H. unfold seen. rewrite N.mod_small by exact H. apply firstn_all2. unfold Nlen. lia. Qed.

Lemma to_int_mod n : to_int (n mod 2 ^ 32) = to_int n.
Proof. unfold to_int, two32. rewrite N.mod_mod by discriminate. reflexivity. Qed.
Lemma seen_aad fault x h s : Nlen h mod 2 ^ 32 < 2 ^ 31 -> update_aad fault x h (Nlen h) s = update_aad fault x (seen h) (Nlen (seen h)) s.
Proof.
  intro H. pose proof (seen_len h) as L. assert (LE : Nlen h mod 2 ^ 32 <= Nlen h) by (apply N.mod_le; discriminate).
  unfold update_aad, mbind. destruct (call fault s) as [|[ok s']]; [reflexivity|]. destruct ok; [|reflexivity]. cbn [negb].
  rewrite L, to_int_mod, <- to_int_mod, (to_int_small (Nlen h mod 2 ^ 32) H). destruct (Z.ltb_spec (Z.of_N (Nlen h mod 2 ^ 32)) 0); [lia|].
  rewrite N2Z.id. destruct (N.ltb_spec (Nlen h) (Nlen h mod 2 ^ 32)); [lia|]. destruct (N.ltb_spec (Nlen h mod 2 ^ 32) (Nlen h mod 2 ^ 32)); [lia|].
  unfold seen. rewrite firstn_firstn, Nat.min_id. reflexivity.
Qed.
Lemma seen_sign g fault p key authtag h s : Nlen h mod 2 ^ 32 < 2 ^ 31 -> sign_header g fault p key authtag h s = sign_header g fault p key authtag (seen h) s.
Proof.
  intro H. assert (A : forall iv pre old, sign_header_with g fault p key iv h pre old s = sign_header_with g fault p key iv (seen h) pre old s).
  { intros iv pre old. unfold sign_header_with. apply mbind_r. intros [x|] s1; [|reflexivity]. apply mbind_l, seen_aad, H. }
  unfold sign_header. destruct (ap_version p =? HEADER_VERSION_1_0); [destruct (negb _); [reflexivity|apply A]|].
  destruct (ap_version p =? HEADER_VERSION_2_0); [destruct (negb _); [reflexivity|apply A]|]. reflexivity.
Qed.
Lemma seen_verify g fault p key authtag h s : Nlen h mod 2 ^ 32 < 2 ^ 31 -> verify_header g fault p key authtag h s = verify_header g fault p key authtag (seen h) s.
Proof.
  intro H. assert (A : forall iv tag, verify_header_with g fault p key iv tag h s = verify_header_with g fault p key iv tag (seen h) s).
  { intros iv tag. unfold verify_header_with. apply mbind_r. intros [x|] s1; [|reflexivity]. apply mbind_l, seen_aad, H. }
  unfold verify_header. destruct (ap_version p =? HEADER_VERSION_1_0); [destruct (negb _); [reflexivity|apply A]|].
  destruct (ap_version p =? HEADER_VERSION_2_0); [destruct (negb _); [reflexivity|apply A]|]. reflexivity.
Qed.

(** A negative length makes the call fail. *)
Lemma negative_aad_wp fault x h s : 2 ^ 31 <= Nlen h mod 2 ^ 32 -> wp (update_aad fault x h (Nlen h)) s (fun o s' => same s s' /\ o = None).
Proof.
  intro H. unfold update_aad. apply wp_bind, call_wp; cbn [negb]; intros; [apply wp_ret; auto|].
  assert (N : (to_int (Nlen h) <? 0)%Z = true).
  { unfold to_int, two32. pose proof (N.mod_lt (Nlen h) (2 ^ 32) ltac:(discriminate)). destruct (N.ltb_spec (Nlen h mod 2 ^ 32) (2 ^ 31)); [lia|].
    apply Z.ltb_lt. change (2 ^ 32)%Z with (Z.of_N (2 ^ 32)). lia. }
  rewrite N. apply wp_ret. auto.
Qed.
Lemma negative_sign_with g fault p key iv h pre old s : is_suite p -> length key = 32%nat -> Nlen iv = 12 -> 2 ^ 31 <= Nlen h mod 2 ^ 32 ->
  wp (sign_header_with g fault p key iv h pre old) s (fun r s' => same s s' /\ r = (Err E_CRYPTO_UNKNOWN, pre ++ old)).
Proof.
  intros S K V H. unfold sign_header_with.
  apply wp_bind. eapply wp_post; [apply gcm_cipher_init_wp; [assumption..|lia]|]. intros [x|] s1; [|intros [E1 F1]; apply wp_ret; auto].
  intros [E1 _]. apply wp_bind. eapply wp_post; [apply negative_aad_wp, H|]. intros o s2 [E2 ->].
  apply wp_bind. apply (ctx_free_up s); [unfold up, same in *; congruence|]. intros s3 E3 _. apply wp_ret. split; [unfold up, same in *; congruence|reflexivity].
Qed.
Lemma negative_verify_with g fault p key iv tag h s : is_suite p -> length key = 32%nat -> 12 <= Nlen iv -> 2 ^ 31 <= Nlen h mod 2 ^ 32 ->
  wp (verify_header_with g fault p key iv tag h) s (fun r s' => same s s' /\ r = Err E_CRYPTO_UNKNOWN).
Proof.
  intros S K V H. unfold verify_header_with.
  apply wp_bind. eapply wp_post; [apply gcm_cipher_init_wp; assumption|]. intros [x|] s1; [|intros [E1 F1]; apply wp_ret; auto].
  intros [E1 _]. apply wp_bind. eapply wp_post; [apply negative_aad_wp, H|]. intros o s2 [E2 ->].
  apply wp_bind. apply (ctx_free_up s); [unfold up, same in *; congruence|]. intros s3 E3 _. apply wp_ret. split; [unfold up, same in *; congruence|reflexivity].
Qed.

Lemma sign_any g fault p key authtag header s : gcm_wf g -> is_suite p -> length key = 32%nat ->
  let n := Nlen header mod 2 ^ 32 in let read := firstn (N.to_nat n) header in
  ends (sign_header g fault p key authtag header) s (fun r _ =>
    match fst r with
    | Ok _ => n < 2 ^ 31 /\ Nlen authtag = auth_len p /\ auth_field p (msg_iv 0) (g_tag g (content_key_of p key) (msg_iv 0) read []) (snd r)
    | Err e => (e = E_BAD_CIPHERTEXT /\ Nlen authtag <> auth_len p /\ snd r = authtag) \/
               (e = E_CRYPTO_UNKNOWN /\ Nlen authtag = auth_len p /\ (faulty fault \/ 2 ^ 31 <= n) /\ length (snd r) = length authtag)
    end /\ (~ faulty fault -> n < 2 ^ 31 -> Nlen authtag = auth_len p -> fst r = Ok tt)).
Proof.
  intros W S K n read. destruct (N.lt_ge_cases n (2 ^ 31)) as [H|H].
  - destruct (sign_field g fault p key authtag (seen header) s W S K) as (r & s' & RUN & LV & P & Q); [rewrite seen_len; exact H|].
    rewrite <- seen_sign in RUN by exact H. exists r, s'. split; [exact RUN|]. split; [exact LV|]. split; [|auto].
    destruct (fst r); [tauto|]. destruct P as [P|(-> & A & B & C)]; [auto|]. right. auto.
  - destruct (suite_facts p S) as (IV & TL & _ & _ & VV). apply wp_ends. unfold sign_header, auth_len. rewrite IV, TL.
    destruct VV as [V|V]; rewrite V; cbn [N.eqb HEADER_VERSION_1_0 HEADER_VERSION_2_0 Pos.eqb].
    + destruct (N.eqb_spec (Nlen authtag) (12 + 16)) as [L|L]; cbn [negb].
      * eapply wp_post; [apply negative_sign_with; [assumption..|reflexivity|exact H]|]. intros r s' [E ->]. cbn [fst snd]. split; [exact E|].
        split; [|intros _ C; lia]. right. split; [reflexivity|]. split; [exact L|]. split; [auto|].
        rewrite app_length, skipn_length. unfold Nlen in L. cbn [N.to_nat]. change (length (zeros 12)) with 12%nat. lia.
      * apply wp_ret. split; [reflexivity|]. cbn [fst snd]. split; [auto|intros _ C; lia].
    + destruct (N.eqb_spec (Nlen authtag) 16) as [L|L]; cbn [negb].
      * eapply wp_post; [apply negative_sign_with; [assumption..|reflexivity|exact H]|]. intros r s' [E ->]. cbn [fst snd]. split; [exact E|].
        split; [|intros _ C; lia]. right. auto.
      * apply wp_ret. split; [reflexivity|]. cbn [fst snd]. split; [auto|intros _ C; lia].
Qed.
Lemma verify_any g fault p key authtag header s : gcm_wf g -> is_suite p -> length key = 32%nat ->
  let n := Nlen header mod 2 ^ 32 in let read := firstn (N.to_nat n) header in
  let ok := exists iv, auth_field p iv (g_tag g (content_key_of p key) iv read []) authtag in
  ends (verify_header g fault p key authtag header) s (fun r _ =>
    match r with
    | Ok _ => n < 2 ^ 31 /\ ok
    | Err e => (e = E_CRYPTO_UNKNOWN /\ (faulty fault \/ 2 ^ 31 <= n)) \/ (e = E_BAD_CIPHERTEXT /\ (~ ok \/ ~ loud fault))
    end /\ (~ faulty fault -> n < 2 ^ 31 -> r = Ok tt \/ (r = Err E_BAD_CIPHERTEXT /\ ~ ok))).
Proof.
  intros W S K n read ok. destruct (N.lt_ge_cases n (2 ^ 31)) as [H|H].
  - destruct (verify_field g fault p key authtag (seen header) s W S K) as (r & s' & RUN & LV & P & Q); [rewrite seen_len; exact H|].
    rewrite <- seen_verify in RUN by exact H. exists r, s'. split; [exact RUN|]. split; [exact LV|]. split; [|auto].
    destruct r; [tauto|]. destruct P as [[-> P]|P]; [auto|]. right. exact P.
  - destruct (suite_facts p S) as (IV & TL & _ & _ & VV). apply wp_ends. unfold verify_header. rewrite IV, TL.
    assert (NOK : Nlen authtag <> auth_len p -> ~ ok).
    { intros N (iv & A). apply N. unfold auth_len. destruct A as [(V1 & -> & LI)|(V2 & -> & _)].
      - rewrite V1, Nlen_app, LI. rewrite (W _ _ _ _). reflexivity.
      - rewrite V2. apply W. }
    unfold auth_len in NOK. destruct VV as [V|V]; rewrite V in *; cbn [N.eqb HEADER_VERSION_1_0 HEADER_VERSION_2_0 Pos.eqb] in *.
    + destruct (N.eqb_spec (Nlen authtag) (12 + 16)) as [L|L]; cbn [negb].
      * eapply wp_post; [apply negative_verify_with; [assumption..|lia|exact H]|]. intros r s' [E ->]. split; [exact E|]. split; [auto|intros _ C; lia].
      * apply wp_ret. split; [reflexivity|]. split; [auto|intros _ C; lia].
    + destruct (N.eqb_spec (Nlen authtag) 16) as [L|L]; cbn [negb].
      * eapply wp_post; [apply negative_verify_with; [assumption..|reflexivity||(cbn; lia)|exact H]|]. intros r s' [E ->]. split; [exact E|]. split; [auto|intros _ C; lia].
      * apply wp_ret. split; [reflexivity|]. split; [auto|intros _ C; lia].
Qed.

(** A text of 2^32+1 bytes: OpenSSL encrypts one byte, and the assertion at the end fails. *)
Definition no_fault : nat -> option (list N) := fun _ => None.
Lemma never : ~ faulty no_fault.
Proof. intros [n H]. apply H. reflexivity. Qed.
Lemma okrun {A} (m : M (option A)) s (P : A -> Prop) : wp m s (okpost no_fault s P) -> exists x s', m s = inr (Some x, s') /\ P x /\ same s s'.
Proof.
  unfold wp, okpost. destruct (m s) as [|[o s']]; [contradiction|]. intros [S H]. destruct o as [x|]; [eauto|]. exfalso. apply never, H.
Qed.
Lemma bind_stop {A B} (m : M A) (f : A -> M B) s a s' w : m s = inr (a, s') -> f a s' = inl w -> mbind m f s = inl w.
Proof. intros H F. unfold mbind. rewrite H. exact F. Qed.
Lemma long_text g x k iv mem b tl s : x_key x = Some k -> x_iv x = Some iv -> Nlen tl = 2 ^ 32 -> 1 <= Nlen mem ->
  exists x' mem' s', update_text g no_fault x mem 0 (b :: tl) (Nlen (b :: tl)) s = inr (Some (x', mem', 1), s') /\
    x_key x' = Some k /\ x_iv x' = Some iv /\ x_enc x' = x_enc x.
Proof.
  intros K I L M. assert (LB : Nlen (b :: tl) = 2 ^ 32 + 1) by (unfold Nlen in *; cbn [length]; lia).
  unfold update_text, mbind, call, no_fault. cbn [negb]. rewrite LB, K, I. change (to_int (2 ^ 32 + 1)) with 1%Z. change (1 <? 0)%Z with false. cbn iota. change (Z.to_N 1) with 1.
  destruct (N.ltb_spec (2 ^ 32 + 1) 1) as [C|_]; [exfalso; lia|]. change (N.to_nat 1) with 1%nat. cbn [firstn xor_from].
  rewrite put_fits by exact M. eexists; eexists; eexists. split; [reflexivity|]. cbn [x_key x_iv x_enc]. auto.
Qed.
Lemma long_text_aborts g cipher tag b tl iv key s : gcm_wf g -> Nlen tl = 2 ^ 32 -> Nlen key = 16 \/ Nlen key = 24 \/ Nlen key = 32 ->
  Nlen iv = 12 -> 16 <= b_cap tag -> Nlen (b :: tl) <= b_cap cipher ->
  aes_gcm_encrypt g no_fault cipher tag (b :: tl) iv [] key s = inl Aborted.
Proof.
  intros W L K I T C. assert (LB : Nlen (b :: tl) = 2 ^ 32 + 1) by (unfold Nlen in *; cbn [length]; lia).
  assert (KS : alg_from_key_size (Nlen key) = Some (Nlen key)) by (destruct K as [K|[K|K]]; rewrite K; reflexivity).
  unfold aes_gcm_encrypt. rewrite KS, I. destruct (N.ltb_spec (b_cap tag) 16); [lia|]. destruct (N.ltb_spec (b_cap cipher) (Nlen (b :: tl))); [lia|]. cbn [N.eqb Pos.eqb negb orb].
  cbv beta iota zeta. eapply bind_stop; [reflexivity|]. cbv beta iota.
  destruct (okrun _ _ _ (init_all_wp no_fault (mk_ectx true None 12 None None [] [] None) (Nlen key) key iv true (mk_ssl (S (o_tick s)) (o_errs s) (S (o_live s))) (N.le_refl _) ltac:(lia))) as (x & s1 & R1 & <- & _).
  eapply bind_stop; [exact R1|]. cbv beta iota. eapply bind_stop; [reflexivity|]. cbv beta iota.
  match goal with |- context [update_text g no_fault ?y ?m _ _ _] => destruct (long_text g y _ _ m b tl s1 eq_refl eq_refl L) as (x2 & mem & s2 & R2 & K2 & I2 & E2); [unfold b_cap in *; lia|] end.
  cbn [x_enc] in E2. eapply bind_stop; [exact R2|]. cbv beta iota.
  destruct (okrun _ _ _ (final_enc_wp g no_fault x2 _ _ s2 E2 K2 I2)) as (q & s3 & R3 & <- & _).
  eapply bind_stop; [exact R3|]. cbv beta iota.
  match goal with |- context [get_tag no_fault ?y 16] => destruct (okrun _ _ _ (get_tag_wp no_fault y _ s3 eq_refl eq_refl (W _ _ _ _))) as (t & s4 & R4 & <- & _) end. eapply bind_stop; [exact R4|]. cbv beta iota.
  rewrite put_fits by (rewrite (W _ _ _ _); unfold b_cap in T; lia). destruct (N.eqb_spec (1 + 0) (Nlen (b :: tl))) as [Q|_]; [exfalso; lia|]. reflexivity.
Qed.
Lemma long_text_refuted : exists plain : list N, Nlen plain = 2 ^ 32 + 1 /\ forall g cipher tag iv key s, gcm_wf g -> Nlen key = 16 \/ Nlen key = 24 \/ Nlen key = 32 ->
  Nlen iv = 12 -> 16 <= b_cap tag -> Nlen plain <= b_cap cipher -> aes_gcm_encrypt g (fun _ => None) cipher tag plain iv [] key s = inl Aborted.
Proof.
  destruct long_tails as (t0 & _ & _ & L & _). exists (0 :: t0). split; [unfold Nlen in *; cbn [length]; lia|]. intros. apply long_text_aborts; assumption.
Qed.

(** Decrypting: the tag of the first byte alone is accepted, and the assertion fails likewise. *)
Lemma long_cipher_text g x k iv mem b tl s : x_key x = Some k -> x_iv x = Some iv -> x_enc x = false -> Nlen tl = 2 ^ 32 -> 1 <= Nlen mem ->
  exists mem', update_text g no_fault x mem 0 (b :: tl) (Nlen (b :: tl)) s =
    inr (Some (mk_ectx false (x_keylen x) (x_ivlen x) (Some k) (Some iv) (x_aad x) (x_text x ++ [b]) (x_tag x), mem', 1), mk_ssl (S (o_tick s)) (o_errs s) (o_live s)).
Proof.
  intros K I D L M. assert (LB : Nlen (b :: tl) = 2 ^ 32 + 1) by (unfold Nlen in *; cbn [length]; lia).
  unfold update_text, mbind, call, no_fault. cbn [negb]. rewrite LB, K, I, D. change (to_int (2 ^ 32 + 1)) with 1%Z. change (1 <? 0)%Z with false. cbn iota. change (Z.to_N 1) with 1.
  destruct (N.ltb_spec (2 ^ 32 + 1) 1) as [C|_]; [exfalso; lia|]. change (N.to_nat 1) with 1%nat. cbn [firstn xor_from].
  rewrite put_fits by exact M. eexists. reflexivity.
Qed.
Lemma long_cipher_aborts g plain b tl iv key s : gcm_wf g -> Nlen tl = 2 ^ 32 -> Nlen key = 16 \/ Nlen key = 24 \/ Nlen key = 32 ->
  Nlen iv = 12 -> Nlen (b :: tl) <= b_cap plain ->
  aes_gcm_decrypt g no_fault plain (b :: tl) (g_tag g key iv [] [b]) iv [] key s = inl Aborted.
Proof.
  intros W L K I C. assert (LB : Nlen (b :: tl) = 2 ^ 32 + 1) by (unfold Nlen in *; cbn [length]; lia).
  assert (KS : alg_from_key_size (Nlen key) = Some (Nlen key)) by (destruct K as [K|[K|K]]; rewrite K; reflexivity).
  pose proof (W key iv [] [b]) as TL.
  unfold aes_gcm_decrypt. rewrite KS, I, TL. destruct (N.ltb_spec (b_cap plain) (Nlen (b :: tl))); [lia|]. cbn [N.eqb Pos.eqb negb orb].
  cbv beta iota zeta. eapply bind_stop; [reflexivity|]. cbv beta iota.
  destruct (okrun _ _ _ (init_all_wp no_fault (mk_ectx true None 12 None None [] [] None) (Nlen key) key iv false (mk_ssl (S (o_tick s)) (o_errs s) (S (o_live s))) (N.le_refl _) ltac:(lia))) as (x & s1 & R1 & <- & S1).
  unfold same in S1. eapply bind_stop; [exact R1|]. cbv beta iota.
  match goal with |- context [set_tag no_fault ?y _ ?t] => destruct (okrun _ _ _ (set_tag_wp no_fault y t s1 eq_refl TL)) as (x & s2 & R2 & <- & S2) end. unfold same in S2.
  eapply bind_stop; [exact R2|]. cbv beta iota. cbn [x_keylen x_ivlen x_key x_iv x_aad x_text]. eapply bind_stop; [reflexivity|]. cbv beta iota.
  match goal with |- context [update_text g no_fault ?y ?m _ _ _] => destruct (long_cipher_text g y _ _ m b tl s2 eq_refl eq_refl eq_refl L) as (mem & R3); [unfold b_cap in *; lia|] end.
  cbn [x_keylen x_ivlen x_aad x_text x_tag app] in R3. eapply bind_stop; [exact R3|]. cbv beta iota. eapply bind_stop; [reflexivity|]. cbv beta iota.
  assert (KF : firstn (N.to_nat (Nlen key)) key = key) by (apply firstn_all2; unfold Nlen; lia).
  assert (IF : firstn 12 iv = iv) by (apply firstn_all2; unfold Nlen in I; lia).
  eapply bind_stop. { unfold final, mbind, call, no_fault. cbn [negb x_key x_iv x_enc x_tag x_aad x_text]. rewrite KF, IF, firstn_all. rewrite (proj2 (bytes_eqb_iff _ _) eq_refl). reflexivity. }
  cbv beta iota. eapply bind_stop. { unfold ctx_free. cbn [o_live]. rewrite S2, S1. cbn [o_live]. reflexivity. }
  destruct (N.eqb_spec (1 + 0) (Nlen (b :: tl))) as [Q|_]; [exfalso; lia|]. reflexivity.
Qed.
Lemma long_cipher_refuted : exists cipher : list N, Nlen cipher = 2 ^ 32 + 1 /\ forall g plain iv key s, gcm_wf g -> Nlen key = 16 \/ Nlen key = 24 \/ Nlen key = 32 ->
  Nlen iv = 12 -> Nlen cipher <= b_cap plain -> exists tag, Nlen tag = 16 /\ aes_gcm_decrypt g (fun _ => None) plain cipher tag iv [] key s = inl Aborted.
Proof.
  destruct long_tails as (t0 & _ & _ & L & _). exists (0 :: t0). split; [unfold Nlen in *; cbn [length]; lia|]. intros g plain iv key s W K I C.
  exists (g_tag g key iv [] [0]). split; [apply W|]. apply long_cipher_aborts; assumption.
Qed.
