(** Results about cipher.c in the form in which Prop_Cipher states them. *)
From Verif Require Import Base BaseProofs AlgModel FrameModel CryptoModel FrameProofs SessionModel WireSpec SessionSpec SessionBase KeyringModel StreamSpec StackSpec
  CipherModel CipherSpec CipherProofs.
From Coq Require Import ZArith ZifyBool ZifyNat ZifyN String.
Import List.
Open Scope list_scope.
Open Scope N_scope.

Lemma ends_wp {A} (m : M A) s (P Q : A -> ssl -> Prop) : wp m s (fun a s' => same s s' /\ P a s') -> (forall a s', P a s' -> Q a s') -> ends m s Q.
Proof. intros H I. apply wp_ends. eapply wp_post; [exact H|]. intros a s' [H1 H2]. split; [exact H1|]. apply I. exact H2. Qed.

(** ** Bodies *)
Lemma seal_body g fault p outp inp mid seqno key ty s :
  gcm_wf g -> is_suite p -> length key = 32%nat -> seqno < 2 ^ 32 -> Nlen inp < 2 ^ 64 -> Nlen mid < 2 ^ 31 -> b_len outp <= b_cap outp ->
  ends (encrypt_body g fault p outp inp mid seqno key (frame_type_int ty)) s (fun r _ =>
    match sl_rc r with
    | Ok _ => exists ct tag, sl_out r = mk_buf ct (Nlen ct) /\ sl_iv r = Some (msg_iv seqno) /\ sl_tag r = Some tag /\ seqno <> 0 /\ Nlen inp = b_cap outp /\
                gcm_sealed g (content_key_of p key) (msg_iv seqno) (body_aad mid ty seqno (Nlen inp)) inp ct tag
    | Err e => sl_tag r = None /\
        ((sl_out r = outp /\ sl_iv r = None /\ ((e = E_SHORT_BUFFER /\ Nlen inp <> b_cap outp) \/ (e = E_CRYPTO_UNKNOWN /\ Nlen inp = b_cap outp /\ seqno = 0))) \/
         (e = E_CRYPTO_UNKNOWN /\ Nlen inp = b_cap outp /\ seqno <> 0 /\ cleared outp (sl_out r) /\ (faulty fault \/ b_len outp <> 0)))
    end /\
    (~ faulty fault -> Nlen inp = b_cap outp -> seqno <> 0 -> b_len outp = 0 -> sl_rc r = Ok tt)).
Proof.
  intros W S K SQ SI SM SL. eapply ends_wp; [apply encrypt_body_wp; assumption|]. intros r s' P. split; [exact P|].
  intros F E NZ LZ. cbn beta in P. revert P. destruct (sl_rc r) as [[]|e]; [reflexivity|]. intros [_ [(_ & _ & [[_ ?]|(_ & _ & ?)])|(_ & _ & _ & _ & [?|?])]]; contradiction.
Qed.
Lemma open_body g fault p outp inp mid seqno iv key tag ty s :
  gcm_wf g -> is_suite p -> length key = 32%nat -> seqno < 2 ^ 32 -> b_cap outp < 2 ^ 64 -> Nlen mid < 2 ^ 31 -> b_len outp <= b_cap outp ->
  Nlen inp < 2 ^ 64 -> Nlen iv = 12 -> Nlen tag = 16 ->
  let ok := exists pt, gcm_sealed g (content_key_of p key) iv (body_aad mid ty seqno (Nlen inp)) pt inp tag in
  let fits := b_len outp + Nlen inp = b_cap outp in
  ends (decrypt_body g fault p outp inp mid seqno iv key tag (frame_type_int ty)) s (fun r _ =>
    match fst r with
    | Ok _ => fits /\ exists pt, snd r = mk_buf (firstn (N.to_nat (b_len outp)) (b_mem outp) ++ pt) (b_cap outp) /\
                gcm_sealed g (content_key_of p key) iv (body_aad mid ty seqno (Nlen inp)) pt inp tag
    | Err e => (e = E_SHORT_BUFFER /\ snd r = outp /\ ~ fits) \/
               (fits /\ cleared outp (snd r) /\
                ((e = E_CRYPTO_UNKNOWN /\ faulty fault) \/ (e = E_BAD_CIPHERTEXT /\ (~ ok \/ ~ loud fault))))
    end /\
    (~ faulty fault -> fits -> fst r = Ok tt \/ (fst r = Err E_BAD_CIPHERTEXT /\ ~ ok))).
Proof.
  intros W S K SQ SC SM SL SI VI VT ok fits.
  assert (OK : ok <-> tag = g_tag g (content_key_of p key) iv (body_aad mid ty seqno (Nlen inp)) inp).
  { split; [intros (pt & _ & ->); reflexivity|]. intro E. exists (xor_from (g_stream g (content_key_of p key) iv) 0 inp).
    split; [apply streamed_sym, streamed_xor|exact E]. }
  eapply ends_wp; [apply decrypt_body_wp; assumption|]. intros [rc b] s' [P Q]. cbn [fst snd] in *. split.
  - destruct rc as [[]|e]; [destruct P as (pt & -> & F & G); eauto|].
    destruct P as [P|(F & C & [[F1 ->]|[-> [N|N]]])]; [auto|right; split; [exact F|split; [exact C|]]..]; [auto|right; split; [reflexivity|left; intro X; apply N, OK, X]|right; auto].
  - intros NF F. destruct rc as [[]|e]; [auto|]. right.
    destruct P as [(_ & _ & NN)|(_ & _ & [[F1 _]|[-> [N|N]]])]; [contradiction|contradiction|split; [reflexivity|intro X; apply N, OK, X]|].
    exfalso. apply N. intros n es E. exfalso. apply NF. exists n. congruence.
Qed.

Lemma gcm_sealed_inj g k iv a p1 p2 c t1 t2 : gcm_sealed g k iv a p1 c t1 -> gcm_sealed g k iv a p2 c t2 -> p1 = p2.
Proof. intros [S1 _] [S2 _]. apply streamed_sym, streamed_is in S1. apply streamed_sym, streamed_is in S2. congruence. Qed.
Lemma gcm_sealed_len g k iv a p c t : gcm_sealed g k iv a p c t -> length c = length p.
Proof. intros [[L _] _]. exact L. Qed.

Lemma body_round_trip g f1 f2 p o1 o2 pt mid seqno key1 key2 ty s1 s2 s1' r :
  gcm_wf g -> is_suite p -> length key1 = 32%nat -> length key2 = 32%nat -> content_key_of p key1 = content_key_of p key2 ->
  seqno < 2 ^ 32 -> Nlen pt < 2 ^ 64 -> Nlen mid < 2 ^ 31 -> b_len o1 <= b_cap o1 ->
  b_len o2 + Nlen pt = b_cap o2 -> b_cap o2 < 2 ^ 64 -> ~ faulty f2 ->
  encrypt_body g f1 p o1 pt mid seqno key1 (frame_type_int ty) s1 = inr (r, s1') -> sl_rc r = Ok tt ->
  exists iv tag s2', sl_iv r = Some iv /\ sl_tag r = Some tag /\
    decrypt_body g f2 p o2 (b_mem (sl_out r)) mid seqno iv key2 tag (frame_type_int ty) s2 =
    inr (Ok tt, mk_buf (firstn (N.to_nat (b_len o2)) (b_mem o2) ++ pt) (b_cap o2), s2').
Proof.
  intros W S K1 K2 KE SQ SI SM SL FT SC NF RUN OK.
  destruct (seal_body g f1 p o1 pt mid seqno key1 ty s1) as (r0 & s0 & RUN0 & _ & P & _); try assumption.
  rewrite RUN in RUN0. injection RUN0 as <- <-. rewrite OK in P. destruct P as (ct & tag & E1 & E2 & E3 & NZ & EC & G).
  exists (msg_iv seqno), tag. rewrite E1. cbn [b_mem].
  pose proof (gcm_sealed_len _ _ _ _ _ _ _ G) as L.
  assert (LN : Nlen ct = Nlen pt) by (unfold Nlen; rewrite L; reflexivity).
  assert (TL : Nlen tag = 16) by (destruct G as [_ ->]; apply W).
  rewrite KE in G. destruct (open_body g f2 p o2 ct mid seqno (msg_iv seqno) key2 tag ty s2) as ([rc b] & s2' & RUN2 & _ & P & Q); try assumption; [lia|lia|apply Nlen_msg_iv|].
  cbn [fst snd] in *. rewrite LN in *.
  assert (R : rc = Ok tt). { destruct Q as [Q|[_ Q]]; [exact NF|exact FT|exact Q|]. exfalso. apply Q. eexists. exact G. }
  subst rc. destruct P as (_ & pt' & -> & G'). rewrite (gcm_sealed_inj _ _ _ _ _ _ _ _ _ G' G) in RUN2. eauto.
Qed.

(** ** Headers *)
Lemma sign_field g fault p key authtag header s : gcm_wf g -> is_suite p -> length key = 32%nat -> Nlen header < 2 ^ 31 ->
  ends (sign_header g fault p key authtag header) s (fun r _ =>
    match fst r with
    | Ok _ => Nlen authtag = auth_len p /\ auth_field p (msg_iv 0) (g_tag g (content_key_of p key) (msg_iv 0) header []) (snd r)
    | Err e => (e = E_BAD_CIPHERTEXT /\ Nlen authtag <> auth_len p /\ snd r = authtag) \/
               (e = E_CRYPTO_UNKNOWN /\ Nlen authtag = auth_len p /\ faulty fault /\ length (snd r) = length authtag)
    end /\ (~ faulty fault -> Nlen authtag = auth_len p -> fst r = Ok tt)).
Proof.
  intros W S K H. eapply ends_wp; [apply sign_header_wp; assumption|]. intros [rc t] s' P. cbn [fst snd] in *. split; [exact P|].
  intros NF E. destruct rc as [[]|e]; [reflexivity|]. destruct P as [(_ & ? & _)|(_ & _ & ? & _)]; contradiction.
Qed.
Lemma verify_field g fault p key authtag header s : gcm_wf g -> is_suite p -> length key = 32%nat -> Nlen header < 2 ^ 31 ->
  let ok := exists iv, auth_field p iv (g_tag g (content_key_of p key) iv header []) authtag in
  ends (verify_header g fault p key authtag header) s (fun r _ =>
    match r with
    | Ok _ => ok
    | Err e => (e = E_CRYPTO_UNKNOWN /\ faulty fault) \/ (e = E_BAD_CIPHERTEXT /\ (~ ok \/ ~ loud fault))
    end /\ (~ faulty fault -> r = Ok tt \/ (r = Err E_BAD_CIPHERTEXT /\ ~ ok))).
Proof.
  intros W S K H ok. eapply ends_wp; [apply verify_header_wp; assumption|]. intros r s' [P Q]. split; [exact P|].
  intros NF. destruct r as [[]|e]; [auto|]. right. destruct P as [[_ F]|[-> [N|N]]]; [contradiction|auto|].
  exfalso. apply N. intros n es E. exfalso. apply NF. exists n. congruence.
Qed.
Lemma header_round_trip g f1 f2 p key1 key2 old header s1 s2 field s1' :
  gcm_wf g -> is_suite p -> length key1 = 32%nat -> length key2 = 32%nat -> content_key_of p key1 = content_key_of p key2 -> Nlen header < 2 ^ 31 -> ~ faulty f2 ->
  sign_header g f1 p key1 old header s1 = inr (Ok tt, field, s1') ->
  exists s2', verify_header g f2 p key2 field header s2 = inr (Ok tt, s2').
Proof.
  intros W S K1 K2 KE H NF RUN. destruct (sign_field g f1 p key1 old header s1 W S K1 H) as (r0 & s0 & RUN0 & _ & P & _).
  rewrite RUN in RUN0. injection RUN0 as <- <-. cbn [fst snd] in P. destruct P as [_ P].
  destruct (verify_field g f2 p key2 field header s2 W S K2 H) as (r & s2' & RUN2 & _ & _ & Q). exists s2'. rewrite RUN2.
  destruct (Q NF) as [->|[_ N]]; [reflexivity|]. exfalso. apply N. exists (msg_iv 0). rewrite <- KE. exact P.
Qed.

(** ** Data keys *)
Lemma wrap_data_key g fault cipher tag plain iv aad key s : gcm_wf g -> Nlen plain < 2 ^ 31 -> Nlen aad < 2 ^ 31 ->
  let args := (Nlen key = 16 \/ Nlen key = 24 \/ Nlen key = 32) /\ Nlen iv = 12 /\ 16 <= b_cap tag /\ Nlen plain <= b_cap cipher in
  ends (aes_gcm_encrypt g fault cipher tag plain iv aad key) s (fun r s' =>
    match fst (fst r) with
    | Ok _ => args /\ exists ct t, gcm_sealed g key iv aad plain ct t /\
        snd (fst r) = mk_buf (ct ++ skipn (length plain) (b_mem cipher)) (Nlen plain) /\ snd r = mk_buf (t ++ skipn 16 (b_mem tag)) 16
    | Err e => (e = E_INVALID_BUFFER_SIZE /\ ~ args /\ snd (fst r) = cipher /\ snd r = tag) \/
               (args /\ e = E_CRYPTO_UNKNOWN /\ cleared cipher (snd (fst r)) /\ cleared tag (snd r) /\ o_errs s' = [] /\ faulty fault)
    end /\ (~ faulty fault -> args -> fst (fst r) = Ok tt)).
Proof.
  intros W SP SA args. eapply ends_wp; [apply aes_gcm_encrypt_wp; assumption|]. intros r s' P. split; [exact P|].
  intros NF A. cbn beta in P. revert P. destruct (fst (fst r)) as [[]|e]; [reflexivity|]. intros [(_ & N & _)|(_ & _ & _ & _ & _ & F)]; contradiction.
Qed.
Lemma unwrap_data_key g fault plain cipher tag iv aad key s : gcm_wf g -> Nlen cipher < 2 ^ 31 -> Nlen aad < 2 ^ 31 ->
  let args := (Nlen key = 16 \/ Nlen key = 24 \/ Nlen key = 32) /\ Nlen iv = 12 /\ Nlen tag = 16 /\ Nlen cipher <= b_cap plain in
  let ok := exists pt, gcm_sealed g key iv aad pt cipher tag in
  ends (aes_gcm_decrypt g fault plain cipher tag iv aad key) s (fun r s' =>
    match fst r with
    | Ok _ => args /\ exists pt, gcm_sealed g key iv aad pt cipher tag /\ snd r = mk_buf (pt ++ skipn (length cipher) (b_mem plain)) (Nlen cipher)
    | Err e => (e = E_INVALID_BUFFER_SIZE /\ ~ args /\ snd r = plain) \/
               (args /\ cleared plain (snd r) /\ o_errs s' = [] /\
                ((e = E_CRYPTO_UNKNOWN /\ faulty fault) \/ (e = E_BAD_CIPHERTEXT /\ (~ ok \/ ~ loud fault))))
    end /\ (~ faulty fault -> args -> fst r = Ok tt \/ (fst r = Err E_BAD_CIPHERTEXT /\ ~ ok))).
Proof.
  intros W SP SA args ok.
  assert (OK : ok <-> tag = g_tag g key iv aad cipher).
  { split; [intros (pt & _ & ->); reflexivity|]. intro E. exists (xor_from (g_stream g key iv) 0 cipher). split; [apply streamed_sym, streamed_xor|exact E]. }
  eapply ends_wp; [apply aes_gcm_decrypt_wp; assumption|]. intros [rc b] s' [P Q]. cbn [fst snd] in *. split.
  - destruct rc as [[]|e]; [exact P|].
    destruct P as [P|(A & C & E & [[F1 ->]|[-> [N|N]]])]; [auto|right; split; [exact A|split; [exact C|split; [exact E|]]]..]; [auto|right; split; [reflexivity|left; intro X; apply N, OK, X]|right; auto].
  - intros NF A. destruct rc as [[]|e]; [auto|]. right.
    destruct P as [(_ & N & _)|(_ & _ & _ & [[F _]|[-> [N|N]]])]; [contradiction|contradiction|split; [reflexivity|intro X; apply N, OK, X]|].
    exfalso. apply N. intros n es E. exfalso. apply NF. exists n. congruence.
Qed.

(** ** The oracles of CryptoModel *)
Definition crypto_of (g : gcm) (cr0 : crypto) : crypto :=
  mk_crypto (fun k iv a p => let c := xor_from (g_stream g k iv) 0 p in Some (c, g_tag g k iv a c))
            (fun k iv a c t => if bytes_eqb t (g_tag g k iv a c) then OpenOk (xor_from (g_stream g k iv) 0 c) else OpenBadTag)
            (cr_hkdf cr0) (cr_upd_ok cr0) (cr_verify cr0).
Lemma crypto_of_for g cr0 : crypto_for g (crypto_of g cr0).
Proof.
  split; [|split].
  - intros k iv a p c t. cbn. split; [intro H; injection H as <- <-; split; [apply streamed_xor|reflexivity]|].
    intros [H1 ->]. apply streamed_is in H1. subst c. reflexivity.
  - intros k iv a c t p. cbn. destruct (bytes_eqb t (g_tag g k iv a c)) eqn:B; [apply bytes_eqb_spec in B; subst t|apply bytes_eqb_false in B].
    + split; [intro H; injection H as <-; split; [apply streamed_sym, streamed_xor|reflexivity]|].
      intros [H1 _]. apply streamed_sym, streamed_is in H1. subst p. reflexivity.
    + split; [discriminate|]. intros [_ H]. contradiction.
  - intros k iv a c t. cbn. destruct (bytes_eqb t (g_tag g k iv a c)); discriminate.
Qed.
Lemma crypto_for_sizes g cr : gcm_wf g -> crypto_for g cr ->
  (forall k iv a p c t, cr_enc cr k iv a p = Some (c, t) -> Nlen c = Nlen p /\ Nlen t = 16) /\
  (forall k iv a c t p, cr_dec cr k iv a c t = OpenOk p -> Nlen p = Nlen c) /\
  dec_inverts cr /\
  (gcm_bytes g -> forall k iv a p c t, bytes_ok p -> cr_enc cr k iv a p = Some (c, t) -> bytes_ok c /\ bytes_ok t).
Proof.
  intros W (HE & HD & _). split; [|split; [|split]].
  - intros k iv a p c t H. apply HE in H. split; [unfold Nlen; rewrite (gcm_sealed_len _ _ _ _ _ _ _ H); reflexivity|]. destruct H as [_ ->]. apply W.
  - intros k iv a c t p H. apply HD in H. unfold Nlen. rewrite (gcm_sealed_len _ _ _ _ _ _ _ H). reflexivity.
  - intros k iv a p c t H. apply HE in H. apply HD. exact H.
  - intros [BS BT] k iv a p c t BP H. apply HE in H. destruct H as [H ->]. split; [|apply BT]. apply streamed_is in H. subst c.
    generalize 0 at 1 as pos. clear - BS BP. induction p as [|x p IH]; intro pos; cbn [xor_from]; [constructor|].
    inversion_clear BP. constructor; [|apply IH; assumption].
    unfold byte_ok in *. change 256 with (2 ^ 8). destruct (N.eq_dec (N.lxor x (g_stream g k iv pos)) 0) as [->|NZ]; [reflexivity|].
    apply N.log2_lt_pow2; [lia|]. eapply N.le_lt_trans; [apply N.log2_lxor|].
    assert (L : forall y, y < 256 -> N.log2 y < 8). { intros y Hy. destruct (N.eq_dec y 0) as [->|]; [reflexivity|]. apply N.log2_lt_pow2; [lia|exact Hy]. }
    apply N.max_lub_lt; apply L; [assumption|apply BS].
Qed.

Lemma cr_enc_for g cr k iv a p : crypto_for g cr -> exists c t, cr_enc cr k iv a p = Some (c, t) /\ gcm_sealed g k iv a p c t.
Proof.
  intros (HE & _). exists (xor_from (g_stream g k iv) 0 p), (g_tag g k iv a (xor_from (g_stream g k iv) 0 p)).
  assert (G : gcm_sealed g k iv a p (xor_from (g_stream g k iv) 0 p) (g_tag g k iv a (xor_from (g_stream g k iv) 0 p))) by (split; [apply streamed_xor|reflexivity]).
  split; [apply HE; exact G|exact G].
Qed.
Lemma cr_dec_for g cr k iv a c t : crypto_for g cr ->
  (exists p, cr_dec cr k iv a c t = OpenOk p /\ gcm_sealed g k iv a p c t) \/
  (cr_dec cr k iv a c t = OpenBadTag /\ ~ exists p, gcm_sealed g k iv a p c t).
Proof.
  intros (_ & HD & HF). destruct (cr_dec cr k iv a c t) as [p| |] eqn:E.
  - left. exists p. split; [reflexivity|]. apply HD. exact E.
  - right. split; [reflexivity|]. intros [p G]. apply HD in G. congruence.
  - exfalso. eapply HF. exact E.
Qed.
Lemma gcm_sealed_fun g k iv a p c1 t1 c2 t2 : gcm_sealed g k iv a p c1 t1 -> gcm_sealed g k iv a p c2 t2 -> c1 = c2 /\ t1 = t2.
Proof. intros [S1 ->] [S2 ->]. apply streamed_is in S1. apply streamed_is in S2. subst. auto. Qed.

Lemma refines_encrypt_body g cr fault p outp inp mid seqno key ty s :
  gcm_wf g -> crypto_for g cr -> is_suite p -> length key = 32%nat -> seqno < 2 ^ 32 -> Nlen inp < 2 ^ 64 -> Nlen mid < 2 ^ 31 -> b_len outp = 0 ->
  ends (encrypt_body g fault p outp inp mid seqno key (frame_type_int ty)) s (fun r _ =>
    (sl_rc r = Err E_CRYPTO_UNKNOWN /\ faulty fault) \/
    match CryptoModel.encrypt_body cr p (b_cap outp) inp mid seqno key ty with
    | SealOk iv ct tag => r = mk_sealed (Ok tt) (mk_buf ct (Nlen ct)) (Some iv) (Some tag)
    | SealErr e => sl_rc r = Err e
    | SealAbort => False
    end).
Proof.
  intros W CF S K SQ SI SM LZ. destruct (suite_facts p S) as (IV & TL & _).
  destruct (seal_body g fault p outp inp mid seqno key ty s) as (r & s' & RUN & LV & P & _); try assumption; [lia|].
  exists r, s'. split; [exact RUN|]. split; [exact LV|]. clear RUN LV. destruct r as [rc out iv tag]. cbn [sl_rc sl_out sl_iv sl_tag] in *.
  unfold CryptoModel.encrypt_body. rewrite IV. cbn [N.ltb N.compare].
  rewrite frame_iv_spec by (try (split; assumption); lia). rewrite frame_aad_spec by lia.
  destruct (cr_enc_for g cr (cipher_key p key) (msg_iv seqno) (body_aad mid ty seqno (Nlen inp)) inp CF) as (c & t & EQ & G). rewrite EQ.
  destruct rc as [[]|e].
  - destruct P as (ct & tg & -> & -> & -> & NZ & EC & G'). right. rewrite EC, N.eqb_refl. cbn [negb]. destruct (N.eqb_spec seqno 0); [contradiction|].
    destruct (gcm_sealed_fun _ _ _ _ _ _ _ _ _ G G') as [-> ->]. pose proof (gcm_sealed_len _ _ _ _ _ _ _ G) as L.
    destruct (N.ltb_spec (b_cap outp) (Nlen ct)) as [LT|_]; [|reflexivity]. exfalso. unfold Nlen in *. lia.
  - destruct P as [_ [(_ & _ & [[-> N]|(-> & EC & ->)])|(-> & EC & NZ & _ & [F|F])]]; [| |left; auto|contradiction].
    + right. destruct (N.eqb_spec (Nlen inp) (b_cap outp)); [contradiction|reflexivity].
    + right. rewrite EC, N.eqb_refl. reflexivity.
Qed.
Lemma refines_decrypt_body g cr fault p outp inp mid seqno iv key tag ty s :
  gcm_wf g -> crypto_for g cr -> is_suite p -> length key = 32%nat -> seqno < 2 ^ 32 -> b_cap outp < 2 ^ 64 -> Nlen mid < 2 ^ 31 -> b_len outp <= b_cap outp ->
  Nlen inp < 2 ^ 64 -> Nlen iv = 12 -> Nlen tag = 16 ->
  ends (decrypt_body g fault p outp inp mid seqno iv key tag (frame_type_int ty)) s (fun r _ =>
    (fst r = Err E_CRYPTO_UNKNOWN /\ faulty fault) \/ (fst r = Err E_BAD_CIPHERTEXT /\ ~ loud fault) \/
    match CryptoModel.decrypt_body cr p (b_cap outp - b_len outp) inp mid seqno iv key tag ty with
    | UnsealOk pt => r = (Ok tt, mk_buf (firstn (N.to_nat (b_len outp)) (b_mem outp) ++ pt) (b_cap outp))
    | UnsealErr e => fst r = Err e
    | UnsealAbort => False
    end).
Proof.
  intros W CF S K SQ SC SM SL SI VI VT.
  destruct (open_body g fault p outp inp mid seqno iv key tag ty s) as (r & s' & RUN & LV & P & _); try assumption.
  exists r, s'. split; [exact RUN|]. split; [exact LV|]. clear RUN LV. destruct r as [rc b]. cbn [fst snd] in *.
  unfold CryptoModel.decrypt_body. rewrite frame_aad_spec by lia. unfold cipher_key. fold (content_key_of p key).
  destruct (N.eqb_spec (Nlen inp) (b_cap outp - b_len outp)) as [EC|NC]; cbn [negb].
  - assert (FT : b_len outp + Nlen inp = b_cap outp) by lia.
    destruct (cr_dec_for g cr (content_key_of p key) iv (body_aad mid ty seqno (Nlen inp)) inp tag CF) as [(pt & EQ & G)|(EQ & NG)]; rewrite EQ.
    + destruct rc as [[]|e].
      * destruct P as (_ & pt' & -> & G'). right. right. rewrite (gcm_sealed_inj _ _ _ _ _ _ _ _ _ G' G). pose proof (gcm_sealed_len _ _ _ _ _ _ _ G) as L.
        destruct (N.ltb_spec (b_cap outp - b_len outp) (Nlen pt)) as [LT|_]; [|reflexivity]. exfalso. unfold Nlen in *. lia.
      * destruct P as [(_ & _ & N)|(_ & _ & [[-> F]|[-> [N|N]]])]; [contradiction|left; auto| |right; left; auto]. exfalso. apply N. exists pt. exact G.
    + destruct rc as [[]|e].
      * destruct P as (_ & pt' & -> & G'). exfalso. apply NG. exists pt'. exact G'.
      * destruct P as [(_ & _ & N)|(_ & _ & [[-> F]|[-> _]])]; [contradiction|left; auto|right; right; reflexivity].
  - right. right. destruct rc as [[]|e]; [destruct P as [P _]; lia|]. destruct P as [(-> & _)|(P & _)]; [reflexivity|lia].
Qed.
Lemma refines_sign_header g cr fault p key authtag header s : gcm_wf g -> crypto_for g cr -> is_suite p -> length key = 32%nat -> Nlen header < 2 ^ 31 -> Nlen authtag = auth_len p ->
  ends (sign_header g fault p key authtag header) s (fun r _ =>
    (fst r = Err E_CRYPTO_UNKNOWN /\ faulty fault) \/
    exists iv tag, sign_header_tag cr p key header = Ok (iv, tag) /\ fst r = Ok tt /\ auth_field p iv tag (snd r)).
Proof.
  intros W CF S K H AL. destruct (suite_facts p S) as (IV & TL & _ & _ & VV).
  destruct (sign_field g fault p key authtag header s W S K H) as (r & s' & RUN & LV & P & _). exists r, s'. split; [exact RUN|]. split; [exact LV|].
  clear RUN LV. destruct r as [rc f]. cbn [fst snd] in *. destruct rc as [[]|e].
  - right. destruct P as [_ P]. unfold sign_header_tag. rewrite IV, zeros_iv. replace ((ap_version p =? HEADER_VERSION_1_0) || (ap_version p =? HEADER_VERSION_2_0)) with true
      by (destruct VV as [V|V]; rewrite V; reflexivity).
    destruct (cr_enc_for g cr (cipher_key p key) (msg_iv 0) header [] CF) as (c & t & EQ & G). rewrite EQ.
    exists (msg_iv 0), t. split; [reflexivity|]. split; [reflexivity|]. pose proof (gcm_sealed_len _ _ _ _ _ _ _ G) as L. destruct c; [|discriminate L]. destruct G as [_ ->]. exact P.
  - left. destruct P as [(_ & N & _)|(-> & _ & F & _)]; [contradiction|auto].
Qed.
Lemma refines_verify_header g cr fault p key authtag header s : gcm_wf g -> crypto_for g cr -> is_suite p -> length key = 32%nat -> Nlen header < 2 ^ 31 ->
  ends (verify_header g fault p key authtag header) s (fun r _ =>
    (r = Err E_CRYPTO_UNKNOWN /\ faulty fault) \/ (r = Err E_BAD_CIPHERTEXT /\ ~ loud fault) \/ r = snd (CryptoModel.verify_header cr p key authtag header)).
Proof.
  intros W CF S K H. destruct (suite_facts p S) as (IV & TL & _ & _ & VV).
  destruct (verify_field g fault p key authtag header s W S K H) as (r & s' & RUN & LV & P & _). exists r, s'. split; [exact RUN|]. split; [exact LV|]. clear RUN LV.
  assert (OK : (exists iv, auth_field p iv (g_tag g (content_key_of p key) iv header []) authtag) <-> snd (CryptoModel.verify_header cr p key authtag header) = Ok tt).
  { assert (A : forall iv tag, snd (iv, match cr_dec cr (cipher_key p key) iv header [] tag with OpenOk _ => Ok tt | OpenBadTag => Err E_BAD_CIPHERTEXT | OpenFail => Err E_CRYPTO_UNKNOWN end) = Ok tt <->
      tag = g_tag g (content_key_of p key) iv header []).
    { intros iv tag. cbn [snd]. destruct (cr_dec_for g cr (cipher_key p key) iv header [] tag CF) as [(pt & EQ & G)|(EQ & NG)]; rewrite EQ.
      - split; [intros _; destruct G as [_ G]; exact G|reflexivity].
      - split; [discriminate|]. intro E. exfalso. apply NG. exists []. split; [split; [reflexivity|cbn; lia]|exact E]. }
    unfold CryptoModel.verify_header, auth_field. rewrite IV, TL. destruct VV as [V|V]; rewrite V.
    - change (HEADER_VERSION_1_0 =? HEADER_VERSION_1_0) with true. cbn iota. destruct (N.eqb_spec (Nlen authtag) (12 + 16)) as [E|E]; cbn [negb].
      + rewrite A. split.
        * intros (iv & [(_ & -> & L)|(X & _)]); [|discriminate X]. change (N.to_nat 12) with 12%nat. assert (LN : length iv = 12%nat) by (unfold Nlen in L; lia). rewrite <- LN.
          rewrite skipn_app, firstn_app, firstn_all, skipn_all, Nat.sub_diag. cbn [app skipn firstn]. rewrite app_nil_r. reflexivity.
        * intro Q. exists (firstn (N.to_nat 12) authtag). left. split; [reflexivity|]. rewrite <- Q. rewrite firstn_skipn. split; [reflexivity|]. rewrite Nlen_firstn. lia.
      + split; [|discriminate]. intros (iv & [(_ & -> & L)|(X & _)]); [|discriminate X]. exfalso. apply E. rewrite Nlen_app', L, W. reflexivity.
    - change (HEADER_VERSION_2_0 =? HEADER_VERSION_1_0) with false. change (HEADER_VERSION_2_0 =? HEADER_VERSION_2_0) with true. cbn iota.
      destruct (N.eqb_spec (Nlen authtag) 16) as [E|E]; cbn [negb].
      + rewrite A, zeros_iv. split; [intros (iv & [(X & _)|(_ & -> & ->)]); [discriminate X|reflexivity]|]. intro Q. exists (msg_iv 0). right. auto.
      + split; [|discriminate]. intros (iv & [(X & _)|(_ & -> & _)]); [discriminate X|]. exfalso. apply E. apply W. }
  destruct r as [[]|e]; [right; right; symmetry; apply OK; exact P|].
  destruct P as [[-> F]|[-> [N|N]]]; [left; auto| |right; left; auto]. right. right.
  assert (NO : snd (CryptoModel.verify_header cr p key authtag header) <> Ok tt) by (intro X; apply N, OK, X).
  revert NO. unfold CryptoModel.verify_header. destruct CF as (_ & _ & CF).
  destruct VV as [V|V]; rewrite V.
  - change (HEADER_VERSION_1_0 =? HEADER_VERSION_1_0) with true. cbn iota. destruct (negb _); [reflexivity|]. cbn [snd]. destruct (cr_dec cr _ _ _ _ _) eqn:EQ; [contradiction|reflexivity|]. exfalso. eapply CF, EQ.
  - change (HEADER_VERSION_2_0 =? HEADER_VERSION_1_0) with false. change (HEADER_VERSION_2_0 =? HEADER_VERSION_2_0) with true. cbn iota.
    destruct (negb _); [reflexivity|]. cbn [snd]. destruct (cr_dec cr _ _ _ _ _) eqn:EQ; [contradiction|reflexivity|]. exfalso. eapply CF, EQ.
Qed.

(** ** Where the calls do less than they should *)
Lemma no_fault_call s : call (fun _ => None) s = inr (true, mk_ssl (S (o_tick s)) (o_errs s) (o_live s)).
Proof. reflexivity. Qed.
Lemma unknown_frame_type g p outp inp mid seqno key ty s : gcm_wf g -> is_suite p -> length key = 32%nat -> 0 < seqno < 2 ^ 32 -> Nlen inp < 2 ^ 64 -> b_len outp = 0 -> Nlen inp = b_cap outp ->
  (ty <> 0 /\ ty <> 1 /\ ty <> 2)%Z ->
  ends (encrypt_body g (fun _ => None) p outp inp mid seqno key ty) s (fun r _ =>
    exists ct tag, r = mk_sealed (Ok tt) (mk_buf ct (Nlen ct)) (Some (msg_iv seqno)) (Some tag) /\ gcm_sealed g (content_key_of p key) (msg_iv seqno) [] inp ct tag).
Proof.
  intros W S K SQ SI LZ EC TY. destruct (suite_facts p S) as (IV & TL & _). unfold encrypt_body.
  assert (NF : ~ faulty (fun _ : nat => @None (list N))) by (intros [n H]; apply H; reflexivity).
  apply wp_ends. rewrite EC, N.eqb_refl. cbn [negb]. destruct (N.eqb_spec seqno 0); [lia|]. rewrite IV. cbn [N.ltb N.compare].
  assert (EV : zeros (12 - 8) ++ be_bytes 8 seqno = msg_iv seqno).
  { rewrite <- (frame_iv_spec p seqno); [unfold frame_iv; rewrite IV; reflexivity|split; assumption|lia]. }
  rewrite EV.
  apply wp_bind. eapply wp_post; [apply gcm_cipher_init_wp; [assumption..|rewrite Nlen_msg_iv; lia]|]. intros [x|] s1; [|intros [_ F]; contradiction].
  intros [E1 ->]. change 12%nat with (N.to_nat 12). rewrite firstn_Nlen by (rewrite Nlen_msg_iv; lia).
  apply wp_bind. replace (update_frame_aad _ _ _ ty _ _) with (fun s0 => ret (Some (mk_ectx true (Some (ap_content_key_len p)) 12 (Some (content_key_of p key)) (Some (msg_iv seqno)) [] [] None)) s0).
  2: { unfold update_frame_aad. destruct ty as [|[q|[q|q|]|]|q]; try reflexivity; destruct TY as (T0 & T1 & T2); [|exfalso; auto..]. exfalso; auto. }
  unfold wp at 1, ret at 1. cbn beta iota.
  apply wp_bind. eapply wp_post; [eapply body_loop_wp; [reflexivity|reflexivity|reflexivity|unfold two64; lia|lia]|].
  intros [mem o] s3 (E3 & L3 & P3). cbn [fst snd x_enc x_keylen x_ivlen x_tag x_aad x_text app] in *. destruct o as [[x len]|]; [|contradiction].
  destruct P3 as (M1 & -> & ->). rewrite LZ in M1. cbn [N.to_nat firstn app] in M1. change (Nlen []) with 0 in *.
  apply wp_bind. eapply wp_post; [eapply gcm_encrypt_final_wp; [assumption|assumption|reflexivity..]|]. cbn [x_aad x_text]. intros t s4 [E4 P4].
  apply wp_bind. apply (ctx_free_up s); [unfold up, same in *; congruence|]. intros s5 E5 _. destruct t as [t|]; [|contradiction].
  apply wp_ret. split; [unfold up, same in *; congruence|]. exists mem, t. split.
  - f_equal. f_equal. unfold b_cap, Nlen in *. lia.
  - rewrite <- P4, M1. split; [apply streamed_xor|reflexivity].
Qed.

(** [header->len] is an int for OpenSSL: of a header of 2^32+1 bytes it reads one. *)
Lemma wrapped_aad fault x b tl s : Nlen tl = 2 ^ 32 -> update_aad fault x (b :: tl) (Nlen (b :: tl)) s = update_aad fault x [b] (Nlen [b]) s.
Proof.
  intro H. assert (L : Nlen (b :: tl) = 2 ^ 32 + 1) by (unfold Nlen in *; cbn [length]; lia).
  unfold update_aad, mbind. destruct (call fault s) as [|[ok s']]; [reflexivity|]. destruct ok; [|reflexivity]. cbn [negb].
  rewrite L. change (to_int (2 ^ 32 + 1)) with 1%Z. change (to_int (Nlen [b])) with 1%Z. change (1 <? 0)%Z with false. cbn iota.
  change (Z.to_N 1) with 1. change (Nlen [b] <? 1) with false. destruct (N.ltb_spec (2 ^ 32 + 1) 1) as [C|_]; [exfalso; lia|]. reflexivity.
Qed.
Lemma mbind_r {A B} (m : M A) (f f' : A -> M B) s : (forall a s', f a s' = f' a s') -> mbind m f s = mbind m f' s.
Proof. intro H. unfold mbind. destruct (m s) as [|[a s']]; auto. Qed.
Lemma mbind_l {A B} (m m' : M A) (f : A -> M B) s : m s = m' s -> mbind m f s = mbind m' f s.
Proof. intro H. unfold mbind. rewrite H. reflexivity. Qed.
Lemma wrapped_sign g fault p key authtag b tl s : Nlen tl = 2 ^ 32 -> sign_header g fault p key authtag (b :: tl) s = sign_header g fault p key authtag [b] s.
Proof.
  intro H. assert (A : forall iv pre old, sign_header_with g fault p key iv (b :: tl) pre old s = sign_header_with g fault p key iv [b] pre old s).
  { intros iv pre old. unfold sign_header_with. apply mbind_r. intros [x|] s1; [|reflexivity]. apply mbind_l, wrapped_aad, H. }
  unfold sign_header. destruct (ap_version p =? HEADER_VERSION_1_0); [destruct (negb _); [reflexivity|apply A]|].
  destruct (ap_version p =? HEADER_VERSION_2_0); [destruct (negb _); [reflexivity|apply A]|]. reflexivity.
Qed.
Lemma wrapped_verify g fault p key authtag b tl s : Nlen tl = 2 ^ 32 -> verify_header g fault p key authtag (b :: tl) s = verify_header g fault p key authtag [b] s.
Proof.
  intro H. assert (A : forall iv tag, verify_header_with g fault p key iv tag (b :: tl) s = verify_header_with g fault p key iv tag [b] s).
  { intros iv tag. unfold verify_header_with. apply mbind_r. intros [x|] s1; [|reflexivity]. apply mbind_l, wrapped_aad, H. }
  unfold verify_header. destruct (ap_version p =? HEADER_VERSION_1_0); [destruct (negb _); [reflexivity|apply A]|].
  destruct (ap_version p =? HEADER_VERSION_2_0); [destruct (negb _); [reflexivity|apply A]|]. reflexivity.
Qed.
Lemma long_tails : exists t0 t1 : list N, t0 <> t1 /\ Nlen t0 = 2 ^ 32 /\ Nlen t1 = 2 ^ 32.
Proof.
  assert (G : forall n, N.of_nat n = 2 ^ 32 -> exists t0 t1 : list N, t0 <> t1 /\ Nlen t0 = 2 ^ 32 /\ Nlen t1 = 2 ^ 32).
  { intros n H. exists (repeat 0 n), (repeat 1 n). unfold Nlen. rewrite !repeat_length. split; [|auto]. destruct n as [|n]; [discriminate H|]. cbn [repeat]. discriminate. }
  exact (G (N.to_nat (2 ^ 32)) (N2Nat.id _)).
Qed.
Lemma long_headers (b : N) : exists h0 h1, h0 <> h1 /\ Nlen h0 = 2 ^ 32 + 1 /\ Nlen h1 = 2 ^ 32 + 1 /\
  forall g fault p key authtag s, sign_header g fault p key authtag h0 s = sign_header g fault p key authtag h1 s /\
                                  verify_header g fault p key authtag h0 s = verify_header g fault p key authtag h1 s.
Proof.
  destruct long_tails as (t0 & t1 & N & L0 & L1). exists (b :: t0), (b :: t1). split; [congruence|].
  split; [unfold Nlen in *; cbn [length]; lia|]. split; [unfold Nlen in *; cbn [length]; lia|]. intros.
  rewrite (wrapped_sign _ _ _ _ _ b t0), (wrapped_sign _ _ _ _ _ b t1), (wrapped_verify _ _ _ _ _ b t0), (wrapped_verify _ _ _ _ _ b t1) by assumption. auto.
Qed.

(** ** Random bytes *)
Lemma genrandom_spec rand mem len : Nlen mem = len -> (forall n rc b, rand n = (rc, b) -> rc = 1%Z -> Nlen b = n) ->
  match genrandom rand mem len with
  | (Ok _, m) => Nlen m = len /\ (len <> 0 -> rand len = (1%Z, m))
  | (Err e, m) => (e = E_LIMIT_EXCEEDED /\ 2 ^ 31 <= len /\ m = mem) \/ (e = E_CRYPTO_UNKNOWN /\ fst (rand len) <> 1%Z /\ Nlen m = len /\ Forall (fun b => b = 0) m)
  end.
Proof.
  intros L R. unfold genrandom, INT_MAX. destruct (N.eqb_spec len 0) as [->|NZ]; [split; [exact L|contradiction]|].
  destruct (N.ltb_spec (2 ^ 31 - 1) len); [left; repeat split; lia|]. destruct (rand len) as [rc b] eqn:E. destruct (Z.eqb_spec rc 1) as [->|N]; cbn [negb].
  - split; [eapply R; [exact E|reflexivity]|auto].
  - right. repeat split; auto; [unfold zeros, Nlen; rewrite repeat_length; lia|]. unfold zeros. apply Forall_forall. intros x H1. eapply repeat_spec, H1.
Qed.

(** ** The functions of KeyringModel *)
Lemma key_len_ok_iff key : aes_key_len_ok key = true <-> (Nlen key = 16 \/ Nlen key = 24 \/ Nlen key = 32).
Proof. unfold aes_key_len_ok. lia. Qed.
Lemma refines_wrap g cr fault cipher tag plain iv aad key s : gcm_wf g -> crypto_for g cr -> Nlen plain < 2 ^ 31 -> Nlen aad < 2 ^ 31 -> 16 <= b_cap tag ->
  ends (aes_gcm_encrypt g fault cipher tag plain iv aad key) s (fun r _ =>
    (fst (fst r) = Err E_CRYPTO_UNKNOWN /\ faulty fault) \/
    match KeyringModel.aes_gcm_encrypt cr (b_cap cipher) plain iv aad key with
    | Ok (c, t) => fst (fst r) = Ok tt /\ firstn (N.to_nat (b_len (snd (fst r)))) (b_mem (snd (fst r))) = c /\ firstn 16 (b_mem (snd r)) = t
    | Err e => fst (fst r) = Err e
    end).
Proof.
  intros W CF SP SA ST. destruct (wrap_data_key g fault cipher tag plain iv aad key s W SP SA) as ([[rc cb] tb] & s' & RUN & LV & P & _).
  exists (rc, cb, tb), s'. split; [exact RUN|]. split; [exact LV|]. clear RUN LV. cbn [fst snd] in *.
  unfold KeyringModel.aes_gcm_encrypt. destruct (cr_enc_for g cr key iv aad plain CF) as (c & t & EQ & G). rewrite EQ.
  destruct (aes_key_len_ok key) eqn:KL; cbn [negb orb].
  2: { right. assert (NA : ~ (Nlen key = 16 \/ Nlen key = 24 \/ Nlen key = 32)) by (rewrite <- key_len_ok_iff; congruence).
       destruct rc as [[]|e]; [destruct P as [[P _] _]; contradiction|]. destruct P as [(-> & _)|([P _] & _)]; [reflexivity|contradiction]. }
  apply key_len_ok_iff in KL. destruct (negb (Nlen iv =? 12) || (b_cap cipher <? Nlen plain)) eqn:EA.
  - right. destruct rc as [[]|e]; [destruct P as [(_ & P1 & _ & P2) _]; exfalso; lia|]. destruct P as [(-> & _)|((_ & P1 & _ & P2) & _)]; [reflexivity|exfalso; lia].
  - destruct rc as [[]|e].
    + right. destruct P as (_ & ct & t' & G' & -> & ->). destruct (gcm_sealed_fun _ _ _ _ _ _ _ _ _ G G') as [-> ->]. cbn [b_mem b_len]. split; [reflexivity|].
      pose proof (gcm_sealed_len _ _ _ _ _ _ _ G) as L. assert (L2 : length t' = 16%nat) by (destruct G as [_ ->]; specialize (W key iv aad ct); unfold Nlen in W; lia).
      split; [unfold Nlen; rewrite Nat2N.id, <- L, firstn_app, Nat.sub_diag, firstn_all|rewrite <- L2, firstn_app, Nat.sub_diag, firstn_all]; cbn [firstn]; apply app_nil_r.
    + destruct P as [(_ & N & _)|(_ & -> & _ & _ & _ & F)]; [exfalso; apply N; split; [exact KL|lia]|left; auto].
Qed.
Lemma refines_unwrap g cr fault plain cipher tag iv aad key s : gcm_wf g -> crypto_for g cr -> Nlen cipher < 2 ^ 31 -> Nlen aad < 2 ^ 31 ->
  ends (aes_gcm_decrypt g fault plain cipher tag iv aad key) s (fun r _ =>
    (fst r = Err E_CRYPTO_UNKNOWN /\ faulty fault) \/ (fst r = Err E_BAD_CIPHERTEXT /\ ~ loud fault) \/
    match KeyringModel.aes_gcm_decrypt cr (b_cap plain) cipher tag iv aad key with
    | Ok pt => fst r = Ok tt /\ firstn (N.to_nat (b_len (snd r))) (b_mem (snd r)) = pt
    | Err e => fst r = Err e
    end).
Proof.
  intros W CF SP SA. destruct (unwrap_data_key g fault plain cipher tag iv aad key s W SP SA) as ([rc b] & s' & RUN & LV & P & _).
  exists (rc, b), s'. split; [exact RUN|]. split; [exact LV|]. clear RUN LV. cbn [fst snd] in *.
  unfold KeyringModel.aes_gcm_decrypt.
  destruct (aes_key_len_ok key) eqn:KL; cbn [negb orb].
  2: { right. right. assert (NA : ~ (Nlen key = 16 \/ Nlen key = 24 \/ Nlen key = 32)) by (rewrite <- key_len_ok_iff; congruence).
       destruct rc as [[]|e]; [destruct P as [[P _] _]; contradiction|]. destruct P as [(-> & _)|([P _] & _)]; [reflexivity|contradiction]. }
  apply key_len_ok_iff in KL. destruct (negb (Nlen iv =? 12) || negb (Nlen tag =? 16) || (b_cap plain <? Nlen cipher)) eqn:EA.
  - right. right. destruct rc as [[]|e]; [destruct P as [(_ & P1 & P2 & P3) _]; exfalso; lia|]. destruct P as [(-> & _)|((_ & P1 & P2 & P3) & _)]; [reflexivity|exfalso; lia].
  - destruct (cr_dec_for g cr key iv aad cipher tag CF) as [(pt & EQ & G)|(EQ & NG)]; rewrite EQ.
    + destruct rc as [[]|e].
      * right. right. destruct P as (_ & pt' & G' & ->). rewrite (gcm_sealed_inj _ _ _ _ _ _ _ _ _ G' G). cbn [b_mem b_len]. split; [reflexivity|].
        pose proof (gcm_sealed_len _ _ _ _ _ _ _ G) as L. unfold Nlen. rewrite Nat2N.id, L, firstn_app, Nat.sub_diag, firstn_all. cbn [firstn]. apply app_nil_r.
      * destruct P as [(_ & N & _)|(_ & _ & _ & [[-> F]|[-> [N|N]]])]; [exfalso; apply N; split; [exact KL|lia]|left; auto|exfalso; apply N; exists pt; exact G|right; left; auto].
    + destruct rc as [[]|e].
      * destruct P as (_ & pt' & G' & _). exfalso. apply NG. exists pt'. exact G'.
      * destruct P as [(_ & N & _)|(_ & _ & _ & [[-> F]|[-> _]])]; [exfalso; apply N; split; [exact KL|lia]|left; auto|right; right; reflexivity].
Qed.
