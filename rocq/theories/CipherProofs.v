(** Proofs about CipherModel. *)
From Verif Require Import Base BaseProofs AlgModel FrameModel CryptoModel SessionModel WireSpec SessionSpec SessionBase CipherModel CipherSpec.
From Coq Require Import ZArith ZifyBool ZifyNat ZifyN String.
Import List.
Open Scope list_scope.
Open Scope N_scope.

(** ** Lists *)
Lemma Nlen_firstn {A} n (l : list A) : Nlen (firstn (N.to_nat n) l) = N.min n (Nlen l).
Proof. unfold Nlen. rewrite firstn_length. lia. Qed.
Lemma Nlen_skipn {A} n (l : list A) : Nlen (skipn (N.to_nat n) l) = Nlen l - n.
Proof. unfold Nlen. rewrite skipn_length. lia. Qed.
Lemma Nlen_app' {A} (a b : list A) : Nlen (a ++ b) = Nlen a + Nlen b.
Proof. unfold Nlen. rewrite app_length. lia. Qed.
Lemma firstn_Nlen {A} (l : list A) n : Nlen l <= n -> firstn (N.to_nat n) l = l.
Proof. unfold Nlen. intro. apply firstn_all2. lia. Qed.

Section Xor.
Variable st : N -> N.
Lemma xor_length l : forall pos, length (xor_from st pos l) = length l.
Proof. induction l; intro; cbn; [|rewrite IHl]; reflexivity. Qed.
Lemma xor_Nlen l pos : Nlen (xor_from st pos l) = Nlen l.
Proof. unfold Nlen. rewrite xor_length. reflexivity. Qed.
Lemma xor_app a : forall pos b, xor_from st pos (a ++ b) = xor_from st pos a ++ xor_from st (pos + Nlen a) b.
Proof.
  induction a as [|x a IH]; intros; cbn [app xor_from]; [rewrite N.add_0_r; reflexivity|].
  rewrite IH. do 3 f_equal. unfold Nlen. cbn [length]. lia.
Qed.
Lemma xor_nth l : forall pos i, (i < length l)%nat -> nth i (xor_from st pos l) 0 = N.lxor (nth i l 0) (st (pos + N.of_nat i)).
Proof.
  induction l as [|x l IH]; intros pos i H; cbn in H; [lia|]. destruct i; cbn [xor_from nth]; [rewrite N.add_0_r; reflexivity|].
  rewrite IH by lia. do 2 f_equal. lia.
Qed.
Lemma xor_twice l : forall pos, xor_from st pos (xor_from st pos l) = l.
Proof.
  induction l as [|x l IH]; intro; cbn [xor_from]; [reflexivity|].
  rewrite IH, N.lxor_assoc, N.lxor_nilpotent, N.lxor_0_r. reflexivity.
Qed.
End Xor.

Lemma streamed_xor g k iv x : streamed g k iv x (xor_from (g_stream g k iv) 0 x).
Proof. split; [apply xor_length|]. intros i H. rewrite xor_nth by assumption. reflexivity. Qed.
Lemma streamed_is g k iv x y : streamed g k iv x y -> y = xor_from (g_stream g k iv) 0 x.
Proof.
  intros [L H]. apply nth_ext with (d := 0) (d' := 0); [rewrite xor_length; exact L|].
  intros i I. rewrite L in I. rewrite H, xor_nth by assumption. reflexivity.
Qed.
Lemma streamed_sym g k iv x y : streamed g k iv x y -> streamed g k iv y x.
Proof. intro H. apply streamed_is in H. subst y. pose proof (streamed_xor g k iv (xor_from (g_stream g k iv) 0 x)) as Z. rewrite xor_twice in Z. exact Z. Qed.

(** ** Runs *)
Definition wp {A} (m : M A) (s : ssl) (Q : A -> ssl -> Prop) : Prop :=
  match m s with inl _ => False | inr (a, s') => Q a s' end.
Lemma wp_ret {A} (a : A) s (Q : A -> ssl -> Prop) : Q a s -> wp (ret a) s Q.
Proof. auto. Qed.
Lemma wp_bind {A B} (m : M A) (f : A -> M B) s Q : wp m s (fun a s' => wp (f a) s' Q) -> wp (mbind m f) s Q.
Proof. unfold wp, mbind. destruct (m s) as [|[a s']]; auto. Qed.
Lemma wp_post {A} (m : M A) s (P Q : A -> ssl -> Prop) : wp m s P -> (forall a s', P a s' -> Q a s') -> wp m s Q.
Proof. unfold wp. destruct (m s) as [|[a s']]; auto. Qed.
Lemma wp_ends {A} (m : M A) s Q : wp m s (fun a s' => o_live s' = o_live s /\ Q a s') -> ends m s Q.
Proof. unfold wp, ends. destruct (m s) as [|[a s']]; [contradiction|]. intros [H1 H2]. eauto. Qed.

Lemma to_int_small n : n < 2 ^ 31 -> to_int n = Z.of_N n.
Proof. intro H. unfold to_int, two32. rewrite N.mod_small by (change (2^32) with (2*2^31); lia). destruct (N.ltb_spec n (2 ^ 31)); [reflexivity|lia]. Qed.

Lemma put_fits m off d : off + Nlen d <= Nlen m ->
  put m off d = Some (firstn (N.to_nat off) m ++ d ++ skipn (N.to_nat (off + Nlen d)) m).
Proof. intro H. unfold put. destruct (N.ltb_spec (Nlen m) (off + Nlen d)); [lia|reflexivity]. Qed.

Section Runs.
Variable g : gcm.
Variable fault : nat -> option (list N).
Hypothesis W : gcm_wf g.

Definition same (s s' : ssl) : Prop := o_live s' = o_live s.

Lemma call_wp s (Q : bool -> ssl -> Prop) :
  (faulty fault -> forall s', same s s' -> (loud fault -> o_errs s' <> []) -> Q false s') ->
  (forall s', same s s' -> o_errs s' = o_errs s -> Q true s') -> wp (call fault) s Q.
Proof.
  intros HF HT. unfold wp, call. destruct (fault (o_tick s)) as [es|] eqn:E.
  - apply HF; [exists (o_tick s); congruence|reflexivity|]. intro L. apply L in E. cbn. destruct (o_errs s), es; cbn; congruence.
  - apply HT; reflexivity.
Qed.

(** Failure only if a call fails; the state apart from tick and errors is as before. *)
Definition okpost {A} (s : ssl) (P : A -> Prop) (o : option A) (s' : ssl) : Prop :=
  same s s' /\ match o with Some a => P a | None => faulty fault end.


Lemma init_cipher_wp x c e s :
  wp (cipher_init fault x (Some c) None None (Some e)) s (okpost s (eq (mk_ectx e (Some c) 12 None None [] [] None))).
Proof.
  unfold cipher_init. apply wp_bind, call_wp; cbn [negb]; intros; apply wp_ret; split; auto.
Qed.
Lemma init_key_wp x kl k v s : x_keylen x = Some kl -> kl <= Nlen k -> x_ivlen x <= Nlen v ->
  wp (cipher_init fault x None (Some k) (Some v) None) s
     (okpost s (eq (mk_ectx (x_enc x) (Some kl) (x_ivlen x) (Some (firstn (N.to_nat kl) k)) (Some (firstn (N.to_nat (x_ivlen x)) v)) [] [] (x_tag x)))).
Proof.
  intros HC HK HV. unfold cipher_init. apply wp_bind, call_wp; cbn [negb x_keylen x_ivlen x_enc x_key x_tag]; intros.
  - apply wp_ret; split; auto.
  - rewrite HC. destruct (N.ltb_spec (Nlen k) kl); [lia|]. destruct (N.ltb_spec (Nlen v) (x_ivlen x)); [lia|].
    apply wp_ret. split; [assumption|reflexivity].
Qed.
Lemma init_all_wp x c k v e s : c <= Nlen k -> 12 <= Nlen v ->
  wp (cipher_init fault x (Some c) (Some k) (Some v) (Some e)) s
     (okpost s (eq (mk_ectx e (Some c) 12 (Some (firstn (N.to_nat c) k)) (Some (firstn 12 v)) [] [] None))).
Proof.
  intros HK HV. unfold cipher_init. apply wp_bind, call_wp; cbn [negb x_keylen x_ivlen x_enc x_key x_tag]; intros.
  - apply wp_ret; split; auto.
  - destruct (N.ltb_spec (Nlen k) c); [lia|]. destruct (N.ltb_spec (Nlen v) 12); [lia|]. apply wp_ret. split; [assumption|reflexivity].
Qed.
Lemma set_ivlen_wp x n s : n <> 0 ->
  wp (set_ivlen fault x n) s (okpost s (eq (mk_ectx (x_enc x) (x_keylen x) n (x_key x) (x_iv x) (x_aad x) (x_text x) (x_tag x)))).
Proof.
  intro H. unfold set_ivlen. apply wp_bind, call_wp; cbn [negb orb]; intros; [apply wp_ret; split; auto|].
  destruct (N.eqb_spec n 0); [contradiction|]. apply wp_ret. split; [assumption|reflexivity].
Qed.
Lemma set_tag_wp x t s : x_enc x = false -> Nlen t = 16 ->
  wp (set_tag fault x 16 t) s (okpost s (eq (mk_ectx false (x_keylen x) (x_ivlen x) (x_key x) (x_iv x) (x_aad x) (x_text x) (Some t)))).
Proof.
  intros E L. unfold set_tag. apply wp_bind, call_wp; cbn [negb orb N.eqb N.ltb N.compare]; intros; [apply wp_ret; split; auto|].
  rewrite E, L. cbn. apply wp_ret. split; [assumption|]. rewrite firstn_all2; [reflexivity|]. unfold Nlen in L. lia.
Qed.
Lemma get_tag_wp x t s : x_enc x = true -> x_tag x = Some t -> Nlen t = 16 ->
  wp (get_tag fault x 16) s (okpost s (eq t)).
Proof.
  intros E HT L. unfold get_tag. apply wp_bind, call_wp; cbn [negb orb N.eqb N.ltb N.compare]; intros; [apply wp_ret; split; auto|].
  rewrite E, HT. cbn. apply wp_ret. split; [assumption|]. rewrite firstn_all2; [reflexivity|]. unfold Nlen in L. lia.
Qed.
Lemma update_aad_wp x k iv data n s : x_key x = Some k -> x_iv x = Some iv -> x_text x = [] -> n < 2 ^ 31 -> n = Nlen data ->
  wp (update_aad fault x data n) s
     (okpost s (eq (mk_ectx (x_enc x) (x_keylen x) (x_ivlen x) (Some k) (Some iv) (x_aad x ++ data) [] (x_tag x)))).
Proof.
  intros HK HI HT HN HD. unfold update_aad. apply wp_bind, call_wp; cbn [negb]; intros; [apply wp_ret; split; auto|].
  rewrite to_int_small, HK, HI, HT by assumption. destruct (Z.ltb_spec (Z.of_N n) 0); [lia|].
  rewrite N2Z.id. destruct (N.ltb_spec (Nlen data) n); [lia|]. rewrite firstn_Nlen by lia. apply wp_ret. split; [assumption|reflexivity].
Qed.
Lemma update_text_wp x k iv mem off data n s :
  x_key x = Some k -> x_iv x = Some iv -> n < 2 ^ 31 -> n <= Nlen data -> off + n <= Nlen mem ->
  let d := firstn (N.to_nat n) data in
  let out := xor_from (g_stream g k iv) (Nlen (x_text x)) d in
  wp (update_text g fault x mem off data n) s
     (okpost s (eq (mk_ectx (x_enc x) (x_keylen x) (x_ivlen x) (Some k) (Some iv) (x_aad x) (x_text x ++ if x_enc x then out else d) (x_tag x),
                    firstn (N.to_nat off) mem ++ out ++ skipn (N.to_nat (off + n)) mem, n))).
Proof.
  intros HK HI HN HD HM d out. unfold update_text. apply wp_bind, call_wp; cbn [negb]; intros; [apply wp_ret; split; auto|].
  rewrite to_int_small, HK, HI by assumption. destruct (Z.ltb_spec (Z.of_N n) 0); [lia|].
  rewrite N2Z.id. destruct (N.ltb_spec (Nlen data) n); [lia|]. fold d. fold out.
  assert (L : Nlen out = n) by (unfold out, d; rewrite xor_Nlen, Nlen_firstn; lia).
  rewrite put_fits by lia. rewrite L. apply wp_ret. split; [assumption|reflexivity].
Qed.
Lemma final_enc_wp x k iv s : x_enc x = true -> x_key x = Some k -> x_iv x = Some iv ->
  wp (final g fault x) s (okpost s (eq (mk_ectx true (x_keylen x) (x_ivlen x) (Some k) None (x_aad x) (x_text x)
                                      (Some (g_tag g k iv (x_aad x) (x_text x))), 0))).
Proof.
  intros E HK HI. unfold final. apply wp_bind, call_wp; cbn [negb]; intros; [apply wp_ret; split; auto|].
  rewrite E, HK, HI. apply wp_ret. split; [assumption|reflexivity].
Qed.
Lemma bytes_eqb_iff a : forall b, bytes_eqb a b = true <-> a = b.
Proof.
  induction a as [|x a IH]; destruct b as [|y b]; cbn; try (split; congruence).
  rewrite Bool.andb_true_iff, N.eqb_eq, IH. split; [intros [-> ->]; reflexivity|]. intros [= -> ->]. auto.
Qed.
Lemma final_dec_wp x k iv t s : x_enc x = false -> x_key x = Some k -> x_iv x = Some iv -> x_tag x = Some t -> Nlen t = 16 ->
  wp (final g fault x) s (fun o s' => same s s' /\
    match o with
    | Some (_, n) => n = 0 /\ t = g_tag g k iv (x_aad x) (x_text x)
    | None => (t <> g_tag g k iv (x_aad x) (x_text x) /\ o_errs s' = o_errs s) \/ (faulty fault /\ (loud fault -> o_errs s' <> []))
    end).
Proof.
  intros E HK HI HT L. unfold final. apply wp_bind, call_wp; cbn [negb]; intros; [apply wp_ret; split; auto|].
  rewrite E, HK, HI, HT. rewrite firstn_all2 by (pose proof (W k iv (x_aad x) (x_text x)); unfold Nlen in *; lia).
  destruct (bytes_eqb _ t) eqn:B; apply wp_ret; (split; [assumption|]).
  - apply bytes_eqb_iff in B. auto.
  - left. split; [|assumption]. intro Z. symmetry in Z. apply bytes_eqb_iff in Z. congruence.
Qed.
Lemma ctx_free_wp s n (Q : unit -> ssl -> Prop) : o_live s = S n ->
  (forall s', o_live s' = n -> o_errs s' = o_errs s -> Q tt s') -> wp ctx_free s Q.
Proof. intros H K. unfold wp, ctx_free. rewrite H. apply K; reflexivity. Qed.

(** ** cipher.c *)
Lemma suite_facts p : is_suite p -> ap_iv_len p = 12 /\ ap_tag_len p = 16 /\ cipher_ctor p = ap_content_key_len p /\ ap_content_key_len p <= 32 /\
  (ap_version p = HEADER_VERSION_1_0 \/ ap_version p = HEADER_VERSION_2_0).
Proof.
  intro H. red in H. unfold cipher_ctor. destruct p as [id p1 p2 p3 p4 p5 p6 p7 p8 p9]. cbn [ap_id ap_iv_len ap_tag_len ap_content_key_len ap_version] in *.
  unfold alg_lookup in H.
  repeat match type of H with (if ?a =? ?b then _ else _) = _ => destruct (N.eqb_spec a b) as [->|_]; [injection H; intros; subst; vm_compute; intuition discriminate|] end.
  discriminate.
Qed.

Definition up (s s' : ssl) : Prop := o_live s' = S (o_live s).

Lemma gcm_cipher_init_wp p key iv e s : is_suite p -> length key = 32%nat -> 12 <= Nlen iv ->
  wp (gcm_cipher_init fault p key iv e) s (fun o s' =>
    match o with
    | None => same s s' /\ faulty fault
    | Some x => up s s' /\ x = mk_ectx e (Some (ap_content_key_len p)) 12 (Some (content_key_of p key)) (Some (firstn 12 iv)) [] [] None
    end).
Proof.
  intros S K V. destruct (suite_facts p S) as (IV & _ & CT & KL & _). unfold gcm_cipher_init, ctx_new. rewrite IV, CT.
  apply wp_bind, wp_bind, call_wp; [intros F s1 E1 _; apply wp_ret; apply wp_ret; auto|]. intros s1 E1 _.
  apply wp_bind. unfold live at 1, wp at 1. cbn beta iota. apply wp_ret.
  apply wp_bind. eapply wp_post; [apply init_cipher_wp|]. intros [x|] s2 [E2 P2].
  2: { apply wp_bind. eapply ctx_free_wp; [cbv [same up] in *; rewrite E2; cbn; reflexivity|]. intros s3 L3 _. apply wp_ret. split; [cbv [same] in *; congruence|exact P2]. }
  subst x. apply wp_bind. eapply wp_post; [apply set_ivlen_wp; discriminate|]. cbn [x_enc x_keylen x_key x_iv x_aad x_text x_tag]. intros [x|] s3 [E3 P3].
  2: { apply wp_bind. eapply ctx_free_wp; [cbv [same up] in *; rewrite E3, E2; cbn; reflexivity|]. intros s4 L4 _. apply wp_ret. split; [cbv [same] in *; congruence|exact P3]. }
  subst x. apply wp_bind. eapply wp_post; [eapply init_key_wp; [reflexivity|unfold Nlen; lia|exact V]|]. cbn [x_enc x_keylen x_ivlen x_tag]. intros [x|] s4 [E4 P4].
  2: { apply wp_bind. eapply ctx_free_wp; [cbv [same up] in *; rewrite E4, E3, E2; cbn; reflexivity|]. intros s5 L5 _. apply wp_ret. split; [cbv [same] in *; congruence|exact P4]. }
  apply wp_ret. subst x. split; [cbv [same up] in *; rewrite E4, E3, E2; cbn; congruence|reflexivity].
Qed.

Lemma gcm_encrypt_final_wp p x k iv s : is_suite p -> x_enc x = true -> x_key x = Some k -> x_iv x = Some iv ->
  wp (gcm_encrypt_final g fault p x) s (okpost s (eq (g_tag g k iv (x_aad x) (x_text x)))).
Proof.
  intros S E K I. destruct (suite_facts p S) as (_ & T & _). unfold gcm_encrypt_final. rewrite T.
  apply wp_bind. eapply wp_post; [apply (final_enc_wp x k iv); assumption|]. intros [[x1 n]|] s1 [E1 P1]; [|apply wp_ret; split; assumption].
  injection P1 as <- <-. cbn [negb N.eqb]. eapply wp_post; [eapply get_tag_wp; [reflexivity|reflexivity|apply W]|].
  intros o s2 [E2 P2]. split; [cbv [same] in *; congruence|exact P2].
Qed.

Lemma gcm_decrypt_final_wp p x k iv t s : is_suite p -> x_enc x = false -> x_key x = Some k -> x_iv x = Some iv -> Nlen t = 16 ->
  wp (gcm_decrypt_final g fault p x t) s (fun r s' => same s s' /\
    match r with
    | Ok _ => t = g_tag g k iv (x_aad x) (x_text x)
    | Err e => (faulty fault /\ e = E_CRYPTO_UNKNOWN) \/ (e = E_BAD_CIPHERTEXT /\ (t <> g_tag g k iv (x_aad x) (x_text x) \/ ~ loud fault))
    end /\ (~ faulty fault -> t <> g_tag g k iv (x_aad x) (x_text x) -> r = Err E_BAD_CIPHERTEXT)).
Proof.
  intros S E K I L. destruct (suite_facts p S) as (_ & T & _). unfold gcm_decrypt_final. rewrite T.
  apply wp_bind. eapply wp_post; [apply (set_tag_wp x t); assumption|]. intros [x1|] s1 [E1 P1]; [|apply wp_ret; split; [exact E1|]; split; auto; contradiction].
  subst x1. apply wp_bind. unfold flush_errors, wp at 1. cbn beta iota.
  apply wp_bind. eapply wp_post; [apply (final_dec_wp _ k iv t); auto|]. cbn [x_aad x_text o_errs].
  intros [[x2 n]|] s2 [E2 P2].
  - destruct P2 as [-> P2]. cbn [negb N.eqb]. apply wp_ret. split; [cbv [same] in *; cbn in *; congruence|]. split; [exact P2|]. intros; contradiction.
  - apply wp_bind. unfold no_errors, wp at 1. cbn beta iota. apply wp_ret. split; [cbv [same] in *; cbn in *; congruence|]. split.
    + destruct P2 as [[NE EQ]|[F NL]].
      * rewrite EQ. right. auto.
      * destruct (o_errs s2); [|left; auto]. right. split; [reflexivity|]. right. intro LD. now apply NL.
    + intros NF NE. destruct P2 as [[_ EQ]|[F _]]; [|contradiction]. rewrite EQ. reflexivity.
Qed.

Ltac lv := cbv [same up] in *; cbn [o_live] in *; congruence.
Lemma ctx_free_up s0 s (Q : unit -> ssl -> Prop) : up s0 s -> (forall s', same s0 s' -> o_errs s' = o_errs s -> Q tt s') -> wp ctx_free s Q.
Proof. intros U K. eapply ctx_free_wp; [exact U|]. exact K. Qed.
Ltac free s0 := apply wp_bind; apply (ctx_free_up s0); [lv|]; let s := fresh "sf" in let L := fresh "LF" in intros s L _.

(** *** Headers *)
Lemma sign_header_with_wp p key iv header pre old s : is_suite p -> length key = 32%nat -> Nlen iv = 12 -> Nlen header < 2 ^ 31 ->
  wp (sign_header_with g fault p key iv header pre old) s (fun r s' => same s s' /\
    match fst r with
    | Ok _ => snd r = pre ++ g_tag g (content_key_of p key) iv header []
    | Err e => e = E_CRYPTO_UNKNOWN /\ snd r = pre ++ old /\ faulty fault
    end).
Proof.
  intros S K V H. unfold sign_header_with.
  apply wp_bind. eapply wp_post; [apply gcm_cipher_init_wp; [assumption..|lia]|]. intros [x|] s1; [|intros [E1 F1]; apply wp_ret; split; [exact E1|cbn [fst snd]; auto]].
  intros [E1 ->]. change 12%nat with (N.to_nat 12). rewrite firstn_Nlen by lia.
  apply wp_bind. eapply wp_post; [eapply update_aad_wp; [reflexivity..|exact H|reflexivity]|]. intros [x|] s2 [E2 P2].
  2: { free s. apply wp_ret. split; [lv|cbn [fst snd]; auto]. }
  subst x. apply wp_bind. eapply wp_post; [eapply gcm_encrypt_final_wp; [assumption|reflexivity..]|]. intros t s3 [E3 P3]. free s.
  destruct t as [t|]; apply wp_ret; (split; [lv|]); cbn [fst snd]; auto. rewrite <- P3. reflexivity.
Qed.
Lemma verify_header_with_wp p key iv tag header s : is_suite p -> length key = 32%nat -> 12 <= Nlen iv -> Nlen tag = 16 -> Nlen header < 2 ^ 31 ->
  wp (verify_header_with g fault p key iv tag header) s (fun r s' => same s s' /\
    match r with
    | Ok _ => tag = g_tag g (content_key_of p key) (firstn 12 iv) header []
    | Err e => (faulty fault /\ e = E_CRYPTO_UNKNOWN) \/
               (e = E_BAD_CIPHERTEXT /\ (tag <> g_tag g (content_key_of p key) (firstn 12 iv) header [] \/ ~ loud fault))
    end /\ (~ faulty fault -> tag <> g_tag g (content_key_of p key) (firstn 12 iv) header [] -> r = Err E_BAD_CIPHERTEXT)).
Proof.
  intros S K V T H. unfold verify_header_with.
  apply wp_bind. eapply wp_post; [apply gcm_cipher_init_wp; assumption|]. intros [x|] s1; [|intros [E1 F1]; apply wp_ret; split; [exact E1|split; [auto|contradiction]]].
  intros [E1 ->].
  apply wp_bind. eapply wp_post; [eapply update_aad_wp; [reflexivity..|exact H|reflexivity]|]. intros [x|] s2 [E2 P2].
  2: { free s. apply wp_ret. split; [lv|split; [auto|contradiction]]. }
  subst x. apply wp_bind. eapply wp_post; [eapply gcm_decrypt_final_wp; [assumption|reflexivity..|exact T]|]. intros r s3 [E3 P3]. free s.
  apply wp_ret. split; [lv|exact P3].
Qed.

(** *** Frames *)
Lemma Nlen_be k n : Nlen (be_bytes k n) = N.of_nat k.
Proof. unfold Nlen. f_equal. induction k; cbn; [reflexivity|]. rewrite IHk. reflexivity. Qed.
Lemma update_frame_aad_wp x k iv mid ty seqno size s : x_key x = Some k -> x_iv x = Some iv -> x_text x = [] -> x_aad x = [] -> Nlen mid < 2 ^ 31 ->
  wp (update_frame_aad fault x mid (frame_type_int ty) seqno size) s
     (okpost s (eq (mk_ectx (x_enc x) (x_keylen x) (x_ivlen x) (Some k) (Some iv) (frame_aad mid ty seqno size) [] (x_tag x)))).
Proof.
  intros HK HI HT HA HM. destruct x as [xe xk xl xy xi xa xt xg]. cbn [x_enc x_keylen x_ivlen x_key x_iv x_aad x_text x_tag] in *. subst.
  unfold update_frame_aad, frame_aad.
  destruct ty; cbn [frame_type_int aad_string];
    (apply wp_bind; eapply wp_post; [eapply update_aad_wp; [reflexivity..|exact HM|reflexivity]|]; intros [x|] s1 [E1 P1];
      [subst x|apply wp_ret; split; assumption];
    apply wp_bind; eapply wp_post; [eapply update_aad_wp; [reflexivity..|vm_compute; reflexivity|reflexivity]|]; intros [x|] s2 [E2 P2];
      [subst x|apply wp_ret; split; [lv|assumption]];
    apply wp_bind; eapply wp_post; [eapply update_aad_wp; [reflexivity..|vm_compute; reflexivity|rewrite Nlen_be; reflexivity]|]; intros [x|] s3 [E3 P3];
      [subst x|apply wp_ret; split; [lv|assumption]];
    eapply wp_post; [eapply update_aad_wp; [reflexivity..|vm_compute; reflexivity|rewrite Nlen_app', !Nlen_be; reflexivity]|]; intros o s4 [E4 P4];
    (split; [lv|]); destruct o; [|exact P4]; rewrite <- P4; cbn [x_enc x_keylen x_ivlen x_aad x_tag app]; rewrite <- !app_assoc; reflexivity).
Qed.

Lemma piece_facts inc : inc <> [] -> 1 <= piece inc /\ piece inc <= Nlen inc /\ piece inc < 2 ^ 31.
Proof.
  intro H. assert (1 <= Nlen inc) by (destruct inc; [congruence|unfold Nlen; cbn [length]; lia]).
  unfold piece, INT_MAX. destruct (N.ltb_spec (2 ^ 31 - 1) (Nlen inc)); lia.
Qed.
Lemma body_loop_wp check k iv fuel : forall x ob inc s, (length inc <= fuel)%nat ->
  x_key x = Some k -> x_iv x = Some iv -> b_cap ob < two64 -> b_len ob + Nlen inc = b_cap ob ->
  wp (body_loop g fault check fuel x ob inc) s (fun r s' => same s s' /\ length (fst r) = length (b_mem ob) /\
    match snd r with
    | None => faulty fault
    | Some (x', len') =>
        let out := xor_from (g_stream g k iv) (Nlen (x_text x)) inc in
        fst r = firstn (N.to_nat (b_len ob)) (b_mem ob) ++ out /\ len' = b_cap ob /\
        x' = mk_ectx (x_enc x) (x_keylen x) (x_ivlen x) (Some k) (Some iv) (x_aad x) (x_text x ++ if x_enc x then out else inc) (x_tag x)
    end).
Proof.
  induction fuel as [|fuel IH]; intros x ob inc s HF HK HI HC HL.
  - destruct inc; [|cbn in HF; lia]. apply wp_ret. split; [reflexivity|]. split; [reflexivity|]. cbn [snd fst xor_from].
    change (Nlen []) with 0 in HL. rewrite app_nil_r, firstn_Nlen by (fold (b_cap ob); lia). split; [reflexivity|]. split; [lia|].
    destruct x as [xe xk xl xy xi xa xt xg]. cbn in *. subst. f_equal. destruct xe; rewrite app_nil_r; reflexivity.
  - destruct inc as [|c inc'].
    { apply wp_ret. split; [reflexivity|]. split; [reflexivity|]. cbn [snd fst xor_from].
      change (Nlen []) with 0 in HL. rewrite app_nil_r, firstn_Nlen by (fold (b_cap ob); lia). split; [reflexivity|]. split; [lia|].
      destruct x as [xe xk xl xy xi xa xt xg]. cbn in *. subst. f_equal. destruct xe; rewrite app_nil_r; reflexivity. }
    cbn [body_loop]. remember (c :: inc') as inc eqn:EI. assert (NI : inc <> []) by (subst; discriminate). clear EI.
    destruct (piece_facts inc NI) as (P1 & P2 & P3).
    assert (CK : check && negb (Nlen inc =? sub64 (b_cap ob) (b_len ob)) = false).
    { unfold sub64, two64 in *. replace (b_cap ob + 2 ^ 64 - b_len ob) with (Nlen inc + 1 * 2 ^ 64) by lia.
      rewrite N.mod_add by discriminate. rewrite N.mod_small by lia. rewrite N.eqb_refl. apply Bool.andb_false_r. }
    rewrite CK. unfold b_cap in *.
    apply wp_bind. eapply wp_post; [apply (update_text_wp x k iv); [assumption..|lia]|]. intros [[[x1 mem] n]|] s1 [E1 PO].
    2: { apply wp_ret. split; [exact E1|]. split; [reflexivity|exact PO]. }
    injection PO as <- <- <-.
    set (d := firstn (N.to_nat (piece inc)) inc). set (out := xor_from (g_stream g k iv) (Nlen (x_text x)) d).
    assert (LD : Nlen d = piece inc) by (unfold d; rewrite Nlen_firstn; lia).
    assert (LO : Nlen out = piece inc) by (unfold out; rewrite xor_Nlen; exact LD).
    set (mem := firstn (N.to_nat (b_len ob)) (b_mem ob) ++ out ++ skipn (N.to_nat (b_len ob + piece inc)) (b_mem ob)).
    assert (LM : Nlen mem = Nlen (b_mem ob)) by (unfold mem; rewrite !Nlen_app', Nlen_firstn, Nlen_skipn, LO; lia).
    destruct (N.leb_spec two64 (b_len ob + piece inc)); [lia|]. destruct (N.ltb_spec (Nlen mem) (b_len ob + piece inc)); [lia|].
    eapply wp_post; [apply IH; [|reflexivity|reflexivity|cbn [b_cap b_mem]; unfold b_cap; cbn [b_mem]; lia|unfold b_cap; cbn [b_mem b_len]; rewrite Nlen_skipn; lia]|].
    { rewrite skipn_length. unfold Nlen in *. lia. }
    intros [m' o'] s2 (E2 & L2 & P4). cbn [fst snd b_mem b_len x_text x_enc x_keylen x_ivlen x_aad x_tag] in *. unfold b_cap in P4. cbn [b_mem] in P4.
    split; [lv|]. split; [unfold Nlen in LM; lia|]. destruct o' as [[x' len']|]; [|exact P4]. destruct P4 as (M1 & M2 & M3).
    assert (SP : inc = d ++ skipn (N.to_nat (piece inc)) inc) by (symmetry; apply firstn_skipn).
    assert (TL : Nlen (x_text x ++ (if x_enc x then out else d)) = Nlen (x_text x) + piece inc)
      by (rewrite Nlen_app'; destruct (x_enc x); lia).
    assert (XO : xor_from (g_stream g k iv) (Nlen (x_text x)) inc =
                 out ++ xor_from (g_stream g k iv) (Nlen (x_text x) + piece inc) (skipn (N.to_nat (piece inc)) inc)).
    { rewrite SP at 1. rewrite xor_app, LD. reflexivity. }
    rewrite TL in M1, M3. split; [|split].
    + rewrite M1, XO, app_assoc. f_equal. unfold mem. rewrite app_assoc, firstn_app.
      assert (LA : length (firstn (N.to_nat (b_len ob)) (b_mem ob) ++ out) = N.to_nat (b_len ob + piece inc)).
      { assert (Nlen (firstn (N.to_nat (b_len ob)) (b_mem ob) ++ out) = b_len ob + piece inc) by (rewrite Nlen_app', Nlen_firstn; lia).
        unfold Nlen in *; lia. }
      rewrite LA, Nat.sub_diag, firstn_O, app_nil_r. apply firstn_all2. lia.
    + lia.
    + rewrite M3. f_equal. rewrite <- app_assoc. f_equal. destruct (x_enc x); [rewrite XO; reflexivity|]. symmetry. exact SP.
Qed.

Lemma cleared_zero b m l : length m = length (b_mem b) -> cleared b (buf_zero (mk_buf m l)).
Proof.
  intro H. unfold cleared, buf_zero, b_cap, zeros, Nlen. cbn [b_len b_mem]. rewrite Nat2N.id, repeat_length. split; [reflexivity|]. split; [exact H|].
  apply Forall_forall. intros x I. apply repeat_spec in I. exact I.
Qed.

Lemma encrypt_body_wp p outp inp mid seqno key ty s :
  is_suite p -> length key = 32%nat -> seqno < 2 ^ 32 -> Nlen inp < 2 ^ 64 -> Nlen mid < 2 ^ 31 -> b_len outp <= b_cap outp ->
  wp (encrypt_body g fault p outp inp mid seqno key (frame_type_int ty)) s (fun r s' => same s s' /\
    match sl_rc r with
    | Ok _ => exists ct tag, sl_out r = mk_buf ct (Nlen ct) /\ sl_iv r = Some (msg_iv seqno) /\ sl_tag r = Some tag /\ seqno <> 0 /\ Nlen inp = b_cap outp /\
                gcm_sealed g (content_key_of p key) (msg_iv seqno) (body_aad mid ty seqno (Nlen inp)) inp ct tag
    | Err e => sl_tag r = None /\
        ((sl_out r = outp /\ sl_iv r = None /\ ((e = E_SHORT_BUFFER /\ Nlen inp <> b_cap outp) \/ (e = E_CRYPTO_UNKNOWN /\ Nlen inp = b_cap outp /\ seqno = 0))) \/
         (e = E_CRYPTO_UNKNOWN /\ Nlen inp = b_cap outp /\ seqno <> 0 /\ cleared outp (sl_out r) /\ (faulty fault \/ b_len outp <> 0)))
    end).
Proof.
  intros S K SQ SI SM SL. destruct (suite_facts p S) as (IV & TL & _). unfold encrypt_body.
  destruct (N.eqb_spec (Nlen inp) (b_cap outp)) as [EC|NC]; cbn [negb].
  2: { apply wp_ret. split; [reflexivity|]. cbn. auto 7. }
  destruct (N.eqb_spec seqno 0) as [->|NZ]; [apply wp_ret; split; [reflexivity|]; cbn; auto 8|].
  rewrite IV. cbn [N.ltb N.compare].
  assert (EV : zeros (12 - 8) ++ be_bytes 8 seqno = msg_iv seqno).
  { rewrite <- (frame_iv_spec p seqno); [unfold frame_iv; rewrite IV; reflexivity|split; assumption|lia]. }
  rewrite EV.
  apply wp_bind. eapply wp_post; [apply gcm_cipher_init_wp; [assumption..|rewrite Nlen_msg_iv; lia]|]. intros [x|] s1.
  2: { intros [E1 F1]. apply wp_ret. split; [exact E1|]. cbn [sl_rc sl_tag sl_out]. split; [reflexivity|]. right. split; [reflexivity|]. split; [exact EC|]. split; [exact NZ|]. split; [apply cleared_zero; reflexivity|auto]. }
  intros [E1 ->]. change 12%nat with (N.to_nat 12). rewrite firstn_Nlen by (rewrite Nlen_msg_iv; lia).
  apply wp_bind. eapply wp_post; [eapply update_frame_aad_wp; [reflexivity..|exact SM]|]. intros [x|] s2 [E2 P2].
  2: { free s. apply wp_ret. split; [lv|]. cbn [sl_rc sl_tag sl_out]. split; [reflexivity|]. right. split; [reflexivity|]. split; [exact EC|]. split; [exact NZ|]. split; [apply cleared_zero; reflexivity|auto]. }
  subst x. cbn [x_enc x_keylen x_ivlen x_tag].
  destruct (N.eqb_spec (b_len outp) 0) as [LZ|LN].
  - apply wp_bind. eapply wp_post; [eapply body_loop_wp; [reflexivity|reflexivity|reflexivity|unfold two64; lia|lia]|].
    intros [mem o] s3 (E3 & L3 & P3). cbn [fst snd x_enc x_keylen x_ivlen x_tag x_aad x_text app] in *. destruct o as [[x len]|].
    2: { free s. apply wp_ret. split; [lv|]. cbn [sl_rc sl_tag sl_out]. split; [reflexivity|]. right. split; [reflexivity|]. split; [exact EC|]. split; [exact NZ|]. split; [apply cleared_zero; exact L3|auto]. }
    destruct P3 as (M1 & -> & ->). rewrite LZ in M1. cbn [N.to_nat firstn app] in M1. change (Nlen []) with 0 in *.
    apply wp_bind. eapply wp_post; [eapply gcm_encrypt_final_wp; [assumption|reflexivity..]|]. cbn [x_aad x_text]. intros t s4 [E4 P4]. free s.
    destruct t as [t|].
    2: { apply wp_ret. split; [lv|]. cbn [sl_rc sl_tag sl_out]. split; [reflexivity|]. right. split; [reflexivity|]. split; [exact EC|]. split; [exact NZ|]. split; [apply cleared_zero; exact L3|auto]. }
    apply wp_ret. split; [lv|]. cbn [sl_rc sl_tag sl_out sl_iv]. exists mem, t. split; [|split; [reflexivity|split; [reflexivity|split; [exact NZ|split; [exact EC|]]]]].
    + f_equal. unfold b_cap, Nlen. lia.
    + rewrite <- P4, M1. rewrite frame_aad_spec by lia. split; [apply streamed_xor|reflexivity].
  - destruct inp as [|c inp'].
    { change (Nlen []) with 0 in EC. exfalso. lia. }
    apply wp_bind. eapply wp_post with (P := fun r s' => same s2 s' /\ r = (b_mem outp, None)).
    { cbn [length body_loop].
      destruct (N.eqb_spec (Nlen (c :: inp')) (sub64 (b_cap outp) (b_len outp))) as [EQ|NE]; cbn [andb negb]; [|apply wp_ret; split; reflexivity].
      exfalso. unfold sub64, two64 in EQ. revert EQ. replace (b_cap outp + 2 ^ 64 - b_len outp) with ((b_cap outp - b_len outp) + 1 * 2 ^ 64) by lia.
      rewrite N.mod_add by discriminate. rewrite N.mod_small by lia. lia. }
    intros r s3 [E3 ->]. free s. apply wp_ret. split; [lv|]. cbn [sl_rc sl_tag sl_out]. split; [reflexivity|]. right. split; [reflexivity|]. split; [exact EC|]. split; [exact NZ|]. split; [apply cleared_zero; reflexivity|auto].
Qed.

Lemma decrypt_body_wp p outp inp mid seqno iv key tag ty s :
  is_suite p -> length key = 32%nat -> seqno < 2 ^ 32 -> b_cap outp < 2 ^ 64 -> Nlen mid < 2 ^ 31 -> b_len outp <= b_cap outp ->
  Nlen inp < 2 ^ 64 -> Nlen iv = 12 -> Nlen tag = 16 ->
  let ok := tag = g_tag g (content_key_of p key) iv (body_aad mid ty seqno (Nlen inp)) inp in
  let fits := b_len outp + Nlen inp = b_cap outp in
  wp (decrypt_body g fault p outp inp mid seqno iv key tag (frame_type_int ty)) s (fun r s' => same s s' /\
    (match fst r with
    | Ok _ => exists pt, snd r = mk_buf (firstn (N.to_nat (b_len outp)) (b_mem outp) ++ pt) (b_cap outp) /\ fits /\
                gcm_sealed g (content_key_of p key) iv (body_aad mid ty seqno (Nlen inp)) pt inp tag
    | Err e => (e = E_SHORT_BUFFER /\ snd r = outp /\ ~ fits) \/
               (fits /\ cleared outp (snd r) /\
                ((faulty fault /\ e = E_CRYPTO_UNKNOWN) \/ (e = E_BAD_CIPHERTEXT /\ (~ ok \/ ~ loud fault))))
    end) /\ (~ faulty fault -> fits -> ~ ok -> fst r = Err E_BAD_CIPHERTEXT)).
Proof.
  intros S K SQ SC SM SL SI VI VT ok fits. unfold decrypt_body.
  assert (EF : Nlen inp = sub64 (b_cap outp) (b_len outp) <-> fits).
  { unfold fits, sub64, two64. replace (b_cap outp + 2 ^ 64 - b_len outp) with ((b_cap outp - b_len outp) + 1 * 2 ^ 64) by lia.
    rewrite N.mod_add by discriminate. rewrite N.mod_small by lia. lia. }
  destruct (N.eqb_spec (Nlen inp) (sub64 (b_cap outp) (b_len outp))) as [EC|NC]; cbn [negb].
  2: { apply wp_ret. split; [reflexivity|]. cbn [fst snd]. split; [left; tauto|tauto]. }
  assert (F : fits) by tauto. clear EF EC.
  apply wp_bind. eapply wp_post; [apply gcm_cipher_init_wp; [assumption..|lia]|]. intros [x|] s1.
  2: { intros [E1 F1]. apply wp_ret. split; [exact E1|]. cbn [fst snd]. split; [|tauto]. right. split; [exact F|]. split; [apply cleared_zero; reflexivity|auto]. }
  intros [E1 ->]. change 12%nat with (N.to_nat 12). rewrite firstn_Nlen by lia.
  apply wp_bind. eapply wp_post; [eapply update_frame_aad_wp; [reflexivity..|exact SM]|]. intros [x|] s2 [E2 P2].
  2: { free s. apply wp_ret. split; [lv|]. cbn [fst snd]. split; [|tauto]. right. split; [exact F|]. split; [apply cleared_zero; reflexivity|auto]. }
  subst x. cbn [x_enc x_keylen x_ivlen x_tag].
  apply wp_bind. eapply wp_post; [eapply body_loop_wp; [reflexivity|reflexivity|reflexivity|unfold two64; lia|exact F]|].
  intros [mem o] s3 (E3 & L3 & P3). cbn [fst snd x_enc x_keylen x_ivlen x_tag x_aad x_text app] in *. destruct o as [[x len]|].
  2: { free s. apply wp_ret. split; [lv|]. cbn [fst snd]. split; [|tauto]. right. split; [exact F|]. split; [apply cleared_zero; exact L3|auto]. }
  destruct P3 as (M1 & -> & ->). change (Nlen []) with 0 in *.
  apply wp_bind. eapply wp_post; [eapply gcm_decrypt_final_wp; [assumption|reflexivity..|exact VT]|]. cbn [x_aad x_text].
  rewrite frame_aad_spec by lia. fold ok. intros r s4 (E4 & P4 & P5). free s. destruct r as [[]|e]; apply wp_ret; (split; [lv|]); cbn [fst snd].
  - split; [|intros; contradiction]. eexists. split; [f_equal; exact M1|]. split; [exact F|]. split; [apply streamed_sym, streamed_xor|exact P4].
  - split; [|auto]. right. split; [exact F|]. split; [apply cleared_zero; exact L3|exact P4].
Qed.

(** *** Data keys *)
Lemma key_size_spec n : alg_from_key_size n = if (n =? 16) || (n =? 24) || (n =? 32) then Some n else None.
Proof. reflexivity. Qed.
Lemma opt_aad_wp x k iv aad s : x_key x = Some k -> x_iv x = Some iv -> x_text x = [] -> x_aad x = [] -> Nlen aad < 2 ^ 31 ->
  wp (match aad with [] => ret (Some x) | _ => update_aad fault x aad (Nlen aad) end) s
     (okpost s (eq (mk_ectx (x_enc x) (x_keylen x) (x_ivlen x) (Some k) (Some iv) aad [] (x_tag x)))).
Proof.
  intros HK HI HT HA HL. destruct aad as [|c aad].
  - apply wp_ret. split; [reflexivity|]. destruct x. cbn in *. subst. reflexivity.
  - eapply wp_post; [eapply update_aad_wp; [exact HK|exact HI|exact HT|exact HL|reflexivity]|]. rewrite HA. auto.
Qed.

Lemma put_start m d : Nlen d <= Nlen m -> put m 0 d = Some (d ++ skipn (length d) m).
Proof. intro H. rewrite put_fits by lia. cbn [N.to_nat firstn app]. rewrite N.add_0_l. unfold Nlen. rewrite Nat2N.id. reflexivity. Qed.

Lemma aes_gcm_encrypt_wp cipher tag plain iv aad key s : Nlen plain < 2 ^ 31 -> Nlen aad < 2 ^ 31 ->
  let args := (Nlen key = 16 \/ Nlen key = 24 \/ Nlen key = 32) /\ Nlen iv = 12 /\ 16 <= b_cap tag /\ Nlen plain <= b_cap cipher in
  wp (aes_gcm_encrypt g fault cipher tag plain iv aad key) s (fun r s' => same s s' /\
    match fst (fst r) with
    | Ok _ => args /\ exists ct t, gcm_sealed g key iv aad plain ct t /\
        snd (fst r) = mk_buf (ct ++ skipn (length plain) (b_mem cipher)) (Nlen plain) /\ snd r = mk_buf (t ++ skipn 16 (b_mem tag)) 16
    | Err e => (e = E_INVALID_BUFFER_SIZE /\ ~ args /\ snd (fst r) = cipher /\ snd r = tag) \/
               (args /\ e = E_CRYPTO_UNKNOWN /\ cleared cipher (snd (fst r)) /\ cleared tag (snd r) /\ o_errs s' = [] /\ faulty fault)
    end).
Proof.
  intros SP SA args. unfold aes_gcm_encrypt. rewrite key_size_spec.
  destruct ((Nlen key =? 16) || (Nlen key =? 24) || (Nlen key =? 32)) eqn:EK; [|apply wp_ret; split; [reflexivity|]; cbn [fst snd]; left; split; [reflexivity|split; [unfold args; lia|auto]]].
  destruct (negb (Nlen iv =? 12) || (b_cap tag <? 16) || (b_cap cipher <? Nlen plain)) eqn:EA;
    [apply wp_ret; split; [reflexivity|]; cbn [fst snd]; left; split; [reflexivity|split; [unfold args; lia|auto]]|].
  assert (A : args) by (unfold args; lia). destruct A as (A1 & A2 & A3 & A4).
  assert (BAD : forall m t s1, same s s1 -> faulty fault -> length m = length (b_mem cipher) -> length t = length (b_mem tag) ->
    wp (let! _ := flush_errors in ret (@Err unit E_CRYPTO_UNKNOWN, buf_zero (mk_buf m 0), buf_zero (mk_buf t 0))) s1 (fun r s' => same s s' /\
    match fst (fst r) with
    | Ok _ => args /\ exists ct t, gcm_sealed g key iv aad plain ct t /\
        snd (fst r) = mk_buf (ct ++ skipn (length plain) (b_mem cipher)) (Nlen plain) /\ snd r = mk_buf (t ++ skipn 16 (b_mem tag)) 16
    | Err e => (e = E_INVALID_BUFFER_SIZE /\ ~ args /\ snd (fst r) = cipher /\ snd r = tag) \/
               (args /\ e = E_CRYPTO_UNKNOWN /\ cleared cipher (snd (fst r)) /\ cleared tag (snd r) /\ o_errs s' = [] /\ faulty fault)
    end)).
  { intros m t s1 E1 F L1 L2. apply wp_bind. unfold flush_errors, wp at 1. cbn beta iota. apply wp_ret. split; [exact E1|]. cbn [fst snd o_errs].
    right. split; [exact (conj A1 (conj A2 (conj A3 A4)))|]. split; [reflexivity|]. split; [apply cleared_zero; exact L1|]. split; [apply cleared_zero; exact L2|]. auto. }
  unfold ctx_new. apply wp_bind, wp_bind, call_wp; [intros F s1 E1 _; apply wp_ret; apply BAD; auto|]. intros s1 E1 _.
  apply wp_bind. unfold live at 1, wp at 1. cbn beta iota. apply wp_ret.
  match goal with |- wp _ ?s1' _ => assert (U1 : up s s1') by (cbv [up same] in *; cbn; congruence); set (su := s1') in *; clearbody su end.
  apply wp_bind. eapply wp_post; [apply init_all_wp; lia|]. intros [x|] s2 [E2 P2]; [|free s; apply BAD; auto].
  subst x. apply wp_bind. eapply wp_post; [eapply opt_aad_wp; [reflexivity..|exact SA]|]. intros [x|] s3 [E3 P3]; [|free s; apply BAD; auto].
  subst x. cbn [x_enc x_keylen x_ivlen x_tag]. change 12%nat with (N.to_nat 12). rewrite (firstn_Nlen iv) by lia. rewrite (firstn_Nlen key) by lia.
  apply wp_bind. eapply wp_post; [eapply update_text_wp; [reflexivity|reflexivity|exact SP|unfold b_cap in *; lia..]|]. cbn [x_enc x_keylen x_ivlen x_tag x_aad x_text app].
  change (Nlen []) with 0. rewrite (firstn_Nlen plain) by lia. cbn [N.to_nat firstn app]. rewrite N.add_0_l.
  intros [[[x mem] n]|] s4 [E4 P4]; [|free s; apply BAD; auto]. injection P4 as <- <- <-.
  set (ct := xor_from (g_stream g key iv) 0 plain).
  assert (LM : length (ct ++ skipn (N.to_nat (Nlen plain)) (b_mem cipher)) = length (b_mem cipher)).
  { rewrite app_length, skipn_length. unfold ct. rewrite xor_length. unfold b_cap, Nlen in *. lia. }
  apply wp_bind. eapply wp_post; [eapply final_enc_wp; reflexivity|]. cbn [x_keylen x_ivlen x_aad x_text]. intros [[x n]|] s5 [E5 P5]; [|free s; apply BAD; auto].
  injection P5 as <- <-.
  apply wp_bind. eapply wp_post; [eapply get_tag_wp; [reflexivity|reflexivity|apply W]|]. intros [t|] s6 [E6 P6]; [|free s; apply BAD; auto].
  subst t. rewrite put_start by (rewrite W; exact A3). rewrite N.add_0_r, N.eqb_refl. cbn [negb]. free s. apply wp_ret. split; [lv|]. cbn [fst snd].
  split; [exact (conj A1 (conj A2 (conj A3 A4)))|]. exists ct, (g_tag g key iv aad ct). split; [split; [apply streamed_xor|reflexivity]|].
  split; [unfold Nlen at 1; rewrite Nat2N.id; reflexivity|]. pose proof (W key iv aad ct) as L16. unfold Nlen in L16.
  replace (length (g_tag g key iv aad ct)) with 16%nat by lia. reflexivity.
Qed.

Lemma aes_gcm_decrypt_wp plain cipher tag iv aad key s : Nlen cipher < 2 ^ 31 -> Nlen aad < 2 ^ 31 ->
  let args := (Nlen key = 16 \/ Nlen key = 24 \/ Nlen key = 32) /\ Nlen iv = 12 /\ Nlen tag = 16 /\ Nlen cipher <= b_cap plain in
  let ok := tag = g_tag g key iv aad cipher in
  wp (aes_gcm_decrypt g fault plain cipher tag iv aad key) s (fun r s' => same s s' /\
    match fst r with
    | Ok _ => args /\ exists pt, gcm_sealed g key iv aad pt cipher tag /\ snd r = mk_buf (pt ++ skipn (length cipher) (b_mem plain)) (Nlen cipher)
    | Err e => (e = E_INVALID_BUFFER_SIZE /\ ~ args /\ snd r = plain) \/
               (args /\ cleared plain (snd r) /\ o_errs s' = [] /\
                ((faulty fault /\ e = E_CRYPTO_UNKNOWN) \/ (e = E_BAD_CIPHERTEXT /\ (~ ok \/ ~ loud fault))))
    end /\ (~ faulty fault -> args -> ~ ok -> fst r = Err E_BAD_CIPHERTEXT)).
Proof.
  intros SP SA args ok. unfold aes_gcm_decrypt. rewrite key_size_spec.
  destruct ((Nlen key =? 16) || (Nlen key =? 24) || (Nlen key =? 32)) eqn:EK;
    [|apply wp_ret; split; [reflexivity|]; cbn [fst snd]; split; [left; split; [reflexivity|split; [unfold args; lia|auto]]|unfold args; lia]].
  destruct (negb (Nlen iv =? 12) || negb (Nlen tag =? 16) || (b_cap plain <? Nlen cipher)) eqn:EA;
    [apply wp_ret; split; [reflexivity|]; cbn [fst snd]; split; [left; split; [reflexivity|split; [unfold args; lia|auto]]|unfold args; lia]|].
  assert (A : args) by (unfold args; lia). pose proof A as (A1 & A2 & A3 & A4).
  assert (BAD : forall m s1, same s s1 -> faulty fault -> length m = length (b_mem plain) ->
    wp (let! _ := flush_errors in ret (@Err unit E_CRYPTO_UNKNOWN, buf_zero (mk_buf m 0))) s1 (fun r s' => same s s' /\
    match fst r with
    | Ok _ => args /\ exists pt, gcm_sealed g key iv aad pt cipher tag /\ snd r = mk_buf (pt ++ skipn (length cipher) (b_mem plain)) (Nlen cipher)
    | Err e => (e = E_INVALID_BUFFER_SIZE /\ ~ args /\ snd r = plain) \/
               (args /\ cleared plain (snd r) /\ o_errs s' = [] /\
                ((faulty fault /\ e = E_CRYPTO_UNKNOWN) \/ (e = E_BAD_CIPHERTEXT /\ (~ ok \/ ~ loud fault))))
    end /\ (~ faulty fault -> args -> ~ ok -> fst r = Err E_BAD_CIPHERTEXT))).
  { intros m s1 E1 F L1. apply wp_bind. unfold flush_errors, wp at 1. cbn beta iota. apply wp_ret. split; [exact E1|]. cbn [fst snd o_errs].
    split; [|contradiction]. right. split; [exact A|]. split; [apply cleared_zero; exact L1|]. auto. }
  unfold ctx_new. apply wp_bind, wp_bind, call_wp; [intros F s1 E1 _; apply wp_ret; apply BAD; auto|]. intros s1 E1 _.
  apply wp_bind. unfold live at 1, wp at 1. cbn beta iota. apply wp_ret.
  match goal with |- wp _ ?s1' _ => assert (U1 : up s s1') by (cbv [up same] in *; cbn; congruence); set (su := s1') in *; clearbody su end.
  apply wp_bind. eapply wp_post; [apply init_all_wp; lia|]. intros [x|] s2 [E2 P2]; [|free s; apply BAD; auto].
  subst x. rewrite A3. apply wp_bind. eapply wp_post; [eapply set_tag_wp; [reflexivity|exact A3]|]. intros [x|] s3 [E3 P3]; [|free s; apply BAD; auto].
  subst x. cbn [x_enc x_keylen x_ivlen x_tag x_key x_iv x_aad x_text]. change 12%nat with (N.to_nat 12). rewrite (firstn_Nlen iv) by lia. rewrite (firstn_Nlen key) by lia.
  apply wp_bind. eapply wp_post; [eapply opt_aad_wp; [reflexivity..|exact SA]|]. intros [x|] s4 [E4 P4]; [|free s; apply BAD; auto].
  subst x. cbn [x_enc x_keylen x_ivlen x_tag].
  apply wp_bind. eapply wp_post; [eapply update_text_wp; [reflexivity|reflexivity|exact SP|unfold b_cap in *; lia..]|]. cbn [x_enc x_keylen x_ivlen x_tag x_aad x_text app].
  change (Nlen []) with 0. rewrite (firstn_Nlen cipher) by lia. cbn [N.to_nat firstn app]. rewrite N.add_0_l.
  intros [[[x mem] n]|] s5 [E5 P5]; [|free s; apply BAD; auto]. injection P5 as <- <- <-.
  set (pt := xor_from (g_stream g key iv) 0 cipher).
  assert (LM : length (pt ++ skipn (N.to_nat (Nlen cipher)) (b_mem plain)) = length (b_mem plain)).
  { rewrite app_length, skipn_length. unfold pt. rewrite xor_length. unfold b_cap, Nlen in *. lia. }
  apply wp_bind. unfold flush_errors at 1, wp at 1. cbn beta iota.
  match goal with |- wp _ ?s1' _ => assert (U2 : up s s1') by (cbv [up same] in *; cbn; congruence) end.
  apply wp_bind. eapply wp_post; [eapply final_dec_wp; [reflexivity|reflexivity|reflexivity|reflexivity|exact A3]|]. cbn [x_aad x_text o_errs].
  intros [[x n]|] s6 [E6 P6].
  - destruct P6 as [-> P6]. free s. rewrite N.add_0_r, N.eqb_refl. cbn [negb]. apply wp_ret. split; [lv|]. cbn [fst snd]. split; [|intros; contradiction].
    split; [exact A|]. exists pt. split; [split; [apply streamed_sym, streamed_xor|exact P6]|]. unfold Nlen at 1. rewrite Nat2N.id. reflexivity.
  - apply wp_bind. unfold no_errors, wp at 1. cbn beta iota. apply wp_bind. apply (ctx_free_up s); [lv|]. intros sf LF EF.
    destruct P6 as [[NE EQ]|[F NL]].
    + rewrite EQ. apply wp_ret. split; [exact LF|]. cbn [fst snd]. split; [|reflexivity]. right. split; [exact A|]. split; [apply cleared_zero; exact LM|].
      split; [congruence|]. right. auto.
    + destruct (o_errs s6) eqn:E0; [|apply BAD; auto]. apply wp_ret. split; [exact LF|]. cbn [fst snd]. split; [|contradiction].
      right. split; [exact A|]. split; [apply cleared_zero; exact LM|]. split; [congruence|]. right. split; [reflexivity|]. right. intro LD. now apply NL.
Qed.

(** *** Headers *)
Lemma zeros_iv : zeros 12 = msg_iv 0. Proof. reflexivity. Qed.
Lemma sign_header_wp p key authtag header s : is_suite p -> length key = 32%nat -> Nlen header < 2 ^ 31 ->
  wp (sign_header g fault p key authtag header) s (fun r s' => same s s' /\
    match fst r with
    | Ok _ => Nlen authtag = auth_len p /\ auth_field p (msg_iv 0) (g_tag g (content_key_of p key) (msg_iv 0) header []) (snd r)
    | Err e => (e = E_BAD_CIPHERTEXT /\ Nlen authtag <> auth_len p /\ snd r = authtag) \/
               (e = E_CRYPTO_UNKNOWN /\ Nlen authtag = auth_len p /\ faulty fault /\ length (snd r) = length authtag)
    end).
Proof.
  intros S K H. destruct (suite_facts p S) as (IV & TL & _ & _ & VV). unfold sign_header, auth_len, auth_field. rewrite IV, TL.
  destruct VV as [V|V]; rewrite V; cbn [N.eqb Pos.eqb].
  - change (HEADER_VERSION_1_0 =? 1) with true. change (HEADER_VERSION_1_0 =? HEADER_VERSION_1_0) with true. cbn iota.
    destruct (N.eqb_spec (Nlen authtag) (12 + 16)) as [E|E]; cbn [negb]; [|apply wp_ret; split; [reflexivity|]; cbn [fst snd]; auto].
    rewrite zeros_iv. eapply wp_post; [apply sign_header_with_wp; [assumption..|apply Nlen_msg_iv|assumption]|]. intros [[[]|e] t] s' [E1 P]; (split; [exact E1|]); cbn [fst snd] in *.
    + split; [exact E|]. left. split; [reflexivity|]. split; [exact P|reflexivity].
    + right. destruct P as (-> & -> & F). repeat split; auto. rewrite app_length, skipn_length. change (length (msg_iv 0)) with 12%nat. unfold Nlen in E. lia.
  - change (HEADER_VERSION_2_0 =? 1) with false. change (HEADER_VERSION_2_0 =? HEADER_VERSION_1_0) with false. change (HEADER_VERSION_2_0 =? HEADER_VERSION_2_0) with true. cbn iota.
    destruct (N.eqb_spec (Nlen authtag) 16) as [E|E]; cbn [negb]; [|apply wp_ret; split; [reflexivity|]; cbn [fst snd]; auto].
    rewrite zeros_iv. eapply wp_post; [apply sign_header_with_wp; [assumption..|apply Nlen_msg_iv|assumption]|]. intros [[[]|e] t] s' [E1 P]; (split; [exact E1|]); cbn [fst snd] in *.
    + split; [exact E|]. right. split; [reflexivity|]. split; [exact P|reflexivity].
    + right. destruct P as (-> & -> & F). repeat split; auto.
Qed.
Lemma verify_header_wp p key authtag header s : is_suite p -> length key = 32%nat -> Nlen header < 2 ^ 31 ->
  let ok := exists iv, auth_field p iv (g_tag g (content_key_of p key) iv header []) authtag in
  wp (verify_header g fault p key authtag header) s (fun r s' => same s s' /\
    match r with
    | Ok _ => ok
    | Err e => (e = E_CRYPTO_UNKNOWN /\ faulty fault) \/ (e = E_BAD_CIPHERTEXT /\ (~ ok \/ ~ loud fault))
    end /\ (~ faulty fault -> ~ ok -> r = Err E_BAD_CIPHERTEXT)).
Proof.
  intros S K H ok. destruct (suite_facts p S) as (IV & TL & _ & _ & VV). unfold verify_header. rewrite IV, TL. unfold auth_field in ok.
  destruct VV as [V|V]; rewrite V; cbn [N.eqb Pos.eqb].
  - change (HEADER_VERSION_1_0 =? HEADER_VERSION_1_0) with true. cbn iota.
    destruct (N.eqb_spec (Nlen authtag) (12 + 16)) as [E|E]; cbn [negb].
    2: { assert (NO : ~ ok). { intros (iv & [(_ & -> & L)|(X & _)]); [|rewrite V in X; discriminate X]. apply E. rewrite Nlen_app', L, W. reflexivity. } apply wp_ret; split; [reflexivity|]; auto. }
    assert (LI : 12 <= Nlen authtag) by lia. assert (LT : Nlen (skipn (N.to_nat 12) authtag) = 16) by (rewrite Nlen_skipn; lia).
    assert (OK : ok <-> skipn (N.to_nat 12) authtag = g_tag g (content_key_of p key) (firstn 12 authtag) header []).
    { split.
      - intros (iv & [(_ & -> & L)|(X & _)]); [|rewrite V in X; discriminate X]. change (N.to_nat 12) with 12%nat. assert (LN : length iv = 12%nat) by (unfold Nlen in L; lia). rewrite <- LN.
        rewrite skipn_app, firstn_app, firstn_all, skipn_all, Nat.sub_diag. cbn [app skipn firstn]. rewrite app_nil_r. reflexivity.
      - intro Q. exists (firstn 12 authtag). left. split; [exact V|]. rewrite <- Q. change (N.to_nat 12) with 12%nat. rewrite firstn_skipn. split; [reflexivity|].
        change 12%nat with (N.to_nat 12). rewrite Nlen_firstn. lia. }
    eapply wp_post; [apply verify_header_with_wp; [assumption..]|]. intros r s' (E1 & P & P2). split; [exact E1|]. split.
    + destruct r as [[]|e]; [apply OK; exact P|]. destruct P as [[F ->]|[-> [N|N]]]; [auto|right; split; [reflexivity|left]|right; auto]. intro Q. apply N. apply OK. exact Q.
    + intros F NO. apply P2; [exact F|]. intro Q. apply NO. apply OK. exact Q.
  - change (HEADER_VERSION_2_0 =? HEADER_VERSION_1_0) with false. change (HEADER_VERSION_2_0 =? HEADER_VERSION_2_0) with true. cbn iota.
    destruct (N.eqb_spec (Nlen authtag) 16) as [E|E]; cbn [negb].
    2: { assert (NO : ~ ok). { intros (iv & [(X & _)|(_ & -> & _)]); [rewrite V in X; discriminate X|]. apply E. apply W. } apply wp_ret; split; [reflexivity|]; auto. }
    assert (OK : ok <-> authtag = g_tag g (content_key_of p key) (firstn 12 (zeros 12)) header []).
    { change (firstn 12 (zeros 12)) with (msg_iv 0). split.
      - intros (iv & [(X & _)|(_ & -> & ->)]); [rewrite V in X; discriminate X|]. reflexivity.
      - intro Q. exists (msg_iv 0). right. auto. }
    eapply wp_post; [apply verify_header_with_wp; [assumption..|vm_compute; discriminate|assumption|assumption]|]. intros r s' (E1 & P & P2). split; [exact E1|]. split.
    + destruct r as [[]|e]; [apply OK; exact P|]. destruct P as [[F ->]|[-> [N|N]]]; [auto|right; split; [reflexivity|left]|right; auto]. intro Q. apply N. apply OK. exact Q.
    + intros F NO. apply P2; [exact F|]. intro Q. apply NO. apply OK. exact Q.
Qed.
End Runs.
