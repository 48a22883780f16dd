(** Lemmas on the crypto layer and on small pieces of the session, used by the session invariant. *)
From Verif Require Import Base AlgModel EncCtxModel HdrModel FrameModel CryptoModel SessionModel
  BaseProofs WireSpec SessionSpec EncCtxProofs HdrProofs FrameProofs.
From Coq Require Import ZArith ZifyBool ZifyNat ZifyN String Ascii.
Import List.
Open Scope list_scope.
Open Scope N_scope.

(** ** Strings, additional data, IVs *)

Lemma c_str_text : forall s, c_str s = text s.
Proof. induction s as [|a s IH]; cbn; [reflexivity|]. now rewrite IH. Qed.

Lemma aad_string_label : forall ty, aad_string ty = text (body_label ty).
Proof. destruct ty; apply c_str_text. Qed.

Lemma frame_aad_spec : forall mid ty seqno size, seqno < 4294967296 -> size < 18446744073709551616 ->
  frame_aad mid ty seqno size = body_aad mid ty seqno size.
Proof.
  intros mid ty seqno size S B. unfold frame_aad, body_aad. rewrite aad_string_label.
  rewrite be4 by auto. unfold u64. change two32 with 4294967296.
  rewrite !be4; auto.
  - apply N.mod_lt. discriminate.
  - apply N.div_lt_upper_bound; [discriminate|exact B].
Qed.

Lemma zeros_4 : zeros 4 = u32 0. Proof. reflexivity. Qed.
Lemma frame_iv_spec : forall p n, std_lens p -> n < 18446744073709551616 -> frame_iv p n = msg_iv n.
Proof.
  intros p n [IV _] B. unfold frame_iv, msg_iv. rewrite IV. change (12 - 8) with 4. now rewrite zeros_4, be8.
Qed.
Lemma msg_iv_0 : msg_iv 0 = zeros 12. Proof. reflexivity. Qed.
Lemma Nlen_msg_iv : forall n, Nlen (msg_iv n) = 12. Proof. reflexivity. Qed.

Lemma u64_inj : forall a b, a < 18446744073709551616 -> b < 18446744073709551616 -> u64 a = u64 b -> a = b.
Proof.
  intros a b A B E. rewrite <- !be8 in E by auto.
  apply be_bytes_inj in E; auto.
Qed.
Lemma u32_inj : forall a b, a < 4294967296 -> b < 4294967296 -> u32 a = u32 b -> a = b.
Proof.
  intros a b A B E. rewrite <- !be4 in E by auto.
  apply be_bytes_inj in E; auto.
Qed.
Lemma u16_inj : forall a b, a < 65536 -> b < 65536 -> u16 a = u16 b -> a = b.
Proof.
  intros a b A B E. rewrite <- !be2 in E by auto.
  apply be_bytes_inj in E; auto.
Qed.

Lemma msg_iv_inj : forall a b, a < 18446744073709551616 -> b < 18446744073709551616 ->
  msg_iv a = msg_iv b -> a = b.
Proof. intros a b A B E. apply app_inv_head in E. now apply u64_inj. Qed.

(** ** Suites *)

Lemma v1_version : forall id p, alg_lookup id = Some p -> ap_version p = 1 <-> In id v1_suites.
Proof.
  intros id p L. destruct (alg_lookup_cases _ _ L) as [V|V].
  - destruct (in_v1_cases _ V) as [q [Lq Q]]. rewrite L in Lq. inv Lq. tauto.
  - destruct (in_v2_cases _ V) as [q [Lq [VER _]]]. rewrite L in Lq. inv Lq. split; [lia|].
    intros V'. destruct (v1_not_v2 _ V' V).
Qed.
Lemma v2_version : forall id p, alg_lookup id = Some p -> ap_version p = 2 <-> In id v2_suites.
Proof.
  intros id p L. destruct (alg_lookup_cases _ _ L) as [V|V].
  - destruct (in_v1_cases _ V) as [q [Lq [VER _]]]. rewrite L in Lq. inv Lq. split; [lia|].
    intros V'. destruct (v1_not_v2 _ V V').
  - destruct (in_v2_cases _ V) as [q [Lq Q]]. rewrite L in Lq. inv Lq. tauto.
Qed.

Lemma sig_len_spec : forall id p, alg_lookup id = Some p -> (ap_sig_len p =? 0) = false <-> In id signed_suites.
Proof.
  intros id p L. destruct (alg_lookup_cases _ _ L) as [V|V];
  cbn in V; repeat (destruct V as [<-|V]; [vm_compute in L; inv L; cbn; intuition discriminate|]); contradiction.
Qed.

(** Facts about a suite and its properties needed for key derivation. *)
Lemma suite_facts : forall id p, alg_lookup id = Some p ->
  ap_id p = id /\ ap_content_key_len p = suite_key_len id /\ ap_data_key_len p = suite_key_len id /\
  ((In id v1_suites /\ ap_version p = 1 /\ ap_commitment_len p = 0 /\
    ((which_sha id = NOSHA /\ In id plain_suites) \/
     (which_sha id = SHA256 /\ In id [0x0114; 0x0146; 0x0178; 0x0214]) \/
     (which_sha id = SHA384 /\ In id [0x0346; 0x0378]))) \/
   (In id v2_suites /\ ap_version p = 2 /\ ap_commitment_len p = 32 /\ which_sha id = SHA512 /\
    suite_key_len id = 32)).
Proof.
  intros id p L. destruct (alg_lookup_cases _ _ L) as [V|V]; cbn in V;
  repeat (destruct V as [<-|V]; [vm_compute in L; inv L; cbn; intuition auto 20|]); contradiction.
Qed.

Lemma firstn_all_N : forall A (l : list A) n, Nlen l = n -> firstn (N.to_nat n) l = l.
Proof. intros A l n <-. rewrite <- length_Nlen. apply firstn_all. Qed.

Lemma derive_key_spec : forall cr id p dk mid clen k0 c0,
  crypto_sizes cr -> alg_lookup id = Some p -> Nlen dk = ap_data_key_len p ->
  let k := derive_key cr p dk mid clen k0 c0 in
  kd_rc k = KOk ->
  content_key cr id mid dk (kd_key k) /\ cipher_key p (kd_key k) = kd_key k /\
  Nlen mid = message_id_len p /\
  ((In id v1_suites /\ clen = 0 /\ kd_commit k = c0) \/
   (In id v2_suites /\ 32 <= clen /\ key_commitment cr mid dk (kd_commit k) /\ Nlen (kd_commit k) = 32)).
Proof.
  intros cr id p dk mid clen k0 c0 [_ [_ HK]] L DK k RC. subst k.
  destruct (suite_facts _ _ L) as [ID [CKL [DKL [[V1 [VER [CL SHA]]]|[V2 [VER [CL [SHA SKL]]]]]]]].
  - unfold derive_key, message_id_len in *. rewrite VER in *. change (1 =? HEADER_VERSION_1_0) with true in *. cbv iota in *.
    destruct (N.eqb_spec clen 0) as [C|C]; cbn [negb] in *; [|discriminate RC].
    unfold derive_key_v1 in *. destruct (N.eqb_spec (Nlen mid) 16) as [M|M]; cbn [negb] in *; [|discriminate RC].
    rewrite ID in *. destruct SHA as [[W I]|[[W I]|[W I]]]; rewrite W in *.
    + cbn [kd_key kd_commit]. repeat split; auto.
      * now constructor.
      * unfold cipher_key. apply firstn_all_N. lia.
    + unfold hkdf in *. change (md_size SHA256) with 32 in *. rewrite be2 in * by (apply suite_id_small; auto).
      destruct (cr_hkdf cr SHA256 _ _ _ _) as [okm|] eqn:E; [|discriminate RC]. cbn [kd_key kd_commit].
      repeat split; auto.
      * apply ck_sha256; auto. now rewrite <- CKL.
      * unfold cipher_key. apply firstn_all_N. eauto.
    + unfold hkdf in *. change (md_size SHA384) with 48 in *. rewrite be2 in * by (apply suite_id_small; auto).
      destruct (cr_hkdf cr SHA384 _ _ _ _) as [okm|] eqn:E; [|discriminate RC]. cbn [kd_key kd_commit].
      repeat split; auto.
      * apply ck_sha384; auto. now rewrite <- CKL.
      * unfold cipher_key. apply firstn_all_N. eauto.
  - unfold derive_key, message_id_len in *. rewrite VER in *. change (2 =? HEADER_VERSION_1_0) with false in *.
    change (2 =? HEADER_VERSION_2_0) with true in *. cbv iota in *.
    unfold derive_key_v2 in *. rewrite CL, CKL, SKL, ID, SHA in *.
    destruct (N.ltb_spec clen 32) as [C|C]; [discriminate RC|].
    destruct (N.eqb_spec (Nlen mid) 32) as [M|M]; cbn [negb] in *; [|discriminate RC].
    unfold hkdf in *. destruct mid as [|x mid']; [discriminate M|]. remember (x :: mid') as mid.
    rewrite be2 in * by (apply suite_id_small; auto). rewrite !c_str_text in *.
    destruct (cr_hkdf cr SHA512 mid dk (text "COMMITKEY") 32) as [com|] eqn:E1; [|discriminate RC].
    destruct (cr_hkdf cr SHA512 mid dk (u16 id ++ text "DERIVEKEY") 32) as [okm|] eqn:E2; [|discriminate RC].
    cbn [kd_key kd_commit]. repeat split; auto.
    + apply ck_commit; auto.
    + unfold cipher_key. rewrite CKL. apply firstn_all_N. eauto.
    + right. repeat split; auto. eauto.
Qed.

Lemma commitment_eq_true : forall a b, commitment_eq a b = true -> a = b.
Proof.
  intros a b. unfold commitment_eq. destruct (N.eqb_spec (Nlen a) (Nlen b)) as [E|E]; cbn [negb]; [|discriminate].
  destruct (N.eqb_spec (Nlen a) 0) as [Z|Z].
  - intros _. apply Nlen_0 in Z. subst. symmetry. apply Nlen_0. now rewrite <- E.
  - destruct (N.eqb_spec (Nlen a) 32); cbn [negb]; [|discriminate]. apply bytes_eqb_spec.
Qed.

(** The content key is a function of its inputs. *)
Lemma content_key_fun : forall cr alg mid dk k k', content_key cr alg mid dk k -> content_key cr alg mid dk k' -> k = k'.
Proof.
  intros cr alg mid dk k k' H H'. inv H; inv H'; auto; try congruence; exfalso;
  cbn in *; repeat match goal with H : _ \/ _ |- _ => destruct H end; subst; try contradiction; discriminate.
Qed.

(** ** Frame lists *)

Lemma body_wire_snoc : forall l f p, body_wire (l ++ [(f, p)]) = body_wire l ++ wire_frame f.
Proof. intros. unfold body_wire. rewrite map_app, concat_app. cbn. now rewrite app_nil_r. Qed.
Lemma body_text_snoc : forall l f p, body_text (l ++ [(f, p)]) = body_text l ++ p.
Proof. intros. unfold body_text. rewrite map_app, concat_app. cbn. now rewrite app_nil_r. Qed.
Lemma regular_snoc : forall l n f p, regular_from n l -> fr_type f = FRAME_TYPE_FRAME ->
  fr_seqno f = n + Nlen l -> regular_from n (l ++ [(f, p)]).
Proof.
  induction l as [|[g q] l IH]; intros n f p R T S; cbn [app regular_from] in *.
  - rewrite Nlen_nil in S. repeat split; auto. lia.
  - destruct R as [RT [RS RR]]. repeat split; auto. apply IH; auto. rewrite Nlen_cons in S. lia.
Qed.

Lemma regular_text_len : forall cr key mid fs l n, regular_from n l -> Forall (sealed cr key mid fs) l ->
  Nlen (body_text l) = Nlen l * fs.
Proof.
  induction l as [|[f p] l IH]; intros n R F; cbn [regular_from] in *; [reflexivity|].
  destruct R as [T [S R]]. inversion F as [|? ? F1 F2]; subst. unfold body_text in *. cbn [map concat snd].
  rewrite Nlen_app, Nlen_cons, (IH _ R F2). destruct F1 as [_ [C _]]. rewrite T in C. cbn in C. lia.
Qed.

Lemma seal_nonces_app : forall a b, seal_nonces (a ++ b) = seal_nonces a ++ seal_nonces b.
Proof. intros. unfold seal_nonces. now rewrite map_app, concat_app. Qed.

Lemma concat_map_single : forall A B (f : A -> B) l, concat (map (fun x => [f x]) l) = map f l.
Proof. induction l; cbn; congruence. Qed.

(** ** Nonces *)

(** Every AES-GCM encryption used the same key and the numbers 0, 1, 2, ... in order. *)
Fixpoint nonce_seq (key : list N) (n : N) (k : nat) : list (list N * list N) :=
  match k with
  | O => []
  | S k' => (key, msg_iv n) :: nonce_seq key (n + 1) k'
  end.
Definition nonces_ok (log : list event) : Prop :=
  exists key k, N.of_nat k <= 4294967296 /\ seal_nonces log = nonce_seq key 0 k.

Lemma nonce_seq_app : forall key a n b, nonce_seq key n (a + b) = nonce_seq key n a ++ nonce_seq key (n + N.of_nat a) b.
Proof.
  induction a as [|a IH]; intros n b; cbn [Nat.add nonce_seq app].
  - f_equal. lia.
  - rewrite IH. do 3 f_equal. lia.
Qed.

Lemma nonce_seq_In : forall key k n x, In x (nonce_seq key n k) -> exists i, n <= i < n + N.of_nat k /\ x = (key, msg_iv i).
Proof.
  induction k as [|k IH]; intros n x H; cbn [nonce_seq In] in H; [contradiction|].
  destruct H as [<-|H]; [exists n; split; auto; lia|].
  apply IH in H. destruct H as [i [B ->]]. exists i. split; auto. lia.
Qed.

Lemma nonce_seq_NoDup : forall key k n, n + N.of_nat k < 18446744073709551616 -> NoDup (nonce_seq key n k).
Proof.
  induction k as [|k IH]; intros n B; cbn [nonce_seq]; constructor.
  - intros H. apply nonce_seq_In in H. destruct H as [i [I E]].
    assert (E' : msg_iv n = msg_iv i) by congruence. apply msg_iv_inj in E'; lia.
  - apply IH. lia.
Qed.

Lemma seal_event_nonces : forall cr key mid fs l n, regular_from n l -> Forall (sealed cr key mid fs) l ->
  seal_nonces (map (seal_event key mid) l) = nonce_seq key n (length l).
Proof.
  induction l as [|[f p] l IH]; intros n R F; cbn [regular_from map length nonce_seq] in *; [reflexivity|].
  destruct R as [T [S R]]. inversion F as [|? ? F1 F2]; subst. destruct F1 as [_ [_ [IV _]]].
  unfold seal_nonces in *. cbn [map concat seal_event seal_nonce app].
  rewrite (IH _ R F2), IV. reflexivity.
Qed.
