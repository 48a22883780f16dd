(** Cache ids identify requests (C37): proofs. *)
From Verif Require Import Base BaseProofs AlgModel EncCtxModel HdrModel CryptoModel SessionModel KeyringModel
  WireSpec EncCtxProofs HdrProofs CodecTheorems CacheModel CachingModel CachingSpec.
From Coq Require Import Permutation Sorted ZArith Lia ZifyBool ZifyNat ZifyN.
Import List ListNotations.
Open Scope list_scope. Open Scope N_scope.

Lemma app_inj_len : forall {A} (a b c d : list A), length a = length c -> a ++ b = c ++ d -> a = c /\ b = d.
Proof.
  induction a as [|x a IH]; intros b [|y c] d L E; cbn in *; try discriminate; auto.
  injection E as -> E. destruct (IH b c d) as (-> & ->); auto.
Qed.

Lemma serialize_any : forall c n ser, enc_ctx_size c = Ok n -> enc_ctx_serialize n 0 c = Ok ser ->
  enc_ctx_serialize 65535 0 c = Ok ser.
Proof.
  intros c n ser S E. rewrite serialize_spec in *. apply enc_ctx_size_ok in S. destruct S as (-> & F).
  unfold ctx_fits in F. destruct (N.ltb_spec 65535 (Nlen (wire_ctx c))); [lia|].
  destruct ((Nlen (wire_ctx c) =? 0) || (0 + Nlen (wire_ctx c) <=? Nlen (wire_ctx c)))%bool eqn:B; [|discriminate].
  destruct (N.leb_spec (0 + Nlen (wire_ctx c)) 65535); [|lia]. now rewrite Bool.orb_true_r.
Qed.

Definition flag_of (alg : N) : list N := if alg =? 0 then [0] else 1 :: be_bytes 2 alg.

Lemma flag_inj : forall a b x y, a < 65536 -> b < 65536 -> length x = length y ->
  flag_of a ++ x = flag_of b ++ y -> a = b /\ x = y.
Proof.
  intros a b x y A B L E. unfold flag_of in E.
  destruct (N.eqb_spec a 0), (N.eqb_spec b 0); subst.
  - injection E as ->. auto.
  - discriminate.
  - discriminate.
  - cbn [app] in E. assert (E' : be_bytes 2 a ++ x = be_bytes 2 b ++ y) by congruence. clear E.
    apply app_inj_len in E'; [|now rewrite !be_bytes_length]. destruct E' as (E & ->). split; auto.
    apply (be_bytes_inj 2); auto.
Qed.

Lemma enc_id_parts : forall sha m rq id, enc_cache_id sha m rq = Ok id ->
  exists ser, enc_ctx_serialize 65535 0 (rq_ctx rq) = Ok ser
    /\ id = sha (cm_partition m ++ flag_of (rq_alg rq) ++ sha ser).
Proof.
  intros sha m rq id H. unfold enc_cache_id in H. destruct (enc_ctx_size (rq_ctx rq)) as [n|] eqn:S; [|discriminate].
  cbn [bind] in H. destruct (enc_ctx_serialize n 0 (rq_ctx rq)) as [ser|] eqn:E; [|discriminate]. cbn [bind] in H.
  exists ser. split; [eapply serialize_any; eauto|]. unfold flag_of. congruence.
Qed.

(** The number of bytes hashed determines the kind of request. *)
Lemma enc_id_inj : forall sha m1 m2 r1 r2 id,
  enc_cache_id sha m1 r1 = Ok id -> enc_cache_id sha m2 r2 = Ok id ->
  length (cm_partition m1) = length (cm_partition m2) -> rq_alg r1 < 65536 -> rq_alg r2 < 65536 ->
  distinct_keys (rq_ctx r1) -> distinct_keys (rq_ctx r2) ->
  good_hash sha (enc_hashed sha m1 r1 ++ enc_hashed sha m2 r2) ->
  same_enc_request m1 m2 r1 r2.
Proof.
  intros sha m1 m2 r1 r2 id H1 H2 LP A1 A2 D1 D2 (GL & GI).
  apply enc_id_parts in H1. apply enc_id_parts in H2.
  destruct H1 as (s1 & S1 & ->), H2 as (s2 & S2 & EQ).
  unfold enc_hashed in GL, GI. rewrite S1, S2 in GL, GI. fold (flag_of (rq_alg r1)) (flag_of (rq_alg r2)) in GL, GI.
  apply GI in EQ; [|cbn; auto|cbn; auto].
  apply app_inj_len in EQ; [|auto]. destruct EQ as (EP & EQ).
  apply flag_inj in EQ; auto; [|rewrite !GL; [reflexivity|cbn; auto|cbn; auto]].
  destruct EQ as (EA & ES). apply GI in ES; [|cbn; auto|cbn; auto].
  split; [exact EP|]. split; [exact EA|].
  destruct (C07_lemma (rq_ctx r1) (rq_ctx r2) 65535 0 65535 0 s1 s2 D1 D2 S1 S2) as (C & _). now apply C.
Qed.

(** Equivalent requests have the same id. *)
Lemma enc_id_same : forall sha m1 m2 r1 r2, distinct_keys (rq_ctx r1) -> distinct_keys (rq_ctx r2) ->
  same_enc_request m1 m2 r1 r2 -> enc_cache_id sha m1 r1 = enc_cache_id sha m2 r2.
Proof.
  intros sha m1 m2 r1 r2 D1 D2 (EP & EA & SM). unfold enc_cache_id. rewrite EP, EA.
  apply same_map_perm in SM; auto.
  assert (SZ : enc_ctx_size (rq_ctx r1) = enc_ctx_size (rq_ctx r2))
    by (now rewrite !enc_ctx_size_spec, (Nlen_wire_ctx_perm _ _ SM)).
  rewrite SZ. destruct (enc_ctx_size (rq_ctx r2)) as [n|]; [|reflexivity]. cbn [bind].
  rewrite !serialize_spec. rewrite (Nlen_wire_ctx_perm _ _ SM). rewrite (ctx_sort_unique _ _ D1 SM). reflexivity.
Qed.

(** * Decryption *)

Lemma edk_field_ok : forall f x, edk_field f = Ok x -> fits16 f /\ x = field16 f.
Proof.
  intros f x H. unfold edk_field in H. change UINT16_MAX with 65535 in H.
  destruct (N.ltb_spec 65535 (Nlen f)); [discriminate|]. unfold fits16, field16. rewrite <- be2 by lia.
  split; [auto|congruence].
Qed.

Lemma edk_input_ok : forall e i, edk_hash_input e = Ok i -> edk_fits e /\ i = wire_edk e.
Proof.
  intros e i H. unfold edk_hash_input in H.
  destruct (edk_field (edk_provider_id e)) as [a|] eqn:A; [|discriminate]. cbn [bind] in H.
  destruct (edk_field (edk_provider_info e)) as [b|] eqn:B; [|discriminate]. cbn [bind] in H.
  destruct (edk_field (edk_ciphertext e)) as [c|] eqn:C; [|discriminate]. cbn [bind] in H.
  apply edk_field_ok in A. apply edk_field_ok in B. apply edk_field_ok in C.
  destruct A as (A & ->), B as (B & ->), C as (C & ->). unfold edk_fits, wire_edk. split; [auto|congruence].
Qed.

Lemma edk_hashes_ok : forall sha es l, edk_hashes sha es = Ok l ->
  Forall edk_fits es /\ l = map (fun e => sha (wire_edk e)) es.
Proof.
  intros sha. induction es as [|e es IH]; intros l H; cbn [edk_hashes] in H.
  - split; [constructor|]. cbn. congruence.
  - destruct (edk_hash_input e) as [i|] eqn:E; [|discriminate]. cbn [bind] in H.
    destruct (edk_hashes sha es) as [l'|] eqn:L; [|discriminate]. cbn [bind] in H.
    apply edk_input_ok in E. destruct E as (F & ->). destruct (IH l' eq_refl) as (FF & ->).
    split; [constructor; auto|]. cbn [map]. congruence.
Qed.

Lemma digest_insert_perm : forall d l, Permutation (digest_insert d l) (d :: l).
Proof.
  intros d. induction l as [|x l IH]; cbn [digest_insert]; auto.
  destruct (bytes_compare d x); auto. rewrite IH. apply perm_swap.
Qed.
Lemma digest_sort_perm : forall l, Permutation (digest_sort l) l.
Proof.
  induction l as [|d l IH]; cbn [digest_sort]; auto. rewrite digest_insert_perm. now constructor.
Qed.

Definition dle (a b : list N) : Prop := bytes_compare a b <> Gt.
Lemma dle_antisym : forall a b, dle a b -> dle b a -> a = b.
Proof.
  unfold dle. intros a b H1 H2. rewrite bytes_compare_antisym in H2. destruct (bytes_compare a b) eqn:E.
  - now apply bytes_compare_eq.
  - contradiction.
  - contradiction.
Qed.
Lemma dle_trans : forall a b c, dle a b -> dle b c -> dle a c.
Proof.
  unfold dle. intros a b c H1 H2. destruct (bytes_compare a b) eqn:E1; [|destruct (bytes_compare b c) eqn:E2|]; try contradiction.
  - apply bytes_compare_eq in E1. now subst.
  - apply bytes_compare_eq in E2. subst. congruence.
  - rewrite (bytes_compare_trans _ _ _ E1 E2). discriminate.
Qed.
Lemma digest_insert_sorted : forall d l, StronglySorted dle l -> StronglySorted dle (digest_insert d l).
Proof.
  intros d. induction l as [|x l IH]; intros S; cbn [digest_insert].
  - repeat constructor.
  - inversion S; subst. destruct (bytes_compare d x) eqn:E.
    + constructor; auto. assert (D : dle d x) by (unfold dle; congruence). constructor; auto.
      eapply Forall_impl; [|eassumption]. intros y. now apply dle_trans.
    + constructor; auto. assert (D : dle d x) by (unfold dle; congruence). constructor; auto.
      eapply Forall_impl; [|eassumption]. intros y. now apply dle_trans.
    + constructor; auto. rewrite Forall_forall in *. intros y J.
      apply (Permutation_in _ (digest_insert_perm d l)) in J. destruct J as [<-|J]; auto.
      unfold dle. rewrite bytes_compare_antisym, E. discriminate.
Qed.
Lemma digest_sort_sorted : forall l, StronglySorted dle (digest_sort l).
Proof. induction l as [|d l IH]; cbn [digest_sort]; [constructor|now apply digest_insert_sorted]. Qed.

Lemma sorted_unique : forall a b, StronglySorted dle a -> StronglySorted dle b -> Permutation a b -> a = b.
Proof.
  induction a as [|x a IH]; intros b Sa Sb P.
  - now apply Permutation_nil in P.
  - destruct b as [|y b]; [apply Permutation_sym, Permutation_nil in P; discriminate|].
    inversion Sa; inversion Sb; subst. rewrite Forall_forall in *.
    assert (x = y).
    { apply dle_antisym.
      - assert (J : In y (x :: a)) by (eapply Permutation_in; [symmetry; eauto|now left]).
        destruct J as [->|J]; auto. unfold dle. rewrite (proj2 (bytes_compare_eq y y) eq_refl). discriminate.
      - assert (J : In x (y :: b)) by (eapply Permutation_in; [eauto|now left]).
        destruct J as [->|J]; auto. unfold dle. rewrite (proj2 (bytes_compare_eq x x) eq_refl). discriminate. }
    subst y. apply Permutation_cons_inv in P. f_equal. auto.
Qed.

Lemma digest_sort_canonical : forall a b, Permutation a b -> digest_sort a = digest_sort b.
Proof.
  intros a b P. apply sorted_unique; auto using digest_sort_sorted.
  now rewrite !digest_sort_perm.
Qed.

Lemma concat_len : forall n (l : list (list N)), (forall x, In x l -> length x = n) -> length (concat l) = (length l * n)%nat.
Proof.
  intros n l. induction l as [|x l IH]; intros H; cbn; auto. rewrite app_length, (H x) by (cbn; auto). rewrite IH; [reflexivity|]. intros y J. apply H. now right.
Qed.
Lemma concat_inj : forall n (a b : list (list N)), (forall x, In x a -> length x = n) -> (forall x, In x b -> length x = n) ->
  length a = length b -> concat a = concat b -> a = b.
Proof.
  intros n. induction a as [|x a IH]; intros [|y b] A B L E; cbn in *; try discriminate; auto.
  apply app_inj_len in E; [|rewrite (A x), (B y); auto]. destruct E as (-> & E). f_equal. apply IH; auto.
Qed.

Lemma wire_edk_inj : forall e f, edk_fits e -> edk_fits f -> wire_edk e = wire_edk f -> e = f.
Proof.
  intros e f E F EQ. pose proof (parse_edk_complete e [] E) as A. pose proof (parse_edk_complete f [] F) as B.
  rewrite EQ in A. rewrite A in B. congruence.
Qed.

Lemma map_inj_on : forall {A B} (f : A -> B) l1 l2,
  (forall x y, In x l1 -> In y l2 -> f x = f y -> x = y) -> map f l1 = map f l2 -> l1 = l2.
Proof.
  intros A B f. induction l1 as [|x l1 IH]; intros [|y l2] H E; cbn in *; try discriminate; auto.
  injection E as E1 E2. f_equal; [apply H; auto|]. apply IH; auto.
Qed.

Lemma dec_id_parts : forall sha m rq id, dec_cache_id sha m rq = Ok id ->
  exists ser hs, enc_ctx_serialize 65535 0 (dq_ctx rq) = Ok ser /\ edk_hashes sha (dq_edks rq) = Ok hs
    /\ id = sha (cm_partition m ++ be_bytes 2 (dq_alg rq) ++ concat (digest_sort hs) ++ repeat 0 64 ++ sha ser).
Proof.
  intros sha m rq id H. unfold dec_cache_id in H. destruct (enc_ctx_size (dq_ctx rq)) as [n|] eqn:S; [|discriminate].
  cbn [bind] in H. destruct (enc_ctx_serialize n 0 (dq_ctx rq)) as [ser|] eqn:E; [|discriminate]. cbn [bind] in H.
  destruct (edk_hashes sha (dq_edks rq)) as [hs|] eqn:K; [|discriminate]. cbn [bind] in H.
  exists ser, hs. split; [eapply serialize_any; eauto|]. split; [reflexivity|]. congruence.
Qed.

Lemma dec_id_inj : forall sha m1 m2 r1 r2 id,
  dec_cache_id sha m1 r1 = Ok id -> dec_cache_id sha m2 r2 = Ok id ->
  length (cm_partition m1) = length (cm_partition m2) -> dq_alg r1 < 65536 -> dq_alg r2 < 65536 ->
  distinct_keys (dq_ctx r1) -> distinct_keys (dq_ctx r2) ->
  good_hash sha (dec_hashed sha m1 r1 ++ dec_hashed sha m2 r2) ->
  same_dec_request m1 m2 r1 r2.
Proof.
  intros sha m1 m2 r1 r2 id H1 H2 LP A1 A2 D1 D2 (GL & GI).
  apply dec_id_parts in H1. apply dec_id_parts in H2.
  destruct H1 as (s1 & k1 & S1 & K1 & ->), H2 as (s2 & k2 & S2 & K2 & EQ).
  unfold dec_hashed in GL, GI. rewrite S1, S2, K1, K2 in GL, GI.
  pose proof (edk_hashes_ok _ _ _ K1) as (F1 & ->). pose proof (edk_hashes_ok _ _ _ K2) as (F2 & ->).
  set (h1 := map (fun e => sha (wire_edk e)) (dq_edks r1)) in *.
  set (h2 := map (fun e => sha (wire_edk e)) (dq_edks r2)) in *.
  set (L := (s1 :: map wire_edk (dq_edks r1) ++ _) ++ _) in GL, GI.
  assert (IS1 : In s1 L) by (unfold L; cbn; auto).
  assert (IS2 : In s2 L) by (unfold L; apply in_or_app; cbn; auto).
  assert (IE1 : forall e, In e (dq_edks r1) -> In (wire_edk e) L).
  { intros e J. unfold L. apply in_or_app. left. right. apply in_or_app. left. now apply in_map. }
  assert (IE2 : forall e, In e (dq_edks r2) -> In (wire_edk e) L).
  { intros e J. unfold L. apply in_or_app. right. right. apply in_or_app. left. now apply in_map. }
  apply GI in EQ.
  2: { unfold L. apply in_or_app. left. right. apply in_or_app. right. now left. }
  2: { unfold L. apply in_or_app. right. right. apply in_or_app. right. now left. }
  apply app_inj_len in EQ; [|auto]. destruct EQ as (EP & EQ).
  apply app_inj_len in EQ; [|now rewrite !be_bytes_length]. destruct EQ as (EA & EQ).
  assert (L1 : forall x, In x (digest_sort h1) -> length x = 64%nat).
  { intros x J. apply (Permutation_in _ (digest_sort_perm h1)) in J. apply in_map_iff in J.
    destruct J as (e & <- & J). apply GL. auto. }
  assert (L2 : forall x, In x (digest_sort h2) -> length x = 64%nat).
  { intros x J. apply (Permutation_in _ (digest_sort_perm h2)) in J. apply in_map_iff in J.
    destruct J as (e & <- & J). apply GL. auto. }
  assert (LEN : length (digest_sort h1) = length (digest_sort h2)).
  { pose proof (f_equal (@length N) EQ) as LE. rewrite !app_length, !repeat_length in LE.
    rewrite (concat_len 64) in LE by auto. rewrite (concat_len 64 (digest_sort h2)) in LE by auto.
    rewrite !GL in LE by auto. lia. }
  apply app_inj_len in EQ.
  2: { rewrite (concat_len 64) by auto. rewrite (concat_len 64 (digest_sort h2)) by auto. lia. }
  destruct EQ as (EC & EQ). apply app_inv_head in EQ. apply GI in EQ; auto.
  apply (concat_inj 64) in EC; auto.
  assert (PH : Permutation h1 h2).
  { rewrite <- (digest_sort_perm h1), EC. apply digest_sort_perm. }
  split; [exact EP|]. split.
  { apply (be_bytes_inj 2); auto. }
  split.
  { destruct (C07_lemma (dq_ctx r1) (dq_ctx r2) 65535 0 65535 0 s1 s2 D1 D2 S1 S2) as (C & _). now apply C. }
  unfold h1, h2 in PH. apply Permutation_map_inv in PH. destruct PH as (l3 & EM & P3).
  enough (dq_edks r1 = l3) as -> by (now symmetry).
  apply (map_inj_on (fun e => sha (wire_edk e))); auto.
  intros x y Jx Jy E. assert (Jy' : In y (dq_edks r2)) by (eapply Permutation_in; [symmetry; eauto|auto]).
  apply GI in E; auto. rewrite Forall_forall in F1, F2. apply wire_edk_inj; auto.
Qed.

(** The ids of encryption and decryption requests never coincide. *)
Lemma enc_dec_ids_differ : forall sha m1 m2 r1 r2 id,
  enc_cache_id sha m1 r1 = Ok id -> dec_cache_id sha m2 r2 = Ok id ->
  length (cm_partition m1) = length (cm_partition m2) ->
  good_hash sha (enc_hashed sha m1 r1 ++ dec_hashed sha m2 r2) -> False.
Proof.
  intros sha m1 m2 r1 r2 id H1 H2 LP (GL & GI).
  apply enc_id_parts in H1. apply dec_id_parts in H2.
  destruct H1 as (s1 & S1 & ->), H2 as (s2 & k2 & S2 & K2 & EQ).
  unfold enc_hashed, dec_hashed in GL, GI. rewrite S1, S2, K2 in GL, GI. fold (flag_of (rq_alg r1)) in GL, GI.
  apply GI in EQ.
  2: { cbn. auto. }
  2: { apply in_or_app. right. right. apply in_or_app. right. now left. }
  apply app_inj_len in EQ; [|auto]. destruct EQ as (_ & EQ).
  apply (f_equal (@length N)) in EQ. rewrite !app_length, be_bytes_length, repeat_length in EQ.
  rewrite (GL s1), (GL s2) in EQ; [|apply in_or_app; right; now left|now left].
  unfold flag_of in EQ. destruct (rq_alg r1 =? 0).
  - cbn [length] in EQ. lia.
  - change (length (1 :: be_bytes 2 (rq_alg r1))) with (S (length (be_bytes 2 (rq_alg r1)))) in EQ.
    rewrite be_bytes_length in EQ. lia.
Qed.

Lemma edk_hashes_perm : forall sha a b, Permutation a b -> forall l, edk_hashes sha a = Ok l ->
  exists l', edk_hashes sha b = Ok l' /\ Permutation l l'.
Proof.
  intros sha a b P. induction P; intros l0 H.
  - exists l0. auto.
  - cbn [edk_hashes] in *. destruct (edk_hash_input x) as [i|]; [|discriminate]. cbn [bind] in *.
    destruct (edk_hashes sha l) as [hl|] eqn:E; [|discriminate]. cbn [bind] in *.
    destruct (IHP hl eq_refl) as (l1 & -> & P1). cbn [bind]. eexists. split; [reflexivity|].
    injection H as <-. now constructor.
  - cbn [edk_hashes] in *. destruct (edk_hash_input y) as [iy|]; [|discriminate]. cbn [bind] in *.
    destruct (edk_hash_input x) as [ix|]; [|discriminate]. cbn [bind] in *.
    destruct (edk_hashes sha l) as [hl|] eqn:E; [|discriminate]. cbn [bind] in *.
    eexists. split; [reflexivity|]. injection H as <-. apply perm_swap.
  - destruct (IHP1 _ H) as (l1 & H1 & Q1). destruct (IHP2 _ H1) as (l2 & H2 & Q2). exists l2.
    split; [exact H2|]. now transitivity l1.
Qed.

Lemma dec_id_same : forall sha m1 m2 r1 r2 id, distinct_keys (dq_ctx r1) -> distinct_keys (dq_ctx r2) ->
  same_dec_request m1 m2 r1 r2 -> dec_cache_id sha m1 r1 = Ok id -> dec_cache_id sha m2 r2 = Ok id.
Proof.
  intros sha m1 m2 r1 r2 id D1 D2 (EP & EA & SM & PE) H. unfold dec_cache_id in *. rewrite <- EP, <- EA.
  apply same_map_perm in SM; auto.
  rewrite enc_ctx_size_spec in *. rewrite <- (Nlen_wire_ctx_perm _ _ SM).
  destruct (Nlen (wire_ctx (dq_ctx r1)) <=? 65535); [|discriminate]. cbn [bind] in *.
  rewrite serialize_spec in *. rewrite <- (Nlen_wire_ctx_perm _ _ SM). rewrite <- (ctx_sort_unique _ _ D1 SM).
  destruct (if 65535 <? Nlen (wire_ctx (dq_ctx r1)) then _ else _) as [ser|]; [|discriminate]. cbn [bind] in *.
  destruct (edk_hashes sha (dq_edks r1)) as [hs|] eqn:K; [|discriminate]. cbn [bind] in *.
  destruct (edk_hashes_perm _ _ _ PE _ K) as (hs' & -> & PH). cbn [bind].
  rewrite <- (digest_sort_canonical _ _ PH). exact H.
Qed.
