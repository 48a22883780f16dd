(** Parsing of ARNs, multi-Region key identifiers, duplicates. *)
From Verif Require Import Base AlgModel EncCtxModel HdrModel CryptoModel SessionModel KeyringModel KmsModel WireSpec SessionSpec KeyringSpec KmsSpec
  BaseProofs SessionBase.
From Coq Require Import String Lia ZArith ZifyBool ZifyNat ZifyN Permutation.
Import List.
Open Scope list_scope.
Open Scope N_scope.

Lemma cut_some : forall c s a b, cut c s = Some (a, b) <-> s = a ++ c :: b /\ ~ In c a.
Proof.
  induction s as [|x s IH]; intros a b; cbn [cut].
  - split; [discriminate|]. intros [E _]. now destruct a.
  - destruct (x =? c) eqn:E.
    + apply N.eqb_eq in E. subst x. split.
      * intros H. injection H as <- <-. auto.
      * intros [H N]. destruct a as [|y a]; [now injection H as <-|]. injection H as <- _. destruct N. now left.
    + apply N.eqb_neq in E. destruct (cut c s) as [[a1 b1]|] eqn:C.
      * specialize (IH a1 b1). destruct IH as [IH _]. destruct (IH eq_refl) as [-> N1]. split.
        -- intros H. injection H as <- <-. split; auto. intros [->|H]; auto.
        -- intros [H N]. destruct a as [|y a]; [injection H as <- _; easy|]. injection H as <- H.
           assert (N' : ~ In c a) by (intros I; apply N; now right).
           assert (D : (a1, b1) = (a, b)).
           { clear - H N1 N'. revert a H N'. induction a1 as [|z a1 IH]; intros a H N'; destruct a as [|w a]; cbn in H.
             - now injection H as <-.
             - injection H as <- _. destruct N'. now left.
             - injection H as -> _. destruct N1. now left.
             - injection H as <- H. assert (D : (a1, b1) = (a, b)) by (apply IH; auto; [intros I; apply N1; now right|intros I; apply N'; now right]).
               injection D as <- <-. reflexivity. }
           injection D as <- <-. reflexivity.
      * split; [discriminate|]. intros [H N]. destruct a as [|y a]; [injection H as <- _; easy|]. injection H as <- H.
        assert (N' : ~ In c a) by (intros I; apply N; now right). destruct (IH a b) as [_ Q]. specialize (Q (conj H N')). discriminate.
Qed.

Lemma cut_none : forall c s, cut c s = None <-> ~ In c s.
Proof.
  intros c s. split.
  - intros H I. apply in_split in I. destruct I as (a & b & E).
    assert (G : exists a b, s = a ++ c :: b /\ ~ In c a).
    { clear H. subst s. induction a as [|x a IH]; [exists [], b; auto|]. destruct (N.eq_dec x c) as [->|D].
      - exists [], (a ++ c :: b). auto.
      - destruct IH as (a' & b' & E & N). exists (x :: a'), b'. cbn. rewrite E. split; auto. intros [?|?]; auto. }
    destruct G as (a' & b' & G). apply cut_some in G. congruence.
  - intros N. destruct (cut c s) as [[a b]|] eqn:C; auto. apply cut_some in C. destruct C as [-> _]. destruct N.
    apply in_or_app. right. now left.
Qed.

Lemma split_all_one : forall c a, ~ In c a -> split_all c a = [a].
Proof.
  induction a as [|x a IH]; intros N; cbn; auto.
  destruct (N.eqb_spec x c) as [->|D]; [destruct N; now left|]. rewrite IH; auto. intros I. apply N. now right.
Qed.
Lemma split_all_cons : forall c a b, ~ In c a -> split_all c (a ++ c :: b) = a :: split_all c b.
Proof.
  induction a as [|x a IH]; intros b N; cbn.
  - now rewrite N.eqb_refl.
  - destruct (N.eqb_spec x c) as [->|D]; [destruct N; now left|]. rewrite IH; auto. intros I. apply N. now right.
Qed.
Lemma split_all_ne : forall c s, split_all c s <> [].
Proof. intros c s. destruct s; cbn; [easy|]. destruct (_ =? _); [easy|]. now destruct (split_all c s). Qed.
Lemma split_all_no : forall c s x, In x (split_all c s) -> ~ In c x.
Proof.
  induction s as [|y s IH]; intros x I; cbn in I.
  - destruct I as [<-|[]]. auto.
  - destruct (N.eqb_spec y c) as [->|D].
    + destruct I as [<-|I]; auto.
    + destruct (split_all c s) as [|h t] eqn:E; [now apply split_all_ne in E|].
      destruct I as [<-|I]; [|apply IH; now right]. intros [?|I]; [congruence|]. apply (IH h); auto. now left.
Qed.
Lemma join_split : forall c s, join c (split_all c s) = s.
Proof.
  induction s as [|y s IH]; cbn; auto.
  destruct (N.eqb_spec y c) as [->|D].
  - cbn [join]. destruct (split_all c s) as [|h t] eqn:E; [now apply split_all_ne in E|]. cbn [app]. now f_equal.
  - destruct (split_all c s) as [|h t] eqn:E; [now apply split_all_ne in E|]. cbn [join] in *. destruct t; cbn [app]; now f_equal.
Qed.

Lemma text_colon : text ":" = [58]. Proof. reflexivity. Qed.
Lemma text_arn : text "arn:" = text "arn" ++ [58]. Proof. reflexivity. Qed.
Lemma no_colon_arn : ~ In 58 (text "arn"). Proof. vm_compute. intuition discriminate. Qed.
Lemma no_colon_kms : ~ In 58 (text "kms"). Proof. vm_compute. intuition discriminate. Qed.

Lemma arn_parse_spec : forall s a, arn_parse s = Some a <->
  is_arn s (arn_partition a) (arn_service a) (arn_region a) (arn_account a) (arn_resource a).
Proof.
  intros s a. unfold arn_parse, is_arn. split.
  - intros H. pose proof (join_split COLON s) as J. pose proof (split_all_no COLON s) as NO.
    destruct (split_all COLON s) as [|x [|p [|sv [|r [|ac [|res more]]]]]] eqn:E; try discriminate.
    destruct (bytes_eqb x (c_str "arn")) eqn:B; [|discriminate]. apply bytes_eqb_spec in B. rewrite c_str_text in B. injection H as <-.
    cbn [arn_partition arn_service arn_region arn_account arn_resource].
    split.
    + rewrite <- J. rewrite text_arn, text_colon. change COLON with 58 in *. rewrite <- !app_assoc. subst x. reflexivity.
    + split; [|split; [|split]]; apply NO; cbn [In]; tauto.
  - intros (E & N1 & N2 & N3 & N4). destruct a as [p sv r ac res]. cbn [arn_partition arn_service arn_region arn_account arn_resource] in *.
    assert (S : split_all COLON s = text "arn" :: p :: sv :: r :: ac :: split_all COLON res).
    { rewrite E, text_arn, text_colon. rewrite <- !app_assoc. cbn [app]. change 58 with COLON.
      rewrite split_all_cons by exact no_colon_arn. rewrite split_all_cons by exact N1. rewrite split_all_cons by exact N2.
      rewrite split_all_cons by exact N3. rewrite split_all_cons by exact N4. reflexivity. }
    rewrite S. destruct (split_all COLON res) as [|h t] eqn:R; [now apply split_all_ne in R|].
    rewrite c_str_text, bytes_eqb_refl. rewrite <- R, join_split. reflexivity.
Qed.

Lemma is_arn_unique : forall s p sv r ac res p' sv' r' ac' res', is_arn s p sv r ac res -> is_arn s p' sv' r' ac' res' ->
  p = p' /\ sv = sv' /\ r = r' /\ ac = ac' /\ res = res'.
Proof.
  intros. pose proof (proj2 (arn_parse_spec s (mk_arn p sv r ac res)) H) as A.
  pose proof (proj2 (arn_parse_spec s (mk_arn p' sv' r' ac' res')) H0) as B. rewrite A in B. injection B as <- <- <- <- <-. auto.
Qed.

Lemma starts_with_spec : forall s p, starts_with s p = true <-> exists t, s = p ++ t.
Proof.
  intros s p. revert s. induction p as [|y p IH]; intros s.
  - split; [exists s; reflexivity|intros; destruct s; reflexivity].
  - destruct s as [|x s]; cbn; [split; [discriminate|intros [t H]; discriminate]|].
    rewrite andb_true_iff, N.eqb_eq, IH. split.
    + intros [-> [t ->]]. now exists t.
    + intros [t H]. injection H as -> ->. eauto.
Qed.

Lemma trim_spec : forall c s, exists n, s = repeat c n ++ trim c s /\ (forall x t, trim c s = x :: t -> x <> c).
Proof.
  induction s as [|x s (n & E & F)]; cbn.
  - exists 0%nat. split; auto. discriminate.
  - destruct (N.eqb_spec x c) as [->|D].
    + exists (S n). cbn. split; [now f_equal|auto].
    + exists 0%nat. split; auto. intros y t H. injection H as <- <-. auto.
Qed.
Lemma trim_repeat : forall c n s, (forall x t, s = x :: t -> x <> c) -> trim c (repeat c n ++ s) = s.
Proof.
  induction n as [|n IH]; intros s H; cbn.
  - destruct s as [|x s]; cbn; auto. destruct (N.eqb_spec x c) as [->|D]; auto. now destruct (H c s).
  - rewrite N.eqb_refl. auto.
Qed.
Lemma hd_not : forall (c : N) s, s <> [] -> hd 0 s <> c -> forall x t, s = x :: t -> x <> c.
Proof. intros c s _ H x t ->. exact H. Qed.

(** The text before the first byte 255. *)
Definition before_ff (s : list N) : list N := match cut 255 s with Some (a, _) => a | None => s end.
Lemma before_ff_id : forall s, ~ In 255 s -> before_ff s = s.
Proof. intros s H. unfold before_ff. apply cut_none in H. now rewrite H. Qed.
Lemma before_ff_prefix : forall s, exists t, s = before_ff s ++ t.
Proof.
  intros s. unfold before_ff. destruct (cut 255 s) as [[a b]|] eqn:C; [|exists []; now rewrite app_nil_r].
  apply cut_some in C. destruct C as [-> _]. eauto.
Qed.
Lemma before_ff_repeat : forall n s, before_ff (slashes n ++ s) = slashes n ++ before_ff s.
Proof.
  induction n as [|n IH]; intros s; [reflexivity|]. specialize (IH s). unfold before_ff in *. unfold slashes in *. cbn [repeat app cut].
  change (47 =? 255) with false. cbv iota.
  destruct (cut 255 (repeat 47 n ++ s)) as [[a b]|] eqn:E; destruct (cut 255 s) as [[a' b']|] eqn:E'; cbn; f_equal; exact IH.
Qed.

Lemma split_two_spec : forall res ty id, split_two res = Some (ty, id) <->
  exists full, is_resource res ty full /\ id = before_ff full /\ id <> [].
Proof.
  intros res ty id. unfold split_two, is_resource. change SLASH with 47. change EOF_CHAR with 255. split.
  - intros H. destruct (trim_spec 47 res) as (n & E & F). destruct (cut 47 (trim 47 res)) as [[a b]|] eqn:C; [|discriminate].
    apply cut_some in C. destruct C as [C NA].
    assert (AN : a <> []). { intros ->. cbn in C. eapply F in C. easy. }
    destruct (trim_spec 47 b) as (m & E2 & F2).
    assert (T : trim 47 (before_ff b) = before_ff (trim 47 b)).
    { rewrite E2 at 1. fold (slashes m). rewrite before_ff_repeat. apply trim_repeat.
      intros x t X. destruct (before_ff_prefix (trim 47 b)) as [u U]. rewrite X in U. cbn in U. now apply F2 in U. }
    fold (before_ff b) in H. rewrite T in H. destruct (before_ff (trim 47 b)) as [|z w] eqn:Z; [discriminate|].
    assert (ty = a /\ id = z :: w) as [-> ->] by (split; congruence).
    exists (trim 47 b). split; [|split; [congruence|easy]].
    exists n, m. split; [|split; [exact NA|split; [exact AN|]]].
    + rewrite E, C. unfold slashes. cbn [repeat app]. f_equal. f_equal. now rewrite E2 at 1.
    + destruct (before_ff_prefix (trim 47 b)) as [u U]. rewrite Z in U. split; [rewrite U; easy|]. rewrite U. cbn. eapply F2. exact U.
  - intros (full & (n & m & -> & NT & TN & FN & FH) & -> & BN). unfold slashes.
    rewrite trim_repeat.
    2:{ intros x t X. destruct ty as [|y ty]; [easy|]. cbn in X. injection X as <- _. intros ->. apply NT. now left. }
    assert (C : cut 47 (ty ++ repeat 47 (S m) ++ full) = Some (ty, repeat 47 m ++ full)).
    { apply cut_some. split; [reflexivity|exact NT]. }
    rewrite C. change (match cut 255 (repeat 47 m ++ full) with Some (b1, _) => b1 | None => repeat 47 m ++ full end)
      with (before_ff (slashes m ++ full)). rewrite before_ff_repeat. unfold slashes. rewrite trim_repeat.
    2:{ intros x t X. destruct (before_ff_prefix full) as [u U]. rewrite X in U. rewrite U in FH. exact FH. }
    now destruct (before_ff full).
Qed.

Lemma is_resource_unique : forall res ty id ty' id', is_resource res ty id -> is_resource res ty' id' -> ty = ty' /\ id = id'.
Proof.
  intros res ty id ty' id' (n & m & E & NT & TN & IN & IH) (n' & m' & E' & NT' & TN' & IN' & IH').
  assert (A : trim 47 res = ty ++ slashes (S m) ++ id).
  { rewrite E. apply trim_repeat. intros x t X. destruct ty as [|y ty]; [easy|]. cbn in X. injection X as <- _. intros ->. apply NT. now left. }
  assert (A' : trim 47 res = ty' ++ slashes (S m') ++ id').
  { rewrite E'. apply trim_repeat. intros x t X. destruct ty' as [|y ty']; [easy|]. cbn in X. injection X as <- _. intros ->. apply NT'. now left. }
  assert (C : cut 47 (trim 47 res) = Some (ty, slashes m ++ id)) by (apply cut_some; split; auto).
  assert (C' : cut 47 (trim 47 res) = Some (ty', slashes m' ++ id')) by (apply cut_some; split; auto).
  rewrite C in C'. assert (T : ty = ty') by congruence. assert (I : slashes m ++ id = slashes m' ++ id') by congruence. split; auto.
  rewrite <- (trim_repeat 47 m id) by (apply hd_not; auto). fold (slashes m). rewrite I. apply trim_repeat. apply hd_not; auto.
Qed.

Lemma is_empty_spec : forall s, is_empty s = false <-> s <> [].
Proof. intros [|x s]; cbn; split; congruence. Qed.
Lemma is_empty_true : forall s, is_empty s = true <-> s = [].
Proof. intros [|x s]; cbn; split; congruence. Qed.

(** A valid key ARN: of a key or of an alias. *)
Definition valid_arn (s p r ac res : list N) : Prop :=
  kms_arn s p r ac res /\ exists ty id, is_resource res ty id /\ (ty = text "alias" \/ ty = text "key") /\ hd 0 id <> 255.

Lemma before_ff_nil : forall s, s <> [] -> (before_ff s <> [] <-> hd 0 s <> 255).
Proof.
  intros [|x s] H; [easy|]. unfold before_ff. cbn. destruct (N.eqb_spec x 255) as [->|D]; [split; congruence|].
  destruct (cut 255 s) as [[a b]|]; split; easy.
Qed.

Lemma is_resource_id : forall res ty id, is_resource res ty id -> id <> [].
Proof. intros res ty id (n & m & E & NT & TN & IN & IH). exact IN. Qed.
Lemma is_resource_ne : forall res ty id, is_resource res ty id -> res <> [].
Proof. intros res ty id (n & m & -> & NT & TN & IN & IH) H. apply app_eq_nil in H. destruct H as [_ H]. apply app_eq_nil in H. now destruct H. Qed.

Lemma is_valid_arn_spec : forall s a, arn_parse s = Some a ->
  (is_valid_arn a = true <-> valid_arn s (arn_partition a) (arn_region a) (arn_account a) (arn_resource a)).
Proof.
  intros s a P. apply arn_parse_spec in P. unfold is_valid_arn, valid_arn, kms_arn. rewrite !c_str_text. split.
  - intros H. destruct (is_empty (arn_partition a)) eqn:E1; [discriminate|]. destruct (bytes_eqb (arn_service a) (text "kms")) eqn:E2; [|discriminate].
    destruct (is_empty (arn_region a)) eqn:E3; [discriminate|]. destruct (is_empty (arn_account a)) eqn:E4; [discriminate|].
    destruct (is_empty (arn_resource a)) eqn:E5; [discriminate|]. cbn [negb andb] in H.
    apply is_empty_spec in E1, E3, E4, E5. apply bytes_eqb_spec in E2. rewrite E2 in P.
    destruct (split_two (arn_resource a)) as [[ty id]|] eqn:S2; [|discriminate]. apply split_two_spec in S2. destruct S2 as (full & R & -> & BN).
    split; [auto|]. exists ty, full. split; [exact R|]. split.
    + apply andb_prop in H. destruct H as [H _]. apply orb_prop in H. destruct H as [H|H]; apply bytes_eqb_spec in H; auto.
    + apply before_ff_nil; auto. eapply is_resource_id; eauto.
  - intros ((PA & E1 & E3 & E4) & ty & id & R & T & F).
    destruct (is_arn_unique _ _ _ _ _ _ _ _ _ _ _ P PA) as (_ & SV & _). 
    apply is_empty_spec in E1, E3, E4. pose proof (is_resource_ne _ _ _ R) as E5. apply is_empty_spec in E5.
    rewrite E1, E3, E4, E5, SV, bytes_eqb_refl. cbn [negb andb].
    assert (BN : before_ff id <> []) by (apply before_ff_nil; auto; eapply is_resource_id; eauto).
    assert (S2 : split_two (arn_resource a) = Some (ty, before_ff id)) by (apply split_two_spec; eauto).
    rewrite S2. apply andb_true_iff. split.
    + apply orb_true_iff. destruct T as [->| ->]; rewrite bytes_eqb_refl; auto.
    + apply negb_true_iff. now apply is_empty_spec.
Qed.

Lemma text_mrk : text "mrk-" = [109; 114; 107; 45]. Proof. reflexivity. Qed.
Lemma before_ff_mrk : forall full t, before_ff full = text "mrk-" ++ t -> exists t', full = text "mrk-" ++ t'.
Proof. intros full t H. destruct (before_ff_prefix full) as [u U]. rewrite H in U. rewrite <- app_assoc in U. eauto. Qed.
Lemma before_ff_mrk2 : forall t, before_ff (text "mrk-" ++ t) = text "mrk-" ++ before_ff t.
Proof. intros t. rewrite text_mrk. unfold before_ff. cbn [app cut N.eqb Pos.eqb]. now destruct (cut 255 t) as [[a b]|]. Qed.
Lemma key_not_alias : bytes_eqb (text "key") (text "alias") = false. Proof. reflexivity. Qed.

Lemma is_mrk_arn_spec : forall s a, arn_parse s = Some a ->
  (is_mrk_arn a = true <-> mrk_arn s (arn_partition a) (arn_region a) (arn_account a) (arn_resource a)).
Proof.
  intros s a P. pose proof (is_valid_arn_spec s a P) as V. unfold is_mrk_arn, mrk_arn. rewrite !c_str_text. split.
  - intros H. destruct (is_valid_arn a); [|discriminate]. destruct V as [V _]. destruct (V eq_refl) as (K & ty & id & R & T & F). clear V.
    split; [exact K|]. cbn [negb] in H. destruct (split_two (arn_resource a)) as [[ty' id']|] eqn:S2; [|discriminate].
    apply split_two_spec in S2. destruct S2 as (full & R' & -> & BN).
    destruct (bytes_eqb ty' (text "alias")); [discriminate|]. destruct (bytes_eqb ty' (text "key")) eqn:TK; [|discriminate].
    apply bytes_eqb_spec in TK. subst ty'. apply starts_with_spec in H. destruct H as [t H]. apply before_ff_mrk in H. destruct H as [t' ->]. eauto.
  - intros (K & id & R).
    assert (VA : is_valid_arn a = true).
    { apply V. split; [exact K|]. exists (text "key"), (text "mrk-" ++ id). split; [exact R|]. split; [auto|]. rewrite text_mrk. discriminate. }
    rewrite VA. cbn [negb].
    assert (S2 : split_two (arn_resource a) = Some (text "key", text "mrk-" ++ before_ff id)).
    { apply split_two_spec. exists (text "mrk-" ++ id). split; [exact R|]. split; [now rewrite before_ff_mrk2|]. now rewrite text_mrk. }
    rewrite S2, key_not_alias, bytes_eqb_refl. apply starts_with_spec. eauto.
Qed.

Lemma is_arn_starts : forall s p sv r ac res, is_arn s p sv r ac res -> exists t, s = text "arn:" ++ t.
Proof. intros s p sv r ac res [-> _]. eauto. Qed.

Lemma mrk_identifier_spec : forall s, is_kms_mrk_identifier s = true <->
  (exists p r ac res, mrk_arn s p r ac res) \/ exists t, s = text "mrk-" ++ t.
Proof.
  intros s. unfold is_kms_mrk_identifier. rewrite !c_str_text. destruct (starts_with s (text "arn:")) eqn:A.
  - apply starts_with_spec in A. destruct A as [t A]. split.
    + destruct (arn_parse s) as [a|] eqn:P; [|discriminate]. intros H. left. eapply is_mrk_arn_spec in H; eauto.
    + intros [(p & r & ac & res & H)|[t' H]].
      * pose proof H as [[K _] _]. pose proof (proj2 (arn_parse_spec s (mk_arn p (text "kms") r ac res)) K) as P. rewrite P.
        eapply is_mrk_arn_spec; eauto.
      * rewrite A in H. discriminate.
  - assert (NA : forall p r ac res, ~ mrk_arn s p r ac res).
    { intros p r ac res [[K _] _]. apply is_arn_starts in K. apply starts_with_spec in K. congruence. }
    destruct (starts_with s (text "alias/")) eqn:B.
    + split; [discriminate|]. intros [(p & r & ac & res & H)|[t H]]; [now apply NA in H|].
      apply starts_with_spec in B. destruct B as [u B]. rewrite B in H. discriminate.
    + destruct (starts_with s (text "mrk-")) eqn:C.
      * apply starts_with_spec in C. split; auto.
      * split; [discriminate|]. intros [(p & r & ac & res & H)|H]; [now apply NA in H|]. apply starts_with_spec in H. congruence.
Qed.

Lemma mrk_arn_id : forall s p r ac res, mrk_arn s p r ac res -> is_kms_mrk_identifier s = true.
Proof. intros. apply mrk_identifier_spec. left. eauto. Qed.
Lemma mrk_arn_parse : forall s p r ac res, mrk_arn s p r ac res -> arn_parse s = Some (mk_arn p (text "kms") r ac res).
Proof. intros s p r ac res [[K _] _]. now apply arn_parse_spec. Qed.

Lemma mrk_parsed : forall s a, arn_parse s = Some a -> is_kms_mrk_identifier s = true ->
  mrk_arn s (arn_partition a) (arn_region a) (arn_account a) (arn_resource a).
Proof.
  intros s a P H. apply mrk_identifier_spec in H. destruct H as [(p & r & ac & res & H)|[t H]].
  - pose proof (mrk_arn_parse _ _ _ _ _ H) as Q. rewrite P in Q. injection Q as ->. exact H.
  - apply arn_parse_spec in P. apply is_arn_starts in P. destruct P as [u P]. rewrite P in H. discriminate.
Qed.

Lemma C48_match_lemma : forall s1 s2, kms_mrk_match_for_decrypt s1 s2 = true <-> s1 = s2 \/ related_mrk s1 s2.
Proof.
  intros s1 s2. unfold kms_mrk_match_for_decrypt, related_mrk. destruct (bytes_eqb s1 s2) eqn:E.
  - apply bytes_eqb_spec in E. split; auto.
  - apply bytes_eqb_false in E. split.
    + intros H. right. destruct (is_kms_mrk_identifier s1) eqn:I1; [|discriminate]. destruct (is_kms_mrk_identifier s2) eqn:I2; [|discriminate].
      cbn [negb orb] in H. destruct (arn_parse s1) as [a1|] eqn:P1; [|discriminate]. destruct (arn_parse s2) as [a2|] eqn:P2; [|discriminate].
      pose proof (mrk_parsed _ _ P1 I1) as M1. pose proof (mrk_parsed _ _ P2 I2) as M2.
      apply andb_prop in H. destruct H as [H H4]. apply andb_prop in H. destruct H as [H H3]. apply andb_prop in H. destruct H as [H1 H2].
      apply bytes_eqb_spec in H1, H3, H4. rewrite H1, H3, H4 in M1. eauto 10.
    + intros [?|(p & r1 & r2 & ac & res & M1 & M2)]; [easy|].
      rewrite (mrk_arn_id _ _ _ _ _ M1), (mrk_arn_id _ _ _ _ _ M2), (mrk_arn_parse _ _ _ _ _ M1), (mrk_arn_parse _ _ _ _ _ M2).
      cbn. now rewrite !bytes_eqb_refl.
Qed.

Lemma related_sym : forall a b, related_mrk a b -> related_mrk b a.
Proof. intros a b (p & r1 & r2 & ac & res & M1 & M2). exists p, r2, r1, ac, res. auto. Qed.
Lemma mrk_arn_unique : forall s p r ac res p' r' ac' res', mrk_arn s p r ac res -> mrk_arn s p' r' ac' res' -> p = p' /\ r = r' /\ ac = ac' /\ res = res'.
Proof. intros s p r ac res p' r' ac' res' [[K _] _] [[K' _] _]. destruct (is_arn_unique _ _ _ _ _ _ _ _ _ _ _ K K') as (? & ? & ? & ? & ?). auto. Qed.
Lemma related_trans : forall a b c, related_mrk a b -> related_mrk b c -> related_mrk a c.
Proof.
  intros a b c (p & r1 & r2 & ac & res & M1 & M2) (p' & r1' & r2' & ac' & res' & M1' & M2').
  destruct (mrk_arn_unique _ _ _ _ _ _ _ _ _ M2 M1') as (<- & <- & <- & <-). exists p, r1, r2', ac, res. auto.
Qed.

Lemma C48_equivalence_lemma :
  (forall s, kms_mrk_match_for_decrypt s s = true)
  /\ (forall s1 s2, kms_mrk_match_for_decrypt s1 s2 = true -> kms_mrk_match_for_decrypt s2 s1 = true)
  /\ (forall s1 s2 s3, kms_mrk_match_for_decrypt s1 s2 = true -> kms_mrk_match_for_decrypt s2 s3 = true -> kms_mrk_match_for_decrypt s1 s3 = true).
Proof.
  split; [|split].
  - intros. apply C48_match_lemma. auto.
  - intros s1 s2 H. apply C48_match_lemma in H. apply C48_match_lemma. destruct H as [->|H]; auto using related_sym.
  - intros s1 s2 s3 H H2. apply C48_match_lemma in H, H2. apply C48_match_lemma. destruct H as [->|H], H2 as [->|H2]; eauto using related_trans.
Qed.

Lemma C48_never_lemma : forall s1 s2 p1 sv1 r1 ac1 res1 p2 sv2 r2 ac2 res2,
  is_arn s1 p1 sv1 r1 ac1 res1 -> is_arn s2 p2 sv2 r2 ac2 res2 -> kms_mrk_match_for_decrypt s1 s2 = true ->
  p1 = p2 /\ sv1 = sv2 /\ ac1 = ac2 /\ res1 = res2 /\ (r1 <> r2 -> exists id, is_resource res1 (text "key") (text "mrk-" ++ id)).
Proof.
  intros s1 s2 p1 sv1 r1 ac1 res1 p2 sv2 r2 ac2 res2 A1 A2 H. apply C48_match_lemma in H. destruct H as [<-|(p & r & r' & ac & res & M1 & M2)].
  - destruct (is_arn_unique _ _ _ _ _ _ _ _ _ _ _ A1 A2) as (-> & -> & -> & -> & ->). repeat (split; auto). easy.
  - destruct M1 as [[K1 _] R]. destruct M2 as [[K2 _] _].
    destruct (is_arn_unique _ _ _ _ _ _ _ _ _ _ _ A1 K1) as (-> & -> & _ & -> & ->).
    destruct (is_arn_unique _ _ _ _ _ _ _ _ _ _ _ A2 K2) as (-> & -> & _ & -> & ->). repeat (split; auto).
Qed.

(** ** Region *)
Lemma parse_region_spec : forall s r, (parse_region s = r /\ r <> []) <-> names_region s r.
Proof.
  intros s r. unfold parse_region, names_region. rewrite !c_str_text. change COLON with 58. split.
  - intros [H N]. destruct (cut 58 s) as [[g1 s1]|] eqn:C1; [|congruence].
    destruct (bytes_eqb g1 (text "arn")) eqn:B1; cbn [negb] in H; [|congruence].
    destruct (cut 58 s1) as [[g2 s2]|] eqn:C2; [|congruence].
    destruct (cut 58 s2) as [[g3 s3]|] eqn:C3; [|congruence].
    destruct (bytes_eqb g3 (text "kms")) eqn:B3; cbn [negb] in H; [|congruence].
    destruct (cut 58 s3) as [[g4 s4]|] eqn:C4; [|congruence]. subst g4.
    apply cut_some in C1, C2, C3, C4. apply bytes_eqb_spec in B1, B3. destruct C1 as [-> _], C2 as [-> N2], C3 as [-> N3], C4 as [-> N4]. subst.
    exists g2, s4. split; [|auto]. rewrite text_arn, text_colon. rewrite <- !app_assoc. reflexivity.
  - intros (p & rest & -> & NP & NR & N). split; [|exact N].
    assert (E : text "arn:" ++ p ++ text ":kms:" ++ r ++ text ":" ++ rest = text "arn" ++ 58 :: p ++ 58 :: text "kms" ++ 58 :: r ++ 58 :: rest).
    { rewrite text_arn, text_colon. rewrite <- !app_assoc. reflexivity. }
    rewrite E. rewrite (proj2 (cut_some 58 _ (text "arn") _) (conj eq_refl no_colon_arn)). rewrite bytes_eqb_refl. cbn [negb].
    rewrite (proj2 (cut_some 58 _ p _) (conj eq_refl NP)).
    rewrite (proj2 (cut_some 58 _ (text "kms") _) (conj eq_refl no_colon_kms)). rewrite bytes_eqb_refl. cbn [negb].
    rewrite (proj2 (cut_some 58 _ r _) (conj eq_refl NR)). reflexivity.
Qed.
Lemma region_unique : forall s r r', names_region s r -> names_region s r' -> r = r'.
Proof. intros s r r' H H'. apply parse_region_spec in H, H'. destruct H, H'. congruence. Qed.
Lemma region_names : forall s, parse_region s <> [] -> names_region s (parse_region s).
Proof. intros s H. now apply parse_region_spec. Qed.

(** A KMS ARN names its region. *)
Lemma kms_arn_region : forall s p r ac res, kms_arn s p r ac res -> names_region s r.
Proof.
  intros s p r ac res ((-> & N1 & N2 & N3 & N4) & P & R & A). exists p, (ac ++ text ":" ++ res). split; [|auto].
  reflexivity.
Qed.

(** ** Discovery filter *)
Lemma mem_string_spec : forall s l, mem_string s l = true <-> In s l.
Proof.
  intros s l. unfold mem_string. rewrite existsb_exists. split.
  - intros (x & I & E). apply bytes_eqb_spec in E. now subst.
  - intros I. exists s. split; auto using bytes_eqb_refl.
Qed.
Lemma is_authorized_spec : forall f s, is_authorized f s = true <-> filter_allows f s.
Proof.
  intros f s. unfold is_authorized, filter_allows. split.
  - destruct (arn_parse s) as [a|] eqn:P; [|discriminate]. apply arn_parse_spec in P. intros H. apply andb_prop in H. destruct H as [H1 H2].
    apply bytes_eqb_spec in H1. apply mem_string_spec in H2. eauto 10.
  - intros (p & sv & r & ac & res & A & -> & I). pose proof (proj2 (arn_parse_spec s (mk_arn _ sv r ac res)) A) as P. rewrite P. cbn.
    rewrite bytes_eqb_refl. now apply mem_string_spec.
Qed.

(** ** Duplicates *)
Lemma bytes_ltb_irrefl : forall a, bytes_ltb a a = false.
Proof. induction a as [|x a IH]; cbn; auto. now rewrite N.ltb_irrefl. Qed.
Lemma bytes_ltb_trans : forall a b c, bytes_ltb a b = true -> bytes_ltb b c = true -> bytes_ltb a c = true.
Proof.
  induction a as [|x a IH]; intros [|y b] [|z c]; cbn; auto; try discriminate.
  destruct (N.ltb_spec x y), (N.ltb_spec y z), (N.ltb_spec x z), (N.ltb_spec y x), (N.ltb_spec z y), (N.ltb_spec z x); try lia; auto; try discriminate.
  intros. eapply IH; eauto.
Qed.
Lemma bytes_ltb_total : forall a b, a <> b -> bytes_ltb a b = false -> bytes_ltb b a = true.
Proof.
  induction a as [|x a IH]; intros [|y b]; cbn; auto; try congruence.
  destruct (N.ltb_spec x y), (N.ltb_spec y x); try lia; auto; try discriminate. assert (x = y) by lia. subst y.
  intros D H1. apply IH; congruence.
Qed.

Fixpoint ascending (m : mrk_map) : Prop :=
  match m with
  | [] => True
  | (k, _) :: m' => (forall k' v, In (k', v) m' -> bytes_ltb k k' = true) /\ ascending m'
  end.
Fixpoint mfind (k : list N) (m : mrk_map) : list (list N) :=
  match m with [] => [] | (k', vs) :: m' => if bytes_eqb k k' then vs else mfind k m' end.

Lemma push_keys : forall k v m k' vs, In (k', vs) (map_push k v m) -> k' = k \/ exists vs', In (k', vs') m.
Proof.
  induction m as [|[k1 v1] m IH]; intros k' vs; cbn [map_push].
  - intros [H|[]]. left. congruence.
  - destruct (bytes_eqb k k1) eqn:E.
    + apply bytes_eqb_spec in E. subst k1. intros [H|H]; [left; congruence|right; exists vs; now right].
    + destruct (bytes_ltb k k1).
      * intros [H|H]; [left; congruence|right; exists vs; exact H].
      * intros [H|H]; [right; exists v1; left; congruence|]. destruct (IH _ _ H) as [?|[vs' I]]; auto. right. exists vs'. now right.
Qed.
Lemma push_ascending : forall k v m, ascending m -> ascending (map_push k v m).
Proof.
  induction m as [|[k1 v1] m IH]; cbn [map_push ascending].
  - intros _. split; [intros k' v' []|exact I].
  - intros [A B]. destruct (bytes_eqb k k1) eqn:E; [cbn; auto|]. destruct (bytes_ltb k k1) eqn:L.
    + cbn [ascending]. split; [|auto]. intros k' v' [H|H]; [congruence|]. eapply bytes_ltb_trans; eauto.
    + cbn [ascending]. split; [|auto]. intros k' v' H. apply push_keys in H. destruct H as [->|[vs' H]]; [|eauto].
      apply bytes_ltb_total; [|exact L]. now apply bytes_eqb_false in E.
Qed.
Lemma mfind_none : forall k m, (forall k' v, In (k', v) m -> bytes_ltb k k' = true) -> mfind k m = [].
Proof.
  induction m as [|[k1 v1] m IH]; intros H; cbn; auto. destruct (bytes_eqb k k1) eqn:E; [|apply IH; intros; eapply H; right; eauto].
  apply bytes_eqb_spec in E. subst k1. specialize (H k v1 (or_introl eq_refl)). rewrite bytes_ltb_irrefl in H. discriminate.
Qed.
Lemma push_find : forall k v m k', ascending m -> mfind k' (map_push k v m) = if bytes_eqb k' k then mfind k m ++ [v] else mfind k' m.
Proof.
  induction m as [|[k1 v1] m IH]; intros k' A; cbn [map_push mfind].
  - destruct (bytes_eqb k' k); reflexivity.
  - destruct A as [A B]. destruct (bytes_eqb k k1) eqn:E.
    + apply bytes_eqb_spec in E. subst k1. cbn [mfind]. destruct (bytes_eqb k' k); reflexivity.
    + destruct (bytes_ltb k k1) eqn:L.
      * cbn [mfind]. destruct (bytes_eqb k' k) eqn:E'; [|reflexivity]. rewrite mfind_none; auto.
        intros k2 v2 I. eapply bytes_ltb_trans; eauto.
      * cbn [mfind]. destruct (bytes_eqb k' k1) eqn:E1.
        -- apply bytes_eqb_spec in E1. subst k1. destruct (bytes_eqb k' k) eqn:E2; [|reflexivity].
           apply bytes_eqb_spec in E2. subst k'. now rewrite bytes_eqb_refl in E.
        -- apply IH. exact B.
Qed.
Lemma mfind_in : forall k vs m, ascending m -> In (k, vs) m -> mfind k m = vs.
Proof.
  induction m as [|[k1 v1] m IH]; intros A I; [destruct I|]. cbn [mfind]. destruct A as [A B]. destruct I as [I|I].
  - injection I as -> ->. now rewrite bytes_eqb_refl.
  - destruct (bytes_eqb k k1) eqn:E; [|auto]. apply bytes_eqb_spec in E. subst k1. apply A in I. rewrite bytes_ltb_irrefl in I. discriminate.
Qed.
Lemma mfind_some : forall k m, mfind k m <> [] -> exists vs, In (k, vs) m.
Proof.
  induction m as [|[k1 v1] m IH]; cbn [mfind]; intros H; [easy|]. destruct (bytes_eqb k k1) eqn:E.
  - apply bytes_eqb_spec in E. subst k1. exists v1. now left.
  - destruct (IH H) as [vs I]. exists vs. now right.
Qed.

(** The key under which an identifier is collected. *)
Definition collect_key (s : list N) : option (list N) :=
  match arn_parse s with
  | Some a => if is_mrk_arn a then match split_two (arn_resource a) with Some (_, id) => Some id | None => None end
              else if is_kms_mrk_identifier s then Some s else None
  | None => if is_kms_mrk_identifier s then Some s else None
  end.
Lemma collect_mrk_key : forall m s, collect_mrk m s = match collect_key s with Some id => map_push id s m | None => m end.
Proof.
  intros m s. unfold collect_mrk, collect_key. destruct (arn_parse s) as [a|]; [destruct (is_mrk_arn a)|].
  - now destruct (split_two (arn_resource a)) as [[ty id]|].
  - now destruct (is_kms_mrk_identifier s).
  - now destruct (is_kms_mrk_identifier s).
Qed.
Definition has_key (k s : list N) : bool := match collect_key s with Some id => bytes_eqb k id | None => false end.

Lemma collect_fold : forall ids m, ascending m -> let m' := fold_left collect_mrk ids m in
  ascending m' /\ forall k, mfind k m' = mfind k m ++ List.filter (has_key k) ids.
Proof.
  induction ids as [|s ids IH]; intros m A; cbn [fold_left].
  - split; auto. intros k. now rewrite app_nil_r.
  - assert (A' : ascending (collect_mrk m s)) by (rewrite collect_mrk_key; destruct (collect_key s); auto using push_ascending).
    destruct (IH _ A') as [B F]. split; [exact B|]. intros k. rewrite F. cbn [List.filter]. unfold has_key at 2. rewrite collect_mrk_key.
    destruct (collect_key s) as [id|]; [|reflexivity]. rewrite push_find by exact A. destruct (bytes_eqb k id) eqn:E; [|reflexivity].
    apply bytes_eqb_spec in E. subst id. now rewrite <- app_assoc.
Qed.

Lemma find_duplicate_spec : forall ids s, In s (find_duplicate_kms_mrk_ids ids) <->
  exists k, In s ids /\ collect_key s = Some k /\ (2 <= length (List.filter (has_key k) ids))%nat.
Proof.
  intros ids s. unfold find_duplicate_kms_mrk_ids. destruct (collect_fold ids [] I) as [A F]. cbn [mfind app] in F.
  set (m := fold_left collect_mrk ids []) in *. rewrite in_flat_map. split.
  - intros ([k vs] & I & J). cbn [snd] in J. destruct (Nat.ltb_spec (length vs) 2) as [L|L]; [destruct J|].
    pose proof (mfind_in _ _ _ A I) as E. rewrite F in E. subst vs. apply filter_In in J. destruct J as [J H].
    exists k. split; auto. split; [|exact L]. unfold has_key in H. destruct (collect_key s); [|discriminate]. apply bytes_eqb_spec in H. now subst.
  - intros (k & I & C & L). assert (NE : mfind k m <> []) by (rewrite F; intros Z; rewrite Z in L; cbn in L; lia).
    apply mfind_some in NE. destruct NE as [vs V]. exists (k, vs). split; [exact V|]. pose proof (mfind_in _ _ _ A V) as E. rewrite F in E. subst vs.
    cbn [snd]. destruct (Nat.ltb_spec (length (List.filter (has_key k) ids)) 2) as [L'|L']; [lia|].
    apply filter_In. split; auto. unfold has_key. rewrite C. apply bytes_eqb_refl.
Qed.

Lemma collect_key_spec : forall s id, ~ In 255 s -> (collect_key s = Some id <-> mrk_key_id s id).
Proof.
  intros s id NF. unfold collect_key, mrk_key_id. split.
  - intros H. destruct (arn_parse s) as [a|] eqn:P.
    + destruct (is_mrk_arn a) eqn:M.
      * left. pose proof M as M'. eapply is_mrk_arn_spec in M'; eauto.
        destruct (split_two (arn_resource a)) as [[ty id']|] eqn:S2; [|discriminate]. injection H as ->.
        apply split_two_spec in S2. destruct S2 as (full & R & -> & BN).
        assert (T : ty = text "key"). { destruct M' as [_ [t R']]. now destruct (is_resource_unique _ _ _ _ _ R R') as [-> _]. }
        subst ty. exists (arn_partition a), (arn_region a), (arn_account a), (arn_resource a). split; [exact M'|].
        rewrite before_ff_id; [exact R|]. destruct R as (n & m & RE & _). apply arn_parse_spec in P. destruct P as [P _].
        intros I. apply NF. rewrite P, RE. repeat (apply in_or_app; right). exact I.
      * right. destruct (is_kms_mrk_identifier s) eqn:K; [|discriminate]. injection H as ->. split; auto.
        apply mrk_identifier_spec in K. destruct K as [(p & r & ac & res & K)|K]; [|exact K].
        pose proof (mrk_arn_parse _ _ _ _ _ K) as Q. rewrite P in Q. injection Q as ->. pose proof (proj2 (is_mrk_arn_spec _ _ P) K). congruence.
    + right. destruct (is_kms_mrk_identifier s) eqn:K; [|discriminate]. injection H as ->. split; auto.
      apply mrk_identifier_spec in K. destruct K as [(p & r & ac & res & K)|K]; [|exact K]. apply mrk_arn_parse in K. congruence.
  - intros [(p & r & ac & res & M & R)|[-> [t T]]].
    + rewrite (mrk_arn_parse _ _ _ _ _ M). cbn [arn_resource].
      assert (MA : is_mrk_arn (mk_arn p (text "kms") r ac res) = true) by (eapply is_mrk_arn_spec; [eapply mrk_arn_parse; eauto|exact M]).
      rewrite MA.
      assert (NI : ~ In 255 id). { destruct M as [[[E _] _] _]. destruct R as (n & m & RE & _). intros I. apply NF. rewrite E, RE. repeat (apply in_or_app; right). exact I. }
      assert (S2 : split_two res = Some (text "key", id)).
      { apply split_two_spec. exists id. split; [exact R|]. rewrite before_ff_id by exact NI. split; auto. eapply is_resource_id; eauto. }
      now rewrite S2.
    + assert (NA : arn_parse id = None).
      { destruct (arn_parse id) as [a|] eqn:P; auto. apply arn_parse_spec in P. apply is_arn_starts in P. destruct P as [u P]. rewrite P in T. discriminate. }
      rewrite NA. assert (K : is_kms_mrk_identifier id = true) by (apply mrk_identifier_spec; right; eauto). now rewrite K.
Qed.

Lemma filter_two : forall {A} (f : A -> bool) l, (2 <= length (List.filter f l))%nat <->
  exists l1 a l2 b l3, l = l1 ++ a :: l2 ++ b :: l3 /\ f a = true /\ f b = true.
Proof.
  intros A f l. split.
  - induction l as [|x l IH]; cbn [List.filter]; [cbn; lia|]. destruct (f x) eqn:E.
    + cbn. intros H. assert (F : exists b, In b (List.filter f l)). { destruct (List.filter f l) as [|b t]; [cbn in H; lia|]. exists b. now left. }
      destruct F as [b F]. apply filter_In in F. destruct F as [I Fb]. apply in_split in I. destruct I as (l2 & l3 & ->).
      exists [], x, l2, b, l3. auto.
    + intros H. destruct (IH H) as (l1 & a & l2 & b & l3 & -> & Fa & Fb). exists (x :: l1), a, l2, b, l3. auto.
  - intros (l1 & a & l2 & b & l3 & -> & Fa & Fb). rewrite !filter_app. cbn [List.filter]. rewrite Fa, app_length. cbn.
    rewrite filter_app. cbn. rewrite Fb, app_length. cbn. lia.
Qed.

Lemma duplicates_twice : forall ids, (forall s, In s ids -> ~ In 255 s) -> forall s,
  In s (find_duplicate_kms_mrk_ids ids) <-> exists id, In s ids /\ mrk_key_id s id /\ same_mrk_twice ids id.
Proof.
  intros ids NF s. rewrite find_duplicate_spec. unfold same_mrk_twice.
  assert (HK : forall k x, In x ids -> (has_key k x = true <-> mrk_key_id x k)).
  { intros k x I. rewrite <- collect_key_spec by auto. unfold has_key. destruct (collect_key x) as [id|]; [|split; discriminate].
    rewrite bytes_eqb_spec. split; congruence. }
  split.
  - intros (k & I & C & L). exists k. split; auto. split; [now apply collect_key_spec; auto|]. apply filter_two in L.
    destruct L as (l1 & a & l2 & b & l3 & E & Fa & Fb). exists l1, a, l2, b, l3. split; auto.
    split; (apply HK; [|assumption]); rewrite E; apply in_or_app; right; [now left|]. right. apply in_or_app. right. now left.
  - intros (k & I & C & (l1 & a & l2 & b & l3 & E & Fa & Fb)). exists k. split; auto. split; [now apply collect_key_spec; auto|].
    apply filter_two. exists l1, a, l2, b, l3. split; auto.
    split; (apply HK; [|assumption]); rewrite E; apply in_or_app; right; [now left|]. right. apply in_or_app. right. now left.
Qed.

Lemma duplicates_exist : forall ids, (forall s, In s ids -> ~ In 255 s) ->
  (find_duplicate_kms_mrk_ids ids <> [] <-> exists id, same_mrk_twice ids id).
Proof.
  intros ids NF. split.
  - intros H. destruct (find_duplicate_kms_mrk_ids ids) as [|s l] eqn:E; [easy|].
    assert (I : In s (find_duplicate_kms_mrk_ids ids)) by (rewrite E; now left). apply duplicates_twice in I; auto. destruct I as (id & _ & _ & T). eauto.
  - intros (id & l1 & a & l2 & b & l3 & E & Fa & Fb). assert (I : In a (find_duplicate_kms_mrk_ids ids)).
    { apply duplicates_twice; auto. exists id. split; [rewrite E; apply in_or_app; right; now left|]. split; auto. unfold same_mrk_twice. eauto 10. }
    intros Z. now rewrite Z in I.
Qed.

Lemma filter_length_perm : forall {A} (f : A -> bool) l l', Permutation l l' -> length (List.filter f l) = length (List.filter f l').
Proof. induction 1; cbn; auto; repeat destruct (f _); cbn; auto; congruence. Qed.

Lemma duplicates_perm : forall ids ids', Permutation ids ids' -> forall s, In s (find_duplicate_kms_mrk_ids ids) <-> In s (find_duplicate_kms_mrk_ids ids').
Proof.
  intros ids ids' P s. rewrite !find_duplicate_spec. split; intros (k & I & C & L); exists k.
  - split; [eapply Permutation_in; eauto|]. split; auto. now rewrite <- (filter_length_perm _ _ _ P).
  - split; [eapply Permutation_in; [symmetry|]; eauto|]. split; auto. now rewrite (filter_length_perm _ _ _ P).
Qed.
