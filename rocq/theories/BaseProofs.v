(** Lemmas about bytes, big-endian integers and parsers. *)
From Verif Require Import Base.
From Coq Require Import ZArith ZifyBool ZifyNat ZifyN Permutation.
Open Scope N_scope.
#[global] Ltac Zify.zify_post_hook ::= Z.div_mod_to_equations.

#[global] Arguments N.add : simpl never.
#[global] Arguments N.mul : simpl never.
#[global] Arguments N.sub : simpl never.
#[global] Arguments N.div : simpl never.
#[global] Arguments N.modulo : simpl never.
#[global] Arguments N.pow : simpl never.
#[global] Arguments N.ltb : simpl never.
#[global] Arguments N.leb : simpl never.
#[global] Arguments N.eqb : simpl never.
#[global] Arguments N.of_nat : simpl never.
#[global] Arguments N.to_nat : simpl never.
#[global] Arguments N.compare : simpl never.

(** Case split on the innermost boolean test or match of the goal. *)
Ltac casetest :=
  match goal with
  | |- context [if ?c then _ else _] => let E := fresh "E" in destruct c eqn:E
  end.

Ltac inv H := inversion H; subst; clear H.

Lemma Nlen_nil : forall A, Nlen (@nil A) = 0.
Proof. reflexivity. Qed.
Lemma Nlen_cons : forall A (x : A) l, Nlen (x :: l) = 1 + Nlen l.
Proof. intros. unfold Nlen. cbn [length]. lia. Qed.
Lemma Nlen_app : forall A (a b : list A), Nlen (a ++ b) = Nlen a + Nlen b.
Proof. intros. unfold Nlen. rewrite app_length. lia. Qed.
Lemma Nlen_map : forall A B (f : A -> B) l, Nlen (map f l) = Nlen l.
Proof. intros. unfold Nlen. now rewrite map_length. Qed.
Lemma Nlen_0 : forall A (l : list A), Nlen l = 0 -> l = [].
Proof. intros A [|x l] H; [auto|]. rewrite Nlen_cons in H. lia. Qed.
Lemma Nlen_perm : forall A (a b : list A), Permutation a b -> Nlen a = Nlen b.
Proof. intros. unfold Nlen. now rewrite (Permutation_length H). Qed.
Lemma length_Nlen : forall A (l : list A), length l = N.to_nat (Nlen l).
Proof. intros. unfold Nlen. lia. Qed.
Lemma Nlen_firstn : forall A n (l : list A), n <= Nlen l -> Nlen (firstn (N.to_nat n) l) = n.
Proof. intros. unfold Nlen in *. rewrite firstn_length. lia. Qed.
Lemma Nlen_skipn : forall A n (l : list A), Nlen (skipn (N.to_nat n) l) = Nlen l - n.
Proof. intros. unfold Nlen in *. rewrite skipn_length. lia. Qed.
Lemma Nlen_zeros : forall n, Nlen (zeros n) = n.
Proof. intros. unfold Nlen, zeros. rewrite repeat_length. lia. Qed.
Lemma Nlen_firstn_skipn : forall A n (l : list A), firstn n l ++ skipn n l = l.
Proof. intros. apply firstn_skipn. Qed.

Ltac nlen := rewrite ?Nlen_app, ?Nlen_cons, ?Nlen_nil, ?Nlen_map in *.

Lemma bytes_ok_app : forall a b, bytes_ok (a ++ b) <-> bytes_ok a /\ bytes_ok b.
Proof. intros. unfold bytes_ok. apply Forall_app. Qed.
Lemma bytes_ok_nil : bytes_ok [].
Proof. constructor. Qed.
Lemma bytes_ok_zeros : forall n, bytes_ok (zeros n).
Proof. intros. apply Forall_forall. intros x H. apply repeat_spec in H. subst. red. lia. Qed.
Lemma bytes_ok_firstn : forall n l, bytes_ok l -> bytes_ok (firstn n l).
Proof. intros n l H. rewrite <- (firstn_skipn n l) in H. apply bytes_ok_app in H. tauto. Qed.
Lemma bytes_ok_skipn : forall n l, bytes_ok l -> bytes_ok (skipn n l).
Proof. intros n l H. rewrite <- (firstn_skipn n l) in H. apply bytes_ok_app in H. tauto. Qed.

(** ** Big-endian integers *)

Lemma be_bytes_length : forall k n, length (be_bytes k n) = k.
Proof. induction k; intros; cbn [be_bytes length]; auto. Qed.
Lemma Nlen_be_bytes : forall k n, Nlen (be_bytes k n) = N.of_nat k.
Proof. intros. unfold Nlen. now rewrite be_bytes_length. Qed.

Lemma be_bytes_ok : forall k n, bytes_ok (be_bytes k n).
Proof.
  induction k; intros; cbn [be_bytes]; [apply bytes_ok_nil|].
  constructor; [|apply IHk]. red. apply N.mod_lt. lia.
Qed.

Lemma be_val_app_aux : forall l a,
  fold_left (fun a b => a * 256 + b) l a = a * 2 ^ (8 * Nlen l) + be_val l.
Proof.
  unfold be_val. induction l as [|x l IH]; intros a.
  - cbn [fold_left]. rewrite Nlen_nil. change (8 * 0) with 0. rewrite N.pow_0_r. lia.
  - cbn [fold_left]. rewrite IH. rewrite (IH (0 * 256 + x)). rewrite Nlen_cons.
    replace (8 * (1 + Nlen l)) with (8 + 8 * Nlen l) by lia.
    rewrite N.pow_add_r. change (2 ^ 8) with 256. lia.
Qed.

Lemma be_val_cons : forall x l, be_val (x :: l) = x * 2 ^ (8 * Nlen l) + be_val l.
Proof.
  intros. unfold be_val at 1. cbn [fold_left]. rewrite be_val_app_aux. lia.
Qed.

Lemma pow8_pos : forall k, 0 < 2 ^ k.
Proof. intros. apply N.neq_0_lt_0. apply N.pow_nonzero. lia. Qed.

Lemma be_val_bound : forall l, bytes_ok l -> be_val l < 2 ^ (8 * Nlen l).
Proof.
  induction l as [|x l IH]; intros H.
  - reflexivity.
  - inv H. rewrite be_val_cons, Nlen_cons. specialize (IH H3). red in H2.
    replace (8 * (1 + Nlen l)) with (8 + 8 * Nlen l) by lia.
    rewrite N.pow_add_r. change (2 ^ 8) with 256.
    pose proof (pow8_pos (8 * Nlen l)). nia.
Qed.

Lemma be_val_be_bytes : forall k n, be_val (be_bytes k n) = n mod 2 ^ (8 * N.of_nat k).
Proof.
  induction k; intros.
  - cbn [be_bytes]. rewrite N.mod_1_r. reflexivity.
  - cbn [be_bytes]. rewrite be_val_cons, IHk, Nlen_be_bytes.
    replace (8 * N.of_nat (S k)) with (8 * N.of_nat k + 8) by lia.
    rewrite N.pow_add_r. change (2 ^ 8) with 256.
    rewrite N.mod_mul_r by (try lia; apply N.pow_nonzero; lia). lia.
Qed.

Lemma be_val_be_bytes_small : forall k n, n < 2 ^ (8 * N.of_nat k) -> be_val (be_bytes k n) = n.
Proof. intros. rewrite be_val_be_bytes. now apply N.mod_small. Qed.

Lemma be_bytes_step : forall k n m,
  n mod 2 ^ (8 * N.of_nat k) = m mod 2 ^ (8 * N.of_nat k) -> be_bytes k n = be_bytes k m.
Proof.
  induction k; intros n m H; [reflexivity|].
  cbn [be_bytes].
  replace (8 * N.of_nat (S k)) with (8 * N.of_nat k + 8) in H by lia.
  rewrite N.pow_add_r in H. change (2 ^ 8) with 256 in H.
  assert (P : 2 ^ (8 * N.of_nat k) <> 0) by (apply N.pow_nonzero; lia).
  rewrite !N.mod_mul_r in H by (try lia; auto).
  set (q := 2 ^ (8 * N.of_nat k)) in *.
  pose proof (N.mod_lt n q P). pose proof (N.mod_lt m q P).
  assert (n mod q = m mod q /\ (n / q) mod 256 = (m / q) mod 256) as [A B].
  { set (a := n mod q) in *. set (b := m mod q) in *.
    set (c := (n / q) mod 256) in *. set (d := (m / q) mod 256) in *.
    assert (c = d) by nia. subst c. split; nia. }
  f_equal; auto.
Qed.

Lemma be_bytes_be_val : forall l, bytes_ok l -> be_bytes (length l) (be_val l) = l.
Proof.
  induction l as [|x l IH]; intros H; [reflexivity|].
  inv H. red in H2. cbn [length be_bytes]. rewrite be_val_cons.
  pose proof (be_val_bound l H3) as B. unfold Nlen in *.
  set (q := 2 ^ (8 * N.of_nat (length l))) in *.
  assert (P : q <> 0) by (apply N.pow_nonzero; lia).
  f_equal.
  - rewrite N.div_add_l by auto. rewrite N.div_small by auto.
    rewrite N.add_0_r. now apply N.mod_small.
  - transitivity (be_bytes (length l) (be_val l)); [|now apply IH]. apply be_bytes_step. fold q.
    rewrite N.add_comm, N.mod_add by auto. reflexivity.
Qed.

Lemma be_bytes_inj : forall k n m,
  n < 2 ^ (8 * N.of_nat k) -> m < 2 ^ (8 * N.of_nat k) -> be_bytes k n = be_bytes k m -> n = m.
Proof.
  intros k n m Hn Hm H.
  rewrite <- (be_val_be_bytes_small k n Hn), <- (be_val_be_bytes_small k m Hm). now rewrite H.
Qed.

(** ** read_bytes and read_be *)

Lemma read_bytes_app : forall a s, read_bytes (Nlen a) (a ++ s) = Ok (a, s).
Proof.
  intros. unfold read_bytes. rewrite Nlen_app.
  destruct (N.ltb_spec (Nlen a + Nlen s) (Nlen a)); [lia|].
  rewrite <- length_Nlen.
  rewrite firstn_app, skipn_app, PeanoNat.Nat.sub_diag, firstn_all, skipn_all.
  cbn [firstn skipn]. rewrite app_nil_r. reflexivity.
Qed.

Lemma read_bytes_app_eq : forall n a s, n = Nlen a -> read_bytes n (a ++ s) = Ok (a, s).
Proof. intros; subst; apply read_bytes_app. Qed.

Lemma read_be_app : forall k n s, n < 2 ^ (8 * N.of_nat k) ->
  read_be k (be_bytes k n ++ s) = Ok (n, s).
Proof.
  intros. unfold read_be. rewrite (read_bytes_app_eq _ (be_bytes k n)) by (now rewrite Nlen_be_bytes).
  cbn [bind]. now rewrite be_val_be_bytes_small.
Qed.

Lemma read_bytes_inv : forall n s a r, read_bytes n s = Ok (a, r) -> s = a ++ r /\ Nlen a = n.
Proof.
  unfold read_bytes. intros n s a r H. destruct (N.ltb_spec (Nlen s) n); inv H.
  rewrite firstn_skipn. split; auto. now apply Nlen_firstn.
Qed.

Lemma read_bytes_err : forall n s e, read_bytes n s = Err e -> e = E_SHORT_BUFFER /\ Nlen s < n.
Proof. unfold read_bytes. intros n s e H. destruct (N.ltb_spec (Nlen s) n); inv H. auto. Qed.

Lemma read_bytes_short : forall n s, Nlen s < n -> read_bytes n s = Err E_SHORT_BUFFER.
Proof. unfold read_bytes. intros n s H. destruct (N.ltb_spec (Nlen s) n); auto; lia. Qed.

Lemma read_be_inv : forall k s v r, bytes_ok s -> read_be k s = Ok (v, r) ->
  s = be_bytes k v ++ r /\ v < 2 ^ (8 * N.of_nat k) /\ bytes_ok r.
Proof.
  unfold read_be. intros k s v r O H.
  destruct (read_bytes (N.of_nat k) s) as [[b r']|] eqn:E; cbn [bind] in H; inv H.
  apply read_bytes_inv in E. destruct E as [E L]. subst s.
  apply bytes_ok_app in O. destruct O as [O1 O2].
  assert (length b = k) by (unfold Nlen in L; lia). subst k.
  rewrite be_bytes_be_val by auto. split; auto. split; auto. now apply be_val_bound.
Qed.

Lemma read_be_err : forall k s e, read_be k s = Err e -> e = E_SHORT_BUFFER.
Proof.
  unfold read_be. intros k s e H.
  destruct (read_bytes (N.of_nat k) s) as [[b r']|] eqn:E; cbn [bind] in H; inv H.
  now apply read_bytes_err in E.
Qed.

(** ** Streaming-stable parsers *)

Definition good {A} (p : parser A) : Prop :=
  (forall s a r, p s = Ok (a, r) -> exists pre, s = pre ++ r) /\
  (forall s a r t, p s = Ok (a, r) -> p (s ++ t) = Ok (a, r ++ t)) /\
  (forall s e t, p s = Err e -> e <> E_SHORT_BUFFER -> p (s ++ t) = Err e).

Lemma good_ret : forall A (a : A), good (fun s => Ok (a, s)).
Proof.
  intros. split; [|split]; intros.
  - inv H. now exists [].
  - inv H. reflexivity.
  - inv H.
Qed.

Lemma good_err : forall A e, good (fun s => @Err (A * list N) e).
Proof. intros. split; [|split]; intros; congruence. Qed.

Lemma good_ext : forall A (p q : parser A), (forall s, p s = q s) -> good p -> good q.
Proof.
  intros A p q E [G1 [G2 G3]]. split; [|split]; intros; rewrite <- E in *; eauto.
Qed.

Lemma good_bind : forall A B (p : parser A) (f : A -> parser B),
  good p -> (forall a, good (f a)) -> good (fun s => bind (p s) (fun x => f (fst x) (snd x))).
Proof.
  intros A B p f [P1 [P2 P3]] F. split; [|split].
  - intros s b r H. destruct (p s) as [[a r']|] eqn:E; cbn [bind fst snd] in H; [|discriminate].
    destruct (P1 _ _ _ E) as [pre1 E1]. destruct (F a) as [F1 _].
    destruct (F1 _ _ _ H) as [pre2 E2]. subst. exists (pre1 ++ pre2). now rewrite app_assoc.
  - intros s b r t H. destruct (p s) as [[a r']|] eqn:E; cbn [bind fst snd] in H; [|discriminate].
    rewrite (P2 _ _ _ t E). cbn [bind fst snd]. destruct (F a) as [_ [F2 _]]. eauto.
  - intros s e t H NE. destruct (p s) as [[a r']|] eqn:E; cbn [bind fst snd] in H.
    + rewrite (P2 _ _ _ t E). cbn [bind fst snd]. destruct (F a) as [_ [_ F3]]. eauto.
    + inv H. rewrite (P3 _ _ t E NE). reflexivity.
Qed.

Lemma good_if : forall A (c : bool) (p q : parser A), good p -> good q -> good (fun s => if c then p s else q s).
Proof. intros. destruct c; auto. Qed.

Lemma good_read_bytes : forall n, good (read_bytes n).
Proof.
  intros n. split; [|split].
  - intros s a r H. apply read_bytes_inv in H. exists a. tauto.
  - intros s a r t H. apply read_bytes_inv in H. destruct H; subst.
    rewrite <- app_assoc. apply read_bytes_app.
  - intros s e t H NE. apply read_bytes_err in H. tauto.
Qed.

(** Composition in the shape produced by the [do (x, s) <- p s; f x s] notation. *)
Lemma good_do : forall A B (p : parser A) (f : A -> parser B),
  good p -> (forall a, good (f a)) -> good (fun s => do (a, r) <- p s; f a r).
Proof.
  intros A B p f P F.
  apply good_ext with (p := fun s => bind (p s) (fun x => f (fst x) (snd x))).
  - intros s. destruct (p s) as [[a r]|]; reflexivity.
  - now apply good_bind.
Qed.

Lemma good_read_be : forall k, good (read_be k).
Proof.
  intros k. unfold read_be.
  refine (good_do _ _ _ (fun b r => Ok (be_val b, r)) _ _); [apply good_read_bytes|].
  intros. apply good_ret.
Qed.

(** A proper prefix of a string consumed completely is reported as short. *)
Lemma good_prefix_short : forall A (p : parser A) s1 s2 a,
  good p -> p (s1 ++ s2) = Ok (a, []) -> s2 <> [] -> p s1 = Err E_SHORT_BUFFER.
Proof.
  intros A p s1 s2 a [_ [G2 G3]] H NE.
  destruct (p s1) as [[b r]|e] eqn:E.
  - rewrite (G2 _ _ _ s2 E) in H. inv H. apply app_eq_nil in H2. tauto.
  - destruct (err_eq_dec e E_SHORT_BUFFER); [congruence|].
    rewrite (G3 _ _ s2 E n) in H. discriminate.
Qed.

(** ** Byte string comparison *)

Lemma bytes_eqb_spec : forall a b, bytes_eqb a b = true <-> a = b.
Proof.
  induction a as [|x a IH]; intros [|y b]; cbn [bytes_eqb]; split; intros; try congruence; auto.
  - apply andb_true_iff in H. destruct H as [H1 H2]. apply N.eqb_eq in H1. apply IH in H2. congruence.
  - inv H. rewrite N.eqb_refl. cbn. now apply IH.
Qed.

Lemma bytes_eqb_refl : forall a, bytes_eqb a a = true.
Proof. intros. now apply bytes_eqb_spec. Qed.

Lemma bytes_eqb_false : forall a b, bytes_eqb a b = false <-> a <> b.
Proof.
  intros. pose proof (bytes_eqb_spec a b) as [P Q]. destruct (bytes_eqb a b); split; intros; try congruence.
  - exfalso. auto.
  - intros E. apply Q in E. discriminate.
Qed.

Definition bytes_eq_dec (a b : list N) : {a = b} + {a <> b}.
Proof. destruct (bytes_eqb a b) eqn:E; [left; now apply bytes_eqb_spec | right; now apply bytes_eqb_false]. Defined.

Lemma bytes_compare_eq : forall a b, bytes_compare a b = Eq <-> a = b.
Proof.
  induction a as [|x a IH]; intros [|y b]; cbn [bytes_compare]; split; intros; try congruence; auto.
  - destruct (N.compare_spec x y); try congruence. subst. f_equal. now apply IH.
  - inv H. rewrite N.compare_refl. now apply IH.
Qed.

Lemma bytes_compare_antisym : forall a b, bytes_compare b a = CompOpp (bytes_compare a b).
Proof.
  induction a as [|x a IH]; intros [|y b]; cbn [bytes_compare]; auto.
  rewrite N.compare_antisym. destruct (x ?= y); cbn; auto.
Qed.

Lemma bytes_compare_trans : forall a b c,
  bytes_compare a b = Lt -> bytes_compare b c = Lt -> bytes_compare a c = Lt.
Proof.
  induction a as [|x a IH]; intros [|y b] [|z c]; cbn [bytes_compare]; intros; try congruence; auto.
  destruct (N.compare_spec x y); destruct (N.compare_spec y z); try congruence; subst.
  - rewrite N.compare_refl. eauto.
  - destruct (N.compare_spec y z); auto; lia.
  - destruct (N.compare_spec x z); auto; lia.
  - destruct (N.compare_spec x z); auto; lia.
Qed.
