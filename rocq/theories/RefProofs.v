(** Proofs about reference counting. *)
From Verif Require Import Base RefModel RefSpec.
From Coq Require Import Arith ZArith ZifyBool ZifyNat ZifyN Permutation.
Import List.
Open Scope list_scope.
Open Scope nat_scope.

Notation cnt l o := (count_occ Nat.eq_dec l o).

Lemma length_upd : forall A (l : list A) i x, length (upd l i x) = length l.
Proof. induction l as [|y r IH]; intros [|i] x; cbn; auto. Qed.
Lemma nth_upd_same : forall A (l : list A) i x y, nth_error l i = Some y -> nth_error (upd l i x) i = Some x.
Proof. induction l as [|z r IH]; intros [|i] x y H; cbn in *; try discriminate; [reflexivity|]. eapply IH. exact H. Qed.
Lemma nth_upd_other : forall A (l : list A) i j x, i <> j -> nth_error (upd l i x) j = nth_error l j.
Proof. induction l as [|z r IH]; intros [|i] [|j] x H; cbn; try reflexivity; try congruence. apply IH. congruence. Qed.
Lemma nth_upd : forall A (l : list A) i j x y, nth_error (upd l i x) j = Some y ->
  (i = j /\ y = x /\ exists z, nth_error l i = Some z) \/ (i <> j /\ nth_error l j = Some y).
Proof.
  intros A l i j x y H. destruct (Nat.eq_dec i j) as [<-|E].
  - left. destruct (nth_error l i) as [z|] eqn:K.
    + rewrite (nth_upd_same _ _ _ _ _ K) in H. split; [reflexivity|]. split; [congruence|]. exists z. reflexivity.
    + exfalso. apply nth_error_None in K. assert (N : nth_error (upd l i x) i <> None) by congruence. apply nth_error_Some in N. rewrite length_upd in N. lia.
  - right. rewrite nth_upd_other in H by exact E. auto.
Qed.

Lemma cnt_app : forall l m o, cnt (l ++ m) o = cnt l o + cnt m o.
Proof. intros. apply count_occ_app. Qed.

Lemma cnt_kids_upd : forall h i ob x o, nth_error h i = Some ob ->
  cnt (flat_map ob_kids (upd h i x)) o + cnt (ob_kids ob) o = cnt (flat_map ob_kids h) o + cnt (ob_kids x) o.
Proof.
  induction h as [|y h IH]; intros [|i] ob x o H; cbn [nth_error] in H; try discriminate.
  - injection H as ->. cbn [upd flat_map]. rewrite !cnt_app. lia.
  - cbn [upd flat_map]. rewrite !cnt_app. pose proof (IH i ob x o H). lia.
Qed.

Lemma live_some : forall h o ob, live h o = Some ob <-> nth_error h o = Some ob /\ ob_alive ob = true.
Proof.
  intros h o ob. unfold live. destruct (nth_error h o) as [ob'|]; [|split; [discriminate|intros [? ?]; discriminate]].
  destruct (ob_alive ob') eqn:E; split.
  - intros H. injection H as ->. auto.
  - intros [H _]. exact H.
  - discriminate.
  - intros [H K]. injection H as ->. congruence.
Qed.

Lemma next_of_some : forall t l l1 a l2, next_of t l = Some (l1, a, l2) -> l = l1 ++ (t, a) :: l2.
Proof.
  induction l as [|[t' b] r IH]; intros l1 a l2 H; cbn [next_of] in H; [discriminate|].
  destruct (Nat.eqb t' t) eqn:E.
  - apply Nat.eqb_eq in E. injection H as <- <- <-. subst. reflexivity.
  - destruct (next_of t r) as [[[m1 c] m2]|]; [|discriminate]. injection H as <- <- <-. cbn. f_equal. apply IH. reflexivity.
Qed.
Lemma next_of_none : forall t l, next_of t l = None <-> forall a, ~ In (t, a) l.
Proof.
  induction l as [|[t' b] r IH]; cbn [next_of]; [split; [intros _ a []|reflexivity]|].
  destruct (Nat.eqb t' t) eqn:E.
  - apply Nat.eqb_eq in E. subst. split; [discriminate|]. intros H. exfalso. apply (H b). left. reflexivity.
  - apply Nat.eqb_neq in E. destruct (next_of t r) as [[[m1 c] m2]|] eqn:K.
    + split; [discriminate|]. intros H. exfalso. apply next_of_some in K. apply (H c). right. rewrite K. apply in_or_app. right. left. reflexivity.
    + split; [|reflexivity]. intros _ a [H|H]; [congruence|]. apply (proj1 IH eq_refl a H).
Qed.

Lemma remove1_perm : forall x l, In x l -> Permutation l (x :: remove1 x l).
Proof.
  intros x l. induction l as [|y r IH]; intros H; [contradiction|]. cbn [remove1].
  destruct (Nat.eqb (fst y) (fst x) && Nat.eqb (snd y) (snd x))%bool eqn:E.
  - assert (y = x) by (destruct x, y; cbn in E; apply andb_true_iff in E; destruct E as [E1 E2]; apply Nat.eqb_eq in E1, E2; congruence).
    subst. reflexivity.
  - destruct H as [->|H]; [rewrite !Nat.eqb_refl in E; discriminate|]. rewrite perm_swap. apply perm_skip. apply IH. exact H.
Qed.
Lemma cnt_remove1 : forall t o l i, In (t, o) l -> cnt (map snd l) i = (if Nat.eq_dec o i then 1 else 0) + cnt (map snd (remove1 (t, o) l)) i.
Proof.
  intros t o l i H. pose proof (Permutation_map snd (remove1_perm _ _ H)) as P.
  rewrite (Permutation_count_occ Nat.eq_dec) in P. rewrite P. cbn [map snd count_occ]. destruct (Nat.eq_dec o i); reflexivity.
Qed.
Lemma in_remove1_other : forall x y l, In y l -> y <> x -> In y (remove1 x l).
Proof.
  intros x y l H N. destruct (in_dec (fun a b : nat * nat => ltac:(decide equality; apply Nat.eq_dec)) x l) as [I|I].
  - apply (Permutation_in _ (remove1_perm _ _ I)) in H. destruct H as [H|H]; [congruence|exact H].
  - clear N. induction l as [|z r IH]; [contradiction|]. cbn [remove1].
    destruct (Nat.eqb (fst z) (fst x) && Nat.eqb (snd z) (snd x))%bool eqn:E.
    + exfalso. apply I. left. destruct x, z; cbn in E; apply andb_true_iff in E; destruct E as [E1 E2]; apply Nat.eqb_eq in E1, E2; congruence.
    + destruct H as [->|H]; [left; reflexivity|right; apply IH; [exact H|intros K; apply I; right; exact K]].
Qed.
Lemma in_remove1 : forall x y l, In y (remove1 x l) -> In y l.
Proof.
  intros x y l. induction l as [|z r IH]; cbn [remove1]; [auto|].
  destruct (Nat.eqb (fst z) (fst x) && Nat.eqb (snd z) (snd x))%bool; [intros H; right; exact H|].
  intros [H|H]; [left; exact H|right; apply IH; exact H].
Qed.

(** ** The invariant *)
Definition dest_of (x : nat * act) : list nat := match snd x with ADestroy o => [o] | _ => [] end.
Definition free_of (x : nat * act) : list nat := match snd x with AFree o => [o] | _ => [] end.
Definition dests (s : mstate) (o : nat) : nat := cnt (flat_map dest_of (ms_todo s)) o.
Definition frees (s : mstate) (o : nat) : nat := cnt (flat_map free_of (ms_todo s)) o.
Definition logs (s : mstate) (o : nat) : nat := cnt (ms_log s) o.

Definition obj_ok (r d f g : nat) (ob : obj) : Prop :=
  ob_count ob = N.of_nat r /\ (N.of_nat r < two64)%N /\
  ((0 < r /\ ob_alive ob = true /\ d = 0 /\ f = 0 /\ g = 0) \/
   (r = 0 /\ ob_alive ob = true /\ d = 1 /\ f = 0 /\ g = 0) \/
   (r = 0 /\ ob_alive ob = true /\ d = 0 /\ f = 1 /\ g = 1 /\ ob_kids ob = []) \/
   (r = 0 /\ ob_alive ob = false /\ d = 0 /\ f = 0 /\ g = 1 /\ ob_kids ob = [])).

Record Inv (s : mstate) (ow : owners) : Prop := {
  inv_obj : forall i ob, nth_error (ms_heap s) i = Some ob -> obj_ok (refs s ow i) (dests s i) (frees s i) (logs s i) ob;
  inv_ids : forall i, length (ms_heap s) <= i -> refs s ow i = 0 /\ dests s i = 0 /\ frees s i = 0 /\ logs s i = 0;
  inv_att : forall t p k ok, In (t, AAttach p k ok) (ms_todo s) -> reach (ms_heap s) ow t p /\ reach (ms_heap s) ow t k
}.

Lemma refs_split : forall s ow i, refs s ow i =
  cnt (map snd ow) i + cnt (flat_map ob_kids (ms_heap s)) i + cnt (flat_map down_of (ms_todo s)) i + cnt (ms_leaked s) i.
Proof. intros. unfold refs, references. rewrite !cnt_app. lia. Qed.

Lemma cnt_pos : forall l o, In o l -> 0 < cnt l o.
Proof. intros. apply count_occ_In. exact H. Qed.

Lemma reach_refs : forall s ow t o, reach (ms_heap s) ow t o -> 0 < refs s ow o.
Proof.
  intros s ow t o H. rewrite refs_split. destruct H as [o H|p ob k H E I].
  - assert (0 < cnt (map snd ow) o) by (apply cnt_pos; apply in_map_iff; exists (t, o); auto). lia.
  - assert (0 < cnt (flat_map ob_kids (ms_heap s)) k); [|lia]. apply cnt_pos. apply in_flat_map. exists ob. split; [|exact I]. eapply nth_error_In. exact E.
Qed.

Lemma refs_created : forall s ow o, Inv s ow -> 0 < refs s ow o -> exists ob, nth_error (ms_heap s) o = Some ob.
Proof.
  intros s ow o I H. destruct (nth_error (ms_heap s) o) eqn:E; [eauto|]. apply nth_error_None in E.
  destruct (inv_ids _ _ I o E) as [Z _]. lia.
Qed.

Lemma refs_live : forall s ow o, Inv s ow -> 0 < refs s ow o -> exists ob, live (ms_heap s) o = Some ob /\ nth_error (ms_heap s) o = Some ob /\
  ob_count ob = N.of_nat (refs s ow o) /\ (N.of_nat (refs s ow o) < two64)%N /\ ob_alive ob = true /\ dests s o = 0 /\ frees s o = 0 /\ logs s o = 0.
Proof.
  intros s ow o I H. destruct (refs_created _ _ _ I H) as [ob E]. exists ob. destruct (inv_obj _ _ I _ _ E) as (C & L & D).
  assert (A : ob_alive ob = true /\ dests s o = 0 /\ frees s o = 0 /\ logs s o = 0)
    by (destruct D as [D|[D|[D|D]]]; [destruct D as (_ & ? & ? & ? & ?); auto|exfalso; lia..]).
  destruct A as (A & D1 & D2 & D3). split; [apply live_some; auto|]. auto 10.
Qed.

(** A thread that owns no less reaches no less if no reachable object lost a reference. *)
Lemma reach_mono : forall h ow h' ow' t o, reach h ow t o ->
  (forall o, In (t, o) ow -> In (t, o) ow') ->
  (forall p ob, reach h ow t p -> nth_error h p = Some ob -> exists ob', nth_error h' p = Some ob' /\ incl (ob_kids ob) (ob_kids ob')) ->
  reach h' ow' t o.
Proof.
  intros h ow h' ow' t o H A B. induction H as [o H|p ob k H IH E I].
  - apply reach_own. apply A. exact H.
  - destruct (B _ _ H E) as (ob' & E' & L). eapply reach_kid; [exact IH|exact E'|apply L; exact I].
Qed.

Lemma incl_upd_kids : forall h i z x, nth_error h i = Some z -> incl (ob_kids z) (ob_kids x) ->
  forall p ob, nth_error h p = Some ob -> exists ob', nth_error (upd h i x) p = Some ob' /\ incl (ob_kids ob) (ob_kids ob').
Proof.
  intros h i z x E L p ob H. destruct (Nat.eq_dec i p) as [<-|N].
  - exists x. split; [eapply nth_upd_same; exact E|]. assert (ob = z) by congruence. subst. exact L.
  - exists ob. rewrite nth_upd_other by exact N. split; [exact H|apply incl_refl].
Qed.

Ltac todo_simpl := repeat rewrite ?flat_map_app, ?cnt_app; cbn [flat_map down_of dest_of free_of snd app].

Ltac one := cbn [count_occ] in *;
  repeat match goal with
  | |- context[Nat.eq_dec ?a ?b] => destruct (Nat.eq_dec a b)
  | H : context[Nat.eq_dec ?a ?b] |- _ => destruct (Nat.eq_dec a b)
  end.

Lemma flat_map_pair : forall (f : nat * act -> list nat) t l, (forall a, In a l -> f (t, a) = []) -> flat_map f (map (pair t) l) = [].
Proof. intros f t l H. induction l as [|a l IH]; [reflexivity|]. cbn [map flat_map]. rewrite H by (left; reflexivity). apply IH. intros b K. apply H. right. exact K. Qed.

(** Changing only the counter of one object. *)
Lemma kids_same_upd : forall h i z x, nth_error h i = Some z -> ob_kids x = ob_kids z -> forall o,
  cnt (flat_map ob_kids (upd h i x)) o = cnt (flat_map ob_kids h) o.
Proof. intros h i z x E K o. pose proof (cnt_kids_upd h i z x o E). rewrite K in H. lia. Qed.

Lemma two64_val : two64 = 18446744073709551616%N.
Proof. reflexivity. Qed.
Lemma add64_small : forall a, (a < two64 - 1)%N -> add64 a 1 = (a + 1)%N.
Proof. intros a H. unfold add64. apply N.mod_small. rewrite two64_val in *. lia. Qed.
Lemma sub64_small : forall a, (a < two64)%N -> (a <> 0)%N -> sub64 a 1 = (a - 1)%N.
Proof.
  intros a H N0. unfold sub64. replace (a + two64 - 1)%N with ((a - 1) + 1 * two64)%N by lia.
  rewrite N.mod_add by (rewrite two64_val; discriminate). apply N.mod_small. lia.
Qed.

Lemma init_inv : Inv ms_init [].
Proof.
  constructor; cbn.
  - intros [|i] ob H; discriminate.
  - intros i _. repeat split.
  - intros t p k ok [].
Qed.

(** ** Retaining *)
Lemma up_cases : forall s ow o, Inv s ow -> 0 < refs s ow o ->
  (refcount_up (ms_heap s) o = CAssert /\ N.of_nat (refs s ow o) = UINT64_MAX) \/
  exists ob, nth_error (ms_heap s) o = Some ob /\ ob_alive ob = true /\ (N.of_nat (refs s ow o) + 1 < two64)%N /\
    refcount_up (ms_heap s) o = COk (upd (ms_heap s) o (mk_obj (N.of_nat (S (refs s ow o))) true (ob_kids ob))) (ob_count ob).
Proof.
  intros s ow o I H. destruct (refs_live _ _ _ I H) as (ob & L & E & C & B & A & _). unfold refcount_up. rewrite L, C.
  replace (N.of_nat (refs s ow o) =? 0)%N with false by (symmetry; apply N.eqb_neq; lia). cbn [orb].
  destruct (N.of_nat (refs s ow o) =? UINT64_MAX)%N eqn:M.
  - left. apply N.eqb_eq in M. auto.
  - right. apply N.eqb_neq in M. unfold UINT64_MAX in M. change (2 ^ 64)%N with two64 in M.
    exists ob. split; [exact E|]. split; [exact A|]. split; [lia|]. rewrite add64_small by lia.
    rewrite C. replace (N.of_nat (S (refs s ow o))) with (N.of_nat (refs s ow o) + 1)%N by lia. reflexivity.
Qed.

(** The heap [h'] differs from that of [s] in [o], which got one more reference. *)
Lemma obj_ok_up : forall r d f g ob, obj_ok r d f g ob -> 0 < r -> (N.of_nat r + 1 < two64)%N ->
  forall kids, obj_ok (S r) d f g (mk_obj (N.of_nat (S r)) true kids).
Proof.
  intros r d f g ob (C & L & D) H B kids. split; [reflexivity|]. split; [lia|]. left. cbn [ob_alive].
  destruct D as [D|[D|[D|D]]]; [|exfalso; lia..]. destruct D as (_ & _ & ? & ? & ?). split; [lia|]. auto.
Qed.

Lemma inv_retain : forall s ow t o, Inv s ow -> lawful s ow (RRetain t o) -> 
  (mstep s (RRetain t o) = RAssert /\ N.of_nat (refs s ow o) = UINT64_MAX) \/
  exists s', mstep s (RRetain t o) = RNext s' /\ Inv s' ((t, o) :: ow).
Proof.
  intros s ow t o I [Hi Hr]. pose proof (reach_refs _ _ _ _ Hr) as Hp. cbn [mstep].
  destruct (up_cases _ _ _ I Hp) as [[E M]|(ob & E & A & B & Eu)]; [left; rewrite E; auto|].
  right. rewrite Eu. eexists. split; [reflexivity|].
  set (s' := mk_ms _ _ _ _).
  assert (R : forall i, refs s' ((t, o) :: ow) i = refs s ow i + (if Nat.eq_dec o i then 1 else 0)).
  { intros i. rewrite !refs_split. unfold s'. cbn [ms_heap ms_todo ms_leaked map snd].
    rewrite (kids_same_upd _ _ _ _ E) by reflexivity. one; lia. }
  constructor.
  - intros i ob' H. rewrite R. unfold dests, frees, logs, s' in *. cbn [ms_heap ms_todo ms_log] in *.
    apply nth_upd in H. destruct H as [(<- & -> & _)|(N & H)].
    + destruct (Nat.eq_dec o o); [|congruence]. rewrite Nat.add_1_r. eapply obj_ok_up; [apply (inv_obj _ _ I); exact E|exact Hp|exact B].
    + destruct (Nat.eq_dec o i); [congruence|]. rewrite Nat.add_0_r. apply (inv_obj _ _ I). exact H.
  - intros i H. unfold s' in H. cbn [ms_heap] in H. rewrite length_upd in H. rewrite R.
    destruct (inv_ids _ _ I i H) as (Z1 & Z2). unfold dests, frees, logs, s' in *. cbn [ms_todo ms_log]. split; [|exact Z2].
    destruct (Nat.eq_dec o i) as [->|]; [lia|]. lia.
  - intros t0 p k ok H. unfold s' in *. cbn [ms_heap ms_todo] in *. destruct (inv_att _ _ I _ _ _ _ H) as [H1 H2].
    split; (eapply reach_mono; [eassumption|intros; right; assumption|]);
      intros q ob' _ Eq; eapply incl_upd_kids; try eassumption; apply incl_refl.
Qed.

(** ** Calls that only queue actions or move references *)
Lemma inv_new : forall s ow t kids, Inv s ow -> lawful s ow (RNew t kids) ->
  exists s', mstep s (RNew t kids) = RNext s' /\ Inv s' (owns s ow (RNew t kids)).
Proof.
  intros s ow t kids I [Hi Hr]. cbn [mstep owns]. eexists. split; [reflexivity|].
  set (n := length (ms_heap s)). set (s' := mk_ms _ _ _ _).
  assert (T : forall f : nat * act -> list nat, (forall p k ok, f (t, AAttach p k ok) = []) -> flat_map f (ms_todo s') = flat_map f (ms_todo s)).
  { intros f Hf. unfold s'. cbn [ms_todo]. rewrite flat_map_app. replace (flat_map f (map _ kids)) with (@nil nat); [apply app_nil_r|].
    clear Hr. induction kids as [|k kids IH]; [reflexivity|]. cbn [map flat_map]. rewrite Hf. exact IH. }
  assert (R : forall i, refs s' ((t, n) :: ow) i = refs s ow i + (if Nat.eq_dec n i then 1 else 0)).
  { intros i. rewrite !refs_split. rewrite (T down_of) by reflexivity. unfold s'. cbn [ms_heap ms_leaked map snd].
    rewrite flat_map_app, cnt_app. cbn [flat_map ob_kids app]. one; lia. }
  assert (D : forall i, dests s' i = dests s i /\ frees s' i = frees s i /\ logs s' i = logs s i).
  { intros i. unfold dests, frees, logs. rewrite (T dest_of), (T free_of) by reflexivity. auto. }
  constructor.
  - intros i ob H. rewrite R. destruct (D i) as (-> & -> & ->). unfold s' in H. cbn [ms_heap] in H.
    destruct (Nat.lt_ge_cases i n) as [L|L].
    + rewrite nth_error_app1 in H by exact L. destruct (Nat.eq_dec n i); [lia|]. rewrite Nat.add_0_r. apply (inv_obj _ _ I). exact H.
    + destruct (inv_ids _ _ I i L) as (-> & -> & -> & ->).
      rewrite nth_error_app2 in H by exact L. fold n in H. destruct (i - n) as [|j] eqn:Ej; [|destruct j; discriminate].
      injection H as <-. destruct (Nat.eq_dec n i); [|lia]. split; [reflexivity|]. split; [reflexivity|]. left. cbn. repeat split; lia.
  - intros i H. rewrite R. destruct (D i) as (-> & -> & ->). unfold s' in H. cbn [ms_heap] in H. rewrite app_length in H. cbn [length] in H.
    destruct (inv_ids _ _ I i) as (-> & Z); [lia|]. split; [|exact Z]. destruct (Nat.eq_dec n i); lia.
  - assert (M : forall t0 o, reach (ms_heap s) ow t0 o -> reach (ms_heap s') ((t, n) :: ow) t0 o).
    { intros t0 o H. eapply reach_mono; [exact H|intros; right; assumption|]. intros p ob _ E. exists ob. split; [|apply incl_refl].
      unfold s'. cbn [ms_heap]. rewrite nth_error_app1; [exact E|]. apply nth_error_Some. congruence. }
    intros t0 p k ok H. unfold s' in H. cbn [ms_todo] in H. apply in_app_or in H. destruct H as [H|H].
    + destruct (inv_att _ _ I _ _ _ _ H) as [H1 H2]. split; apply M; assumption.
    + apply in_map_iff in H. destruct H as (k' & E & Ik). injection E as <- <- <- _. split; [apply reach_own; left; reflexivity|apply M; apply Hr; exact Ik].
Qed.

Lemma inv_release : forall s ow t o, Inv s ow -> lawful s ow (RRelease t o) ->
  exists s', mstep s (RRelease t o) = RNext s' /\ Inv s' (owns s ow (RRelease t o)).
Proof.
  intros s ow t o I [Hi Ho]. cbn [mstep owns]. eexists. split; [reflexivity|]. set (s' := mk_ms _ _ _ _).
  assert (R : forall i, refs s' (remove1 (t, o) ow) i = refs s ow i).
  { intros i. rewrite !refs_split. rewrite (cnt_remove1 _ _ _ i Ho). unfold s'. cbn [ms_heap ms_todo ms_leaked]. todo_simpl. one; lia. }
  assert (D : forall i, dests s' i = dests s i /\ frees s' i = frees s i /\ logs s' i = logs s i).
  { intros i. unfold dests, frees, logs, s'. cbn [ms_todo ms_log]. todo_simpl. cbn [count_occ]. rewrite !Nat.add_0_r. auto. }
  constructor.
  - intros i ob H. rewrite R. destruct (D i) as (-> & -> & ->). apply (inv_obj _ _ I). exact H.
  - intros i H. rewrite R. destruct (D i) as (-> & -> & ->). apply (inv_ids _ _ I). exact H.
  - intros t0 p k ok H. unfold s' in H. cbn [ms_todo] in H. apply in_app_or in H. destruct H as [H|[H|[]]]; [|discriminate].
    assert (t0 <> t) by (intros ->; exact (Hi _ H)). destruct (inv_att _ _ I _ _ _ _ H) as [H1 H2].
    split; (eapply reach_mono; [eassumption| |intros q ob' _ Eq; exists ob'; split; [exact Eq|apply incl_refl]]);
      intros q Hq; (apply in_remove1_other; [exact Hq|congruence]).
Qed.

Lemma inv_use : forall s ow t os, Inv s ow -> lawful s ow (RUse t os) -> mstep s (RUse t os) = RNext s.
Proof.
  intros s ow t os I [Hi Hr]. cbn [mstep].
  replace (forallb _ os) with true; [reflexivity|]. symmetry. apply forallb_forall. intros o Ho.
  destruct (refs_live _ _ _ I (reach_refs _ _ _ _ (Hr o Ho))) as (ob & -> & _). reflexivity.
Qed.

Lemma inv_send : forall s ow t t' o, Inv s ow -> lawful s ow (RSend t t' o) -> Inv s (owns s ow (RSend t t' o)).
Proof.
  intros s ow t t' o I [Hi Ho]. cbn [owns].
  assert (R : forall i, refs s ((t', o) :: remove1 (t, o) ow) i = refs s ow i).
  { intros i. rewrite !refs_split. rewrite (cnt_remove1 _ _ _ i Ho). cbn [map snd]. one; lia. }
  constructor.
  - intros i ob H. rewrite R. apply (inv_obj _ _ I). exact H.
  - intros i H. rewrite R. apply (inv_ids _ _ I). exact H.
  - intros t0 p k ok H. assert (t0 <> t) by (intros ->; exact (Hi _ H)). destruct (inv_att _ _ I _ _ _ _ H) as [H1 H2].
    split; (eapply reach_mono; [eassumption| |intros q ob' _ Eq; exists ob'; split; [exact Eq|apply incl_refl]]);
      intros q Hq; right; (apply in_remove1_other; [exact Hq|congruence]).
Qed.

Lemma inv_move : forall s ow t p k, Inv s ow -> lawful s ow (RMove t p k) ->
  exists s', mstep s (RMove t p k) = RNext s' /\ Inv s' (owns s ow (RMove t p k)).
Proof.
  intros s ow t p k I (Hi & Ho & Hr). cbn [mstep owns].
  assert (Hr0 : reach (ms_heap s) ow t p).
  { eapply reach_mono; [exact Hr|intros o; apply in_remove1|intros q ob' _ Eq; exists ob'; split; [exact Eq|apply incl_refl]]. }
  destruct (refs_live _ _ _ I (reach_refs _ _ _ _ Hr0)) as (ob & -> & E & C & B & A & D1 & D2 & D3).
  eexists. split; [reflexivity|]. set (s' := mk_ms _ _ _ _).
  assert (R : forall i, refs s' (remove1 (t, k) ow) i = refs s ow i).
  { intros i. rewrite !refs_split. rewrite (cnt_remove1 _ _ _ i Ho). unfold s'. cbn [ms_heap ms_todo ms_leaked].
    pose proof (cnt_kids_upd (ms_heap s) p ob (mk_obj (ob_count ob) true (ob_kids ob ++ [k])) i E) as K. cbn [ob_kids] in K. rewrite cnt_app in K. one; lia. }
  constructor.
  - intros i ob' H. rewrite R. unfold dests, frees, logs, s' in *. cbn [ms_heap ms_todo ms_log] in *.
    apply nth_upd in H. destruct H as [(<- & -> & _)|(N & H)]; [|apply (inv_obj _ _ I); exact H].
    split; [exact C|]. split; [exact B|]. left. cbn [ob_alive]. split; [exact (reach_refs _ _ _ _ Hr0)|auto].
  - intros i H. unfold s' in H. cbn [ms_heap] in H. rewrite length_upd in H. rewrite R. apply (inv_ids _ _ I). exact H.
  - intros t0 p0 k0 ok H. unfold s' in *. cbn [ms_heap ms_todo] in *. assert (t0 <> t) by (intros ->; exact (Hi _ H)).
    destruct (inv_att _ _ I _ _ _ _ H) as [H1 H2].
    split; (eapply reach_mono; [eassumption|intros q Hq; apply in_remove1_other; [exact Hq|congruence]|]);
      intros q ob' _ Eq; eapply incl_upd_kids; try eassumption; cbn [ob_kids]; apply incl_appl, incl_refl.
Qed.

Lemma inv_add : forall s ow t p k ok, Inv s ow -> lawful s ow (RAdd t p k ok) ->
  exists s', mstep s (RAdd t p k ok) = RNext s' /\ Inv s' (owns s ow (RAdd t p k ok)).
Proof.
  intros s ow t p k ok I (Hi & Hp & Hk). cbn [mstep owns]. eexists. split; [reflexivity|]. set (s' := mk_ms _ _ _ _).
  assert (R : forall i, refs s' ow i = refs s ow i).
  { intros i. rewrite !refs_split. unfold s'. cbn [ms_heap ms_todo ms_leaked]. todo_simpl. cbn [count_occ]. lia. }
  assert (D : forall i, dests s' i = dests s i /\ frees s' i = frees s i /\ logs s' i = logs s i).
  { intros i. unfold dests, frees, logs, s'. cbn [ms_todo ms_log]. todo_simpl. cbn [count_occ]. rewrite !Nat.add_0_r. auto. }
  constructor.
  - intros i ob H. rewrite R. destruct (D i) as (-> & -> & ->). apply (inv_obj _ _ I). exact H.
  - intros i H. rewrite R. destruct (D i) as (-> & -> & ->). apply (inv_ids _ _ I). exact H.
  - intros t0 p0 k0 ok0 H. unfold s' in H. cbn [ms_todo] in H. apply in_app_or in H. destruct H as [H|[H|[]]].
    + exact (inv_att _ _ I _ _ _ _ H).
    + injection H as <- <- <- _. auto.
Qed.

(** ** Pending actions *)
Lemma att_mono : forall s ow h' todo', Inv s ow ->
  (forall t p k ok, In (t, AAttach p k ok) todo' -> In (t, AAttach p k ok) (ms_todo s)) ->
  (forall q ob, 0 < refs s ow q -> nth_error (ms_heap s) q = Some ob -> exists ob', nth_error h' q = Some ob' /\ incl (ob_kids ob) (ob_kids ob')) ->
  forall t p k ok, In (t, AAttach p k ok) todo' -> reach h' ow t p /\ reach h' ow t k.
Proof.
  intros s ow h' todo' I T K t p k ok H. destruct (inv_att _ _ I _ _ _ _ (T _ _ _ _ H)) as [H1 H2].
  split; (eapply reach_mono; [eassumption|auto|]); intros q ob Hq Eq; apply K; try assumption; exact (reach_refs _ _ _ _ Hq).
Qed.

Lemma in_flat_down : forall o t l, In (t, ADown o) l -> In o (flat_map down_of l).
Proof. intros o t l H. apply in_flat_map. exists (t, ADown o). split; [exact H|left; reflexivity]. Qed.

Lemma inv_down : forall s ow t l1 o l2, Inv s ow -> ms_todo s = l1 ++ (t, ADown o) :: l2 ->
  exists h next, run_act (ms_heap s) (ADown o) = ADone h next [] [] /\
    Inv (mk_ms h (l1 ++ map (pair t) next ++ l2) (ms_log s) (ms_leaked s)) ow.
Proof.
  intros s ow t l1 o l2 I T.
  assert (Hp : 0 < refs s ow o).
  { rewrite refs_split. assert (0 < cnt (flat_map down_of (ms_todo s)) o); [|lia]. apply cnt_pos. apply (in_flat_down o t). rewrite T. apply in_or_app. right. left. reflexivity. }
  destruct (refs_live _ _ _ I Hp) as (ob & L & E & C & B & A & D1 & D2 & D3).
  cbn [run_act]. unfold refcount_down. rewrite L, C.
  replace (N.of_nat (refs s ow o) =? 0)%N with false by (symmetry; apply N.eqb_neq; lia).
  rewrite sub64_small by lia. eexists. eexists. split; [reflexivity|].
  set (x := mk_obj _ true _).
  assert (K : forall i, cnt (flat_map ob_kids (upd (ms_heap s) o x)) i = cnt (flat_map ob_kids (ms_heap s)) i) by (apply (kids_same_upd _ _ _ _ E); reflexivity).
  set (next := if (N.of_nat (refs s ow o) =? 1)%N then [ADestroy o] else []).
  set (s' := mk_ms _ _ _ _).
  assert (R : forall i, refs s' ow i + (if Nat.eq_dec o i then 1 else 0) = refs s ow i).
  { intros i. rewrite !refs_split. unfold s'. cbn [ms_heap ms_todo ms_leaked]. rewrite K, T. todo_simpl.
    replace (flat_map down_of (map (pair t) next)) with (@nil nat) by (unfold next; destruct (_ =? _)%N; reflexivity). one; lia. }
  assert (D : forall i, dests s' i = dests s i + (if Nat.eq_dec o i then (if (N.of_nat (refs s ow o) =? 1)%N then 1 else 0) else 0) /\ frees s' i = frees s i /\ logs s' i = logs s i).
  { intros i. unfold dests, frees, logs, s', next. cbn [ms_todo ms_log]. rewrite T. destruct (_ =? _)%N; cbn [map]; todo_simpl; one; repeat split; lia. }
  constructor.
  - intros i ob' H. unfold s' in H. cbn [ms_heap] in H. pose proof (R i) as Ri. destruct (D i) as (-> & -> & ->).
    apply nth_upd in H. destruct H as [(<- & -> & _)|(N & H)].
    + destruct (Nat.eq_dec o o); [|congruence]. rewrite D1, D2, D3. unfold x. split; [cbn [ob_count]; lia|]. split; [lia|]. cbn [ob_alive].
      destruct (N.of_nat (refs s ow o) =? 1)%N eqn:E1; [apply N.eqb_eq in E1|apply N.eqb_neq in E1].
      * right. left. repeat split; lia.
      * left. repeat split; lia.
    + destruct (Nat.eq_dec o i); [congruence|]. rewrite !Nat.add_0_r in *. rewrite Ri. apply (inv_obj _ _ I). exact H.
  - intros i H. unfold s' in H. cbn [ms_heap] in H. rewrite length_upd in H. pose proof (R i) as Ri. destruct (D i) as (-> & -> & ->).
    destruct (inv_ids _ _ I i H) as (Z & Z2 & Z3). destruct (Nat.eq_dec o i) as [->|]; [lia|]. rewrite !Nat.add_0_r in *. split; [lia|]. auto.
  - apply (att_mono s ow _ _ I).
    + intros t0 p k ok H. unfold s' in H. cbn [ms_todo] in H. rewrite T. apply in_app_or in H. destruct H as [H|H]; [apply in_or_app; auto|].
      apply in_app_or in H. destruct H as [H|H]; [|apply in_or_app; right; right; exact H].
      unfold next in H. destruct (_ =? _)%N; cbn in H; [destruct H as [H|[]]; discriminate|contradiction].
    + intros q ob' _ Eq. eapply incl_upd_kids; try eassumption. apply incl_refl.
Qed.

Lemma cnt_downs : forall t l o, cnt (flat_map down_of (map (pair t) (map ADown l))) o = cnt l o.
Proof. intros t l o. induction l as [|a l IH]; [reflexivity|]. cbn [map flat_map down_of snd app]. cbn [count_occ]. rewrite IH. reflexivity. Qed.

Lemma inv_destroy : forall s ow t l1 o l2, Inv s ow -> ms_todo s = l1 ++ (t, ADestroy o) :: l2 ->
  exists h next, run_act (ms_heap s) (ADestroy o) = ADone h next [o] [] /\
    Inv (mk_ms h (l1 ++ map (pair t) next ++ l2) (ms_log s ++ [o]) (ms_leaked s)) ow.
Proof.
  intros s ow t l1 o l2 I T.
  assert (Hd : 0 < dests s o).
  { unfold dests. apply cnt_pos. apply in_flat_map. exists (t, ADestroy o). split; [rewrite T; apply in_or_app; right; left; reflexivity|left; reflexivity]. }
  destruct (nth_error (ms_heap s) o) as [ob|] eqn:E.
  2: { apply nth_error_None in E. destruct (inv_ids _ _ I o E) as (_ & Z & _). lia. }
  destruct (inv_obj _ _ I _ _ E) as (C & B & D). assert (D' : refs s ow o = 0 /\ ob_alive ob = true /\ dests s o = 1 /\ frees s o = 0 /\ logs s o = 0) by lia.
  destruct D' as (R0 & A & D1 & D2 & D3).
  cbn [run_act]. replace (live (ms_heap s) o) with (Some ob) by (symmetry; apply live_some; auto).
  eexists. eexists. split; [reflexivity|]. set (s' := mk_ms _ _ _ _).
  assert (K : forall i, cnt (flat_map ob_kids (upd (ms_heap s) o (mk_obj (ob_count ob) true []))) i + cnt (ob_kids ob) i = cnt (flat_map ob_kids (ms_heap s)) i).
  { intros i. pose proof (cnt_kids_upd _ _ _ (mk_obj (ob_count ob) true []) i E) as K. cbn [ob_kids count_occ] in K. lia. }
  assert (R : forall i, refs s' ow i = refs s ow i).
  { intros i. rewrite !refs_split. unfold s'. cbn [ms_heap ms_todo ms_leaked]. pose proof (K i). rewrite T, map_app. todo_simpl. rewrite cnt_downs.
    cbn [map flat_map down_of snd app count_occ]. lia. }
  assert (Dn : forall f : nat * act -> list nat, (forall k, f (t, ADown k) = []) -> flat_map f (map (pair t) (map ADown (ob_kids ob))) = []).
  { intros f Hf. apply flat_map_pair. intros a Ha. apply in_map_iff in Ha. destruct Ha as (k & <- & _). apply Hf. }
  assert (D4 : forall i, dests s' i + (if Nat.eq_dec o i then 1 else 0) = dests s i /\ frees s' i = frees s i + (if Nat.eq_dec o i then 1 else 0)
                /\ logs s' i = logs s i + (if Nat.eq_dec o i then 1 else 0)).
  { intros i. unfold dests, frees, logs, s'. cbn [ms_todo ms_log]. rewrite T, map_app. todo_simpl. rewrite (Dn dest_of), (Dn free_of) by reflexivity.
    cbn [map flat_map dest_of free_of snd app]. one; repeat split; lia. }
  constructor.
  - intros i ob' H. rewrite R. unfold s' in H. cbn [ms_heap] in H. destruct (D4 i) as (Q1 & Q2 & Q3). apply nth_upd in H. destruct H as [(<- & -> & _)|(N & H)].
    + destruct (Nat.eq_dec o o); [|congruence]. rewrite R0 in *. split; [cbn [ob_count]; exact C|]. split; [exact B|].
      right. right. left. cbn [ob_alive ob_kids]. split; [reflexivity|]. split; [reflexivity|]. split; [lia|]. split; [lia|]. split; [lia|reflexivity].
    + destruct (Nat.eq_dec o i); [congruence|]. rewrite !Nat.add_0_r in *. rewrite Q1, Q2, Q3. apply (inv_obj _ _ I). exact H.
  - intros i H. unfold s' in H. cbn [ms_heap] in H. rewrite length_upd in H. rewrite R. destruct (D4 i) as (Q1 & Q2 & Q3).
    destruct (inv_ids _ _ I i H) as (Z & Z1 & Z2 & Z3). destruct (Nat.eq_dec o i) as [->|]; [lia|]. rewrite !Nat.add_0_r in *. repeat split; lia.
  - apply (att_mono s ow _ _ I).
    + intros t0 p k ok H. unfold s' in H. cbn [ms_todo] in H. rewrite T. apply in_app_or in H. destruct H as [H|H]; [apply in_or_app; auto|].
      apply in_app_or in H. destruct H as [H|H]; [|apply in_or_app; right; right; exact H].
      exfalso. apply in_map_iff in H. destruct H as (a & E1 & Ha). injection E1 as -> ->. apply in_app_or in Ha. destruct Ha as [Ha|[Ha|[]]]; [|discriminate].
      apply in_map_iff in Ha. destruct Ha as (? & ? & _). discriminate.
    + intros q ob' Hq Eq. assert (o <> q) by (intros ->; lia). exists ob'. unfold s'. cbn [ms_heap]. rewrite nth_upd_other by assumption. split; [exact Eq|apply incl_refl].
Qed.

Lemma inv_free : forall s ow t l1 o l2, Inv s ow -> ms_todo s = l1 ++ (t, AFree o) :: l2 ->
  exists h, run_act (ms_heap s) (AFree o) = ADone h [] [] [] /\ Inv (mk_ms h (l1 ++ l2) (ms_log s) (ms_leaked s)) ow.
Proof.
  intros s ow t l1 o l2 I T.
  assert (Hd : 0 < frees s o).
  { unfold frees. apply cnt_pos. apply in_flat_map. exists (t, AFree o). split; [rewrite T; apply in_or_app; right; left; reflexivity|left; reflexivity]. }
  destruct (nth_error (ms_heap s) o) as [ob|] eqn:E.
  2: { apply nth_error_None in E. destruct (inv_ids _ _ I o E) as (_ & _ & Z & _). lia. }
  destruct (inv_obj _ _ I _ _ E) as (C & B & D).
  assert (D' : refs s ow o = 0 /\ ob_alive ob = true /\ dests s o = 0 /\ frees s o = 1 /\ logs s o = 1 /\ ob_kids ob = []).
  { destruct D as [D|[D|[D|D]]]; [exfalso; lia|exfalso; lia|exact D|exfalso; lia]. }
  destruct D' as (R0 & A & D1 & D2 & D3 & D4).
  cbn [run_act]. replace (live (ms_heap s) o) with (Some ob) by (symmetry; apply live_some; auto).
  eexists. split; [reflexivity|]. set (s' := mk_ms _ _ _ _).
  assert (R : forall i, refs s' ow i = refs s ow i).
  { intros i. rewrite !refs_split. unfold s'. cbn [ms_heap ms_todo ms_leaked]. rewrite (kids_same_upd _ _ _ _ E) by reflexivity. rewrite T. todo_simpl. lia. }
  assert (D5 : forall i, dests s' i = dests s i /\ frees s' i + (if Nat.eq_dec o i then 1 else 0) = frees s i /\ logs s' i = logs s i).
  { intros i. unfold dests, frees, logs, s'. cbn [ms_todo ms_log]. rewrite T. todo_simpl. one; repeat split; lia. }
  constructor.
  - intros i ob' H. rewrite R. unfold s' in H. cbn [ms_heap] in H. destruct (D5 i) as (Q1 & Q2 & Q3). apply nth_upd in H. destruct H as [(<- & -> & _)|(N & H)].
    + destruct (Nat.eq_dec o o); [|congruence]. rewrite R0 in *. split; [cbn [ob_count]; exact C|]. split; [exact B|].
      right. right. right. cbn [ob_alive ob_kids]. split; [reflexivity|]. split; [reflexivity|]. split; [lia|]. split; [lia|]. split; [lia|exact D4].
    + destruct (Nat.eq_dec o i); [congruence|]. rewrite !Nat.add_0_r in *. rewrite Q1, Q2, Q3. apply (inv_obj _ _ I). exact H.
  - intros i H. unfold s' in H. cbn [ms_heap] in H. rewrite length_upd in H. rewrite R. destruct (D5 i) as (Q1 & Q2 & Q3).
    destruct (inv_ids _ _ I i H) as (Z & Z1 & Z2 & Z3). destruct (Nat.eq_dec o i) as [->|]; [lia|]. rewrite !Nat.add_0_r in *. repeat split; lia.
  - apply (att_mono s ow _ _ I).
    + intros t0 p k ok H. unfold s' in H. cbn [ms_todo] in H. rewrite T. apply in_app_or in H. destruct H as [H|H]; apply in_or_app; [left; exact H|right; right; exact H].
    + intros q ob' _ Eq. eapply incl_upd_kids; try eassumption. apply incl_refl.
Qed.

Lemma inv_attach : forall s ow t l1 p k ok l2, Inv s ow -> ms_todo s = l1 ++ (t, AAttach p k ok) :: l2 ->
  (run_act (ms_heap s) (AAttach p k ok) = AAssert /\ N.of_nat (refs s ow k) = UINT64_MAX) \/
  exists h lk, run_act (ms_heap s) (AAttach p k ok) = ADone h [] [] lk /\ Inv (mk_ms h (l1 ++ l2) (ms_log s) (ms_leaked s ++ lk)) ow.
Proof.
  intros s ow t l1 p k ok l2 I T.
  destruct (inv_att _ _ I t p k ok) as [Hp Hk]; [rewrite T; apply in_or_app; right; left; reflexivity|].
  pose proof (reach_refs _ _ _ _ Hp) as Pp. pose proof (reach_refs _ _ _ _ Hk) as Pk.
  cbn [run_act]. destruct (up_cases _ _ _ I Pk) as [[E M]|(obk & Ek & Ak & Bk & Eu)]; [left; rewrite E; auto|]. right. rewrite Eu.
  set (xk := mk_obj (N.of_nat (S (refs s ow k))) true (ob_kids obk)).
  destruct (refs_live _ _ _ I Pp) as (obp & Lp & Ep & Cp & Bp & Ap & D1 & D2 & D3).
  (* the parent after the child was retained *)
  assert (H1 : exists ob1, nth_error (upd (ms_heap s) k xk) p = Some ob1 /\ ob_alive ob1 = true /\ ob_kids ob1 = ob_kids obp /\
            ob_count ob1 = N.of_nat (refs s ow p + (if Nat.eq_dec k p then 1 else 0))).
  { destruct (Nat.eq_dec k p) as [->|N].
    - exists xk. split; [eapply nth_upd_same; exact Ek|]. split; [reflexivity|]. unfold xk. cbn [ob_kids ob_count]. split; [congruence|]. lia.
    - exists obp. rewrite nth_upd_other by exact N. split; [exact Ep|]. split; [exact Ap|]. split; [reflexivity|]. rewrite Cp. lia. }
  destruct H1 as (ob1 & E1 & A1 & K1 & C1).
  replace (live (upd (ms_heap s) k xk) p) with (Some ob1) by (symmetry; apply live_some; auto).
  set (h1 := upd (ms_heap s) k xk) in *.
  assert (Kk : forall i, cnt (flat_map ob_kids h1) i = cnt (flat_map ob_kids (ms_heap s)) i) by (apply (kids_same_upd _ _ _ _ Ek); reflexivity).
  (* objects of h1 *)
  assert (O1 : forall i ob, nth_error h1 i = Some ob -> obj_ok (refs s ow i + (if Nat.eq_dec k i then 1 else 0)) (dests s i) (frees s i) (logs s i) ob).
  { intros i ob H. unfold h1 in H. apply nth_upd in H. destruct H as [(<- & -> & _)|(N & H)].
    - destruct (Nat.eq_dec k k); [|congruence]. rewrite Nat.add_1_r. unfold xk. eapply obj_ok_up; [apply (inv_obj _ _ I); exact Ek|exact Pk|exact Bk].
    - destruct (Nat.eq_dec k i); [congruence|]. rewrite Nat.add_0_r. apply (inv_obj _ _ I). exact H. }
  assert (L1 : length h1 = length (ms_heap s)) by apply length_upd.
  assert (Td : forall f : nat * act -> list nat, f (t, AAttach p k ok) = [] -> forall i, cnt (flat_map f (l1 ++ l2)) i = cnt (flat_map f (ms_todo s)) i).
  { intros f Hf i. rewrite T, !flat_map_app, !cnt_app. cbn [flat_map]. rewrite Hf. reflexivity. }
  assert (AT : forall t0 p0 k0 ok0, In (t0, AAttach p0 k0 ok0) (l1 ++ l2) -> In (t0, AAttach p0 k0 ok0) (ms_todo s)).
  { intros t0 p0 k0 ok0 H. rewrite T. apply in_app_or in H. apply in_or_app. destruct H as [H|H]; [left; exact H|right; right; exact H]. }
  assert (IK : forall q ob, nth_error (ms_heap s) q = Some ob -> exists ob', nth_error h1 q = Some ob' /\ incl (ob_kids ob) (ob_kids ob')).
  { apply (incl_upd_kids (ms_heap s) k obk xk Ek). apply incl_refl. }
  destruct ok.
  - eexists. exists []. split; [reflexivity|]. rewrite app_nil_r. set (h2 := upd h1 p _).
    assert (R : forall i, refs (mk_ms h2 (l1 ++ l2) (ms_log s) (ms_leaked s)) ow i = refs s ow i + (if Nat.eq_dec k i then 1 else 0)).
    { intros i. rewrite !refs_split. cbn [ms_heap ms_todo ms_leaked]. rewrite (Td down_of) by reflexivity. rewrite <- (Kk i).
      pose proof (cnt_kids_upd h1 p ob1 (mk_obj (ob_count ob1) true (ob_kids ob1 ++ [k])) i E1) as Q. fold h2 in Q. cbn [ob_kids] in Q. rewrite cnt_app in Q. one; lia. }
    constructor.
    + intros i ob H. rewrite R. unfold dests, frees, logs. cbn [ms_heap ms_todo ms_log] in *. rewrite (Td dest_of), (Td free_of) by reflexivity.
      unfold h2 in H. apply nth_upd in H. destruct H as [(<- & -> & _)|(N & H)]; [|apply O1; exact H].
      pose proof (O1 _ _ E1) as (Q1 & Q2 & Q3). split; [exact Q1|]. split; [exact Q2|]. left. cbn [ob_alive]. split; [lia|]. auto.
    + intros i H. cbn [ms_heap] in H. unfold h2 in H. rewrite length_upd, L1 in H. rewrite R. unfold dests, frees, logs. cbn [ms_todo ms_log]. rewrite (Td dest_of), (Td free_of) by reflexivity.
      destruct (inv_ids _ _ I i H) as (Z & Z2). split; [|exact Z2]. destruct (Nat.eq_dec k i) as [->|]; lia.
    + cbn [ms_heap ms_todo]. apply (att_mono s ow _ _ I AT). intros q ob _ Eq. destruct (IK q ob Eq) as (ob2 & Eq2 & In2).
      destruct (incl_upd_kids h1 p ob1 (mk_obj (ob_count ob1) true (ob_kids ob1 ++ [k])) E1 (incl_appl _ (incl_refl _)) q ob2 Eq2) as (ob3 & Eq3 & In3).
      exists ob3. split; [exact Eq3|]. eapply incl_tran; eassumption.
  - eexists. exists [k]. split; [reflexivity|].
    assert (R : forall i, refs (mk_ms h1 (l1 ++ l2) (ms_log s) (ms_leaked s ++ [k])) ow i = refs s ow i + (if Nat.eq_dec k i then 1 else 0)).
    { intros i. rewrite !refs_split. cbn [ms_heap ms_todo ms_leaked]. rewrite (Td down_of) by reflexivity. rewrite (Kk i), cnt_app. one; lia. }
    constructor.
    + intros i ob H. rewrite R. unfold dests, frees, logs. cbn [ms_heap ms_todo ms_log] in *. rewrite (Td dest_of), (Td free_of) by reflexivity. apply O1. exact H.
    + intros i H. cbn [ms_heap] in H. rewrite L1 in H. rewrite R. unfold dests, frees, logs. cbn [ms_todo ms_log]. rewrite (Td dest_of), (Td free_of) by reflexivity.
      destruct (inv_ids _ _ I i H) as (Z & Z2). split; [|exact Z2]. destruct (Nat.eq_dec k i) as [->|]; lia.
    + cbn [ms_heap ms_todo]. apply (att_mono s ow _ _ I AT). intros q ob _ Eq. exact (IK q ob Eq).
Qed.

Lemma inv_step : forall s ow t, Inv s ow -> lawful s ow (RStep t) ->
  (mstep s (RStep t) = RAssert /\ exists o, N.of_nat (refs s ow o) = UINT64_MAX) \/
  exists s', mstep s (RStep t) = RNext s' /\ Inv s' ow.
Proof.
  intros s ow t I H. cbn [lawful] in H. cbn [mstep].
  destruct (next_of t (ms_todo s)) as [[[l1 a] l2]|] eqn:E; [|exfalso; apply H; unfold idle; apply next_of_none; exact E].
  apply next_of_some in E. destruct a as [o|o|o|p k ok].
  - right. destruct (inv_down _ _ _ _ _ _ I E) as (h & next & -> & I'). eexists. split; [reflexivity|]. rewrite !app_nil_r. exact I'.
  - right. destruct (inv_destroy _ _ _ _ _ _ I E) as (h & next & -> & I'). eexists. split; [reflexivity|]. rewrite !app_nil_r. exact I'.
  - right. destruct (inv_free _ _ _ _ _ _ I E) as (h & -> & I'). eexists. split; [reflexivity|]. rewrite !app_nil_r. exact I'.
  - destruct (inv_attach _ _ _ _ _ _ _ _ I E) as [[-> M]|(h & lk & -> & I')]; [left; eauto|]. right. eexists. split; [reflexivity|]. rewrite !app_nil_r. exact I'.
Qed.

Lemma inv_all : forall s ow e, Inv s ow -> lawful s ow e ->
  (mstep s e = RAssert /\ exists o, N.of_nat (refs s ow o) = UINT64_MAX) \/
  exists s', mstep s e = RNext s' /\ Inv s' (owns s ow e).
Proof.
  intros s ow e I H. destruct e.
  - right. apply inv_new; assumption.
  - destruct (inv_retain _ _ _ _ I H) as [[? ?]|?]; [left; eauto|right; assumption].
  - right. apply inv_release; assumption.
  - right. exists s. split; [eapply inv_use; eassumption|exact I].
  - right. exists s. split; [reflexivity|eapply inv_send; eassumption].
  - right. apply inv_move; assumption.
  - right. apply inv_add; assumption.
  - apply inv_step; assumption.
Qed.

Lemma reachable_inv : forall s ow, reachable s ow -> Inv s ow.
Proof.
  intros s ow H. induction H as [|s ow e s' H IH L E]; [exact init_inv|].
  destruct (inv_all _ _ _ IH L) as [[K _]|(s2 & K & I)]; [congruence|]. assert (s2 = s') by congruence. subst. exact I.
Qed.

(** ** What the properties say *)
Lemma never_used_after : forall s ow e, reachable s ow -> lawful s ow e ->
  (exists s', mstep s e = RNext s') \/ (mstep s e = RAssert /\ exists o, N.of_nat (refs s ow o) = UINT64_MAX).
Proof. intros s ow e R L. destruct (inv_all _ _ _ (reachable_inv _ _ R) L) as [K|(s' & K & _)]; [right; exact K|left; eauto]. Qed.

Lemma count_is_references : forall s ow o ob, reachable s ow -> nth_error (ms_heap s) o = Some ob -> ob_count ob = N.of_nat (refs s ow o).
Proof. intros s ow o ob R E. exact (proj1 (inv_obj _ _ (reachable_inv _ _ R) _ _ E)). Qed.

Lemma dests_in : forall s o, 0 < dests s o <-> exists t, In (t, ADestroy o) (ms_todo s).
Proof.
  intros s o. unfold dests. split.
  - intros H. apply count_occ_In in H. apply in_flat_map in H. destruct H as ((t & a) & I & K). exists t.
    unfold dest_of in K. cbn [snd] in K. destruct a; try contradiction. destruct K as [->|[]]. exact I.
  - intros (t & I). apply cnt_pos. apply in_flat_map. exists (t, ADestroy o). split; [exact I|left; reflexivity].
Qed.

Lemma doomed_iff : forall s o, doomed s o <-> 0 < logs s o + dests s o.
Proof.
  intros s o. unfold doomed. rewrite <- dests_in. unfold logs. rewrite (count_occ_In Nat.eq_dec). lia.
Qed.

Lemma destroyed_iff_last : forall s ow o, reachable s ow -> created s o ->
  (doomed s o <-> refs s ow o = 0) /\ (count_occ Nat.eq_dec (ms_log s) o <= 1) /\ (0 < refs s ow o -> alive s o).
Proof.
  intros s ow o R H. unfold created in H. destruct (nth_error (ms_heap s) o) as [ob|] eqn:E; [|apply nth_error_None in E; lia].
  destruct (inv_obj _ _ (reachable_inv _ _ R) _ _ E) as (C & L & D).
  split; [rewrite doomed_iff; lia|]. fold (logs s o). split; [lia|].
  intros P. exists ob. split; [exact E|]. destruct D as [D|[D|[D|D]]]; [tauto|lia..].
Qed.

Lemma up_len : forall h o h' n, refcount_up h o = COk h' n -> length h' = length h.
Proof. intros h o h' n H. unfold refcount_up in H. destruct (live h o); [|discriminate]. destruct (_ || _)%bool; [discriminate|]. injection H as <- _. apply length_upd. Qed.
Lemma down_len : forall h o h' n, refcount_down h o = COk h' n -> length h' = length h.
Proof. intros h o h' n H. unfold refcount_down in H. destruct (live h o); [|discriminate]. destruct (_ =? _)%N; [discriminate|]. injection H as <- _. apply length_upd. Qed.
Lemma run_act_len : forall h a h' nx lg lk, run_act h a = ADone h' nx lg lk -> length h' = length h.
Proof.
  intros h a h' nx lg lk H. destruct a as [q|q|q|p k ok]; cbn [run_act] in H.
  - destruct (refcount_down h q) as [| |h1 n] eqn:E; try discriminate. assert (h' = h1) by congruence. subst. eapply down_len. exact E.
  - destruct (live h q); [|discriminate]. injection H as <- _ _ _. apply length_upd.
  - destruct (live h q); [|discriminate]. injection H as <- _ _ _. apply length_upd.
  - destruct (refcount_up h k) as [| |h1 n] eqn:E; try discriminate. apply up_len in E. destruct (live h1 p); [|discriminate].
    destruct ok; injection H as <- _ _ _; rewrite ?length_upd; exact E.
Qed.

Lemma last_release : forall s ow t s' o, reachable s ow -> lawful s ow (RStep t) -> mstep s (RStep t) = RNext s' -> created s o ->
  (~ doomed s o /\ doomed s' o <-> (exists l1 l2, ms_todo s = l1 ++ (t, ADown o) :: l2 /\ forall a, ~ In (t, a) l1) /\ refs s ow o = 1).
Proof.
  intros s ow t s' o R L E Hc. pose proof (reachable_step _ _ _ _ R L E) as R'. cbn [owns] in R'.
  assert (Hc' : created s' o).
  { unfold created in *. cbn [mstep] in E. destruct (next_of t (ms_todo s)) as [[[l1 a] l2]|]; [|discriminate].
    destruct (run_act (ms_heap s) a) as [| |h nx lg lk] eqn:Ra; try discriminate. injection E as <-. cbn [ms_heap].
    assert (length h = length (ms_heap s)); [|lia].
    eapply run_act_len. exact Ra. }
  destruct (destroyed_iff_last _ _ _ R Hc) as (D & _ & _). destruct (destroyed_iff_last _ _ _ R' Hc') as (D' & _ & _).
  rewrite D, D'. cbn [mstep] in E. destruct (next_of t (ms_todo s)) as [[[l1 a] l2]|] eqn:En; [|discriminate].
  pose proof (next_of_some _ _ _ _ _ En) as T.
  assert (F : forall b, ~ In (t, b) l1).
  { clear - En. revert l1 En. generalize (ms_todo s). intros l. induction l as [|[t' b'] r IH]; intros l1 En b H; cbn [next_of] in En; [discriminate|].
    destruct (Nat.eqb t' t) eqn:Et; [injection En as <- <- <-; contradiction|].
    destruct (next_of t r) as [[[m1 c] m2]|]; [|discriminate]. injection En as <- <- <-. destruct H as [H|H].
    - injection H as -> _. rewrite Nat.eqb_refl in Et. discriminate.
    - eapply IH; [reflexivity|exact H]. }
  assert (U : forall m1 m2 b, ms_todo s = m1 ++ (t, b) :: m2 -> (forall c, ~ In (t, c) m1) -> m1 = l1 /\ b = a /\ m2 = l2).
  { intros m1 m2 b T2 F2. rewrite T in T2. clear - T2 F F2. revert m1 T2 F2 F. induction l1 as [|x l1 IH]; intros [|y m1] T2 F2 F; cbn in T2.
    - injection T2 as -> ->. auto.
    - exfalso. injection T2 as <- _. apply (F2 a). left. reflexivity.
    - exfalso. injection T2 as -> _. apply (F b). left. reflexivity.
    - injection T2 as <- T2. destruct (IH m1 T2) as (-> & -> & ->); [intros c Hc; apply (F2 c); right; exact Hc|intros c Hc; apply (F c); right; exact Hc|auto]. }
  pose proof (reachable_inv _ _ R) as I.
  destruct a as [q|q|q|p k ok].
  - destruct (inv_down _ _ _ _ _ _ I T) as (h & next & Ea & _).
    assert (Ra : forall i, refs s' ow i + (if Nat.eq_dec q i then 1 else 0) = refs s ow i).
    { intros i. rewrite Ea in E. injection E as <-. rewrite !refs_split. cbn [ms_heap ms_todo ms_leaked].
      cbn [run_act] in Ea. unfold refcount_down in Ea. destruct (live (ms_heap s) q) as [ob|] eqn:Lq; [|discriminate]. apply live_some in Lq. destruct Lq as [Lq _].
      destruct (ob_count ob =? 0)%N; [discriminate|]. injection Ea as <- <-. rewrite (kids_same_upd _ _ _ _ Lq) by reflexivity.
      rewrite T, app_nil_r. todo_simpl. destruct (ob_count ob =? 1)%N; cbn [map flat_map down_of snd app]; one; lia. }
    pose proof (Ra o) as Ro. split.
    + intros [Hn Hz]. destruct (Nat.eq_dec q o) as [->|]; [|lia]. split; [exists l1, l2; auto|lia].
    + intros [(m1 & m2 & T2 & F2) H1]. destruct (U m1 m2 (ADown o) T2 F2) as (_ & Eq & _). injection Eq as <-. destruct (Nat.eq_dec o o); [|congruence]. lia.
  - split.
    + intros [Hn Hz]. exfalso. cbn [run_act] in E. destruct (live (ms_heap s) q) as [ob|] eqn:Lq; [|discriminate]. apply live_some in Lq. destruct Lq as [Lq _]. injection E as <-.
      pose proof (cnt_kids_upd _ _ _ (mk_obj (ob_count ob) true []) o Lq) as Q. cbn [ob_kids count_occ] in Q.
      apply Hn. revert Hz. rewrite !refs_split. cbn [ms_heap ms_todo ms_leaked]. rewrite T, map_app, app_nil_r. todo_simpl. rewrite cnt_downs. cbn [map flat_map down_of snd app count_occ]. lia.
    + intros [(m1 & m2 & T2 & F2) H1]. destruct (U m1 m2 (ADown o) T2 F2) as (_ & Eq & _). discriminate.
  - split.
    + intros [Hn Hz]. exfalso. cbn [run_act] in E. destruct (live (ms_heap s) q) as [ob|] eqn:Lq; [|discriminate]. apply live_some in Lq. destruct Lq as [Lq _]. injection E as <-.
      apply Hn. revert Hz. rewrite !refs_split. cbn [ms_heap ms_todo ms_leaked]. rewrite (kids_same_upd _ _ _ _ Lq) by reflexivity. rewrite T, app_nil_r. todo_simpl. cbn [map flat_map app count_occ]. lia.
    + intros [(m1 & m2 & T2 & F2) H1]. destruct (U m1 m2 (ADown o) T2 F2) as (_ & Eq & _). discriminate.
  - split.
    + intros [Hn Hz]. exfalso. destruct (inv_attach _ _ _ _ _ _ _ _ I T) as [[Ea _]|(h & lk & Ea & _)]; [rewrite Ea in E; discriminate|].
      assert (refs s ow o <= refs s' ow o); [|lia].
      rewrite Ea in E. injection E as <-. cbn [run_act] in Ea. unfold refcount_up in Ea.
      destruct (live (ms_heap s) k) as [obk|] eqn:Lk; [|discriminate]. apply live_some in Lk. destruct Lk as [Lk _].
      destruct (_ || _)%bool; [discriminate|].
      match type of Ea with context[live ?hh p] => destruct (live hh p) as [obp|] eqn:Lp; [|discriminate]; pose proof (kids_same_upd (ms_heap s) k obk (mk_obj (add64 (ob_count obk) 1) true (ob_kids obk)) Lk eq_refl o) as Q1 end.
      apply live_some in Lp. destruct Lp as [Lp _].
      pose proof (cnt_kids_upd _ _ _ (mk_obj (ob_count obp) true (ob_kids obp ++ [k])) o Lp) as Q. cbn [ob_kids] in Q. rewrite cnt_app in Q.
      rewrite !refs_split. cbn [ms_heap ms_todo ms_leaked map app]. rewrite T. todo_simpl.
      destruct ok; injection Ea as <- <-; rewrite ?cnt_app; cbn [count_occ]; lia.
    + intros [(m1 & m2 & T2 & F2) H1]. destruct (U m1 m2 (ADown o) T2 F2) as (_ & Eq & _). discriminate.
Qed.

Lemma quiescent : forall s ow o, reachable s ow -> created s o -> ms_todo s = [] ->
  (alive s o <-> 0 < refs s ow o) /\ (0 < refs s ow o -> ~ In o (ms_log s)) /\ (refs s ow o = 0 -> count_occ Nat.eq_dec (ms_log s) o = 1).
Proof.
  intros s ow o R H T. unfold created in H. destruct (nth_error (ms_heap s) o) as [ob|] eqn:E; [|apply nth_error_None in E; lia].
  destruct (inv_obj _ _ (reachable_inv _ _ R) _ _ E) as (C & L & D). unfold dests, frees in D. rewrite T in D. cbn [flat_map count_occ] in D.
  assert (D' : (0 < refs s ow o /\ ob_alive ob = true /\ logs s o = 0) \/ (refs s ow o = 0 /\ ob_alive ob = false /\ logs s o = 1)).
  { destruct D as [D|[D|[D|D]]]; [left; tauto|exfalso; lia|exfalso; lia|right; tauto]. }
  clear D. split.
  - split.
    + intros (ob' & E' & A). assert (ob' = ob) by congruence. subst. destruct D' as [D'|D']; [tauto|]. destruct D' as (_ & K & _). congruence.
    + intros P. exists ob. split; [exact E|]. destruct D' as [D'|D']; [tauto|lia].
  - unfold logs in D'. split.
    + intros P K. apply (count_occ_In Nat.eq_dec) in K. destruct D' as [D'|D']; lia.
    + intros Z. destruct D' as [D'|D']; [lia|tauto].
Qed.

Lemma no_leak : forall s, reachable s [] -> ms_todo s = [] -> ms_leaked s = [] -> refers_to_older s ->
  forall o, created s o -> ~ alive s o /\ count_occ Nat.eq_dec (ms_log s) o = 1.
Proof.
  intros s R T Lk Old.
  assert (G : forall n o, created s o -> length (ms_heap s) - o <= n -> refs s [] o = 0).
  { induction n as [|n IH]; intros o Hc Hn; [unfold created in Hc; lia|].
    destruct (Nat.eq_dec (refs s [] o) 0) as [Z|Z]; [exact Z|]. exfalso.
    rewrite refs_split, T, Lk in Z. cbn [map flat_map count_occ] in Z.
    assert (K : 0 < cnt (flat_map ob_kids (ms_heap s)) o) by lia. apply count_occ_In in K. apply in_flat_map in K. destruct K as (ob & Ip & Ik).
    apply In_nth_error in Ip. destruct Ip as [p Ep]. pose proof (Old _ _ _ Ep Ik) as Lt.
    assert (Hp : created s p) by (unfold created; apply nth_error_Some; congruence).
    assert (Zp : refs s [] p = 0) by (apply IH; [exact Hp|unfold created in *; lia]).
    destruct (inv_obj _ _ (reachable_inv _ _ R) _ _ Ep) as (_ & _ & D). unfold dests, frees in D. rewrite T in D. cbn [flat_map count_occ] in D.
    assert (ob_kids ob = []) by (destruct D as [D|[D|[D|D]]]; [lia|lia|lia|tauto]). rewrite H in Ik. contradiction. }
  intros o Hc. pose proof (G _ o Hc (le_n _)) as Z. destruct (quiescent _ _ _ R Hc T) as (A & _ & B). split; [rewrite A; lia|auto].
Qed.

(** ** Pending work ends *)
Definition weight (x : nat * act) : nat := match snd x with ADown _ => 3 | ADestroy _ => 2 | AFree _ => 1 | AAttach _ _ _ => 5 end.
Definition total (f : nat * act -> nat) (l : list (nat * act)) : nat := list_sum (map f l).
Definition measure (s : mstate) : nat := 4 * length (flat_map ob_kids (ms_heap s)) + total weight (ms_todo s).

Lemma total_app : forall f a b, total f (a ++ b) = total f a + total f b.
Proof. intros. unfold total. rewrite map_app, list_sum_app. reflexivity. Qed.
Lemma total_cons : forall f x b, total f (x :: b) = f x + total f b.
Proof. reflexivity. Qed.

Lemma len_kids_upd : forall h i ob x, nth_error h i = Some ob ->
  length (flat_map ob_kids (upd h i x)) + length (ob_kids ob) = length (flat_map ob_kids h) + length (ob_kids x).
Proof.
  induction h as [|y h IH]; intros [|i] ob x H; cbn [nth_error] in H; try discriminate.
  - injection H as ->. cbn [upd flat_map]. rewrite !app_length. lia.
  - cbn [upd flat_map]. rewrite !app_length. pose proof (IH i ob x H). lia.
Qed.

Lemma total_downs : forall t l, total weight (map (pair t) (map ADown l)) = 3 * length l.
Proof. intros t l. induction l as [|a l IH]; [reflexivity|]. cbn [map]. rewrite total_cons, IH. cbn [weight snd length]. lia. Qed.

Lemma step_shrinks : forall s t s', mstep s (RStep t) = RNext s' -> measure s' < measure s.
Proof.
  intros s t s' E. cbn [mstep] in E. destruct (next_of t (ms_todo s)) as [[[l1 a] l2]|] eqn:En; [|discriminate].
  pose proof (next_of_some _ _ _ _ _ En) as T. unfold measure. rewrite T, total_app, total_cons.
  destruct a as [o|o|o|p k ok]; cbn [run_act weight snd] in *.
  - unfold refcount_down in E. destruct (live (ms_heap s) o) as [ob|] eqn:L; [|discriminate]. apply live_some in L. destruct L as [L _].
    destruct (ob_count ob =? 0)%N; [discriminate|]. injection E as <-. cbn [ms_heap ms_todo].
    pose proof (len_kids_upd _ _ _ (mk_obj (sub64 (ob_count ob) 1) true (ob_kids ob)) L) as Q. cbn [ob_kids] in Q.
    rewrite !total_app. destruct (ob_count ob =? 1)%N; cbn [map]; rewrite ?total_cons; cbn [weight snd total map list_sum fold_right] in *; lia.
  - destruct (live (ms_heap s) o) as [ob|] eqn:L; [|discriminate]. apply live_some in L. destruct L as [L _]. injection E as <-. cbn [ms_heap ms_todo].
    pose proof (len_kids_upd _ _ _ (mk_obj (ob_count ob) true []) L) as Q. cbn [ob_kids length] in Q.
    rewrite map_app, !total_app, total_downs. cbn [map]. rewrite ?total_cons. cbn [weight snd]. change (total weight []) with 0. lia.
  - destruct (live (ms_heap s) o) as [ob|] eqn:L; [|discriminate]. apply live_some in L. destruct L as [L _]. injection E as <-. cbn [ms_heap ms_todo].
    pose proof (len_kids_upd _ _ _ (mk_obj (ob_count ob) false (ob_kids ob)) L) as Q. cbn [ob_kids] in Q.
    rewrite !total_app. cbn [map]. change (total weight []) with 0. lia.
  - unfold refcount_up in E. destruct (live (ms_heap s) k) as [obk|] eqn:Lk; [|discriminate]. apply live_some in Lk. destruct Lk as [Lk _].
    destruct (_ || _)%bool; [discriminate|].
    pose proof (len_kids_upd _ _ _ (mk_obj (add64 (ob_count obk) 1) true (ob_kids obk)) Lk) as Q. cbn [ob_kids] in Q.
    match type of E with context[live ?hh p] => destruct (live hh p) as [obp|] eqn:Lp; [|discriminate] end. apply live_some in Lp. destruct Lp as [Lp _].
    pose proof (len_kids_upd _ _ _ (mk_obj (ob_count obp) true (ob_kids obp ++ [k])) Lp) as Q2. cbn [ob_kids] in Q2. rewrite app_length in Q2. cbn [length] in Q2.
    destruct ok; injection E as <-; cbn [ms_heap ms_todo]; rewrite !total_app; cbn [map]; change (total weight []) with 0; lia.
Qed.

Lemma steps_bounded : forall s ts s', steps s ts s' -> length ts + measure s' <= measure s.
Proof. intros s ts s' H. induction H as [s|s t s1 ts s2 N E H IH]; cbn [length]; [lia|]. pose proof (step_shrinks _ _ _ E). lia. Qed.

Lemma steps_reachable : forall s ts s' ow, steps s ts s' -> reachable s ow -> reachable s' ow.
Proof.
  intros s ts s' ow H. induction H as [s|s t s1 ts s2 N E H IH]; intros R; [exact R|]. apply IH.
  exact (reachable_step _ _ (RStep t) _ R N E).
Qed.

Lemma steps_end : forall s ow, reachable s ow ->
  (exists bound, forall ts s', steps s ts s' -> length ts <= bound) /\
  (forall ts s' t, steps s ts s' -> ~ idle s' t -> (exists s2, mstep s' (RStep t) = RNext s2) \/
     (mstep s' (RStep t) = RAssert /\ exists o, N.of_nat (refs s' ow o) = UINT64_MAX)).
Proof.
  intros s ow R. split.
  - exists (measure s). intros ts s' H. pose proof (steps_bounded _ _ _ H). lia.
  - intros ts s' t H N. apply never_used_after; [eapply steps_reachable; eassumption|exact N].
Qed.

(** ** Concrete runs *)
Fixpoint mrun (s : mstate) (ow : owners) (es : list revent) : option (mstate * owners) :=
  match es with
  | [] => Some (s, ow)
  | e :: r => match mstep s e with RNext s' => mrun s' (owns s ow e) r | _ => None end
  end.
Fixpoint all_lawful (s : mstate) (ow : owners) (es : list revent) : Prop :=
  match es with
  | [] => True
  | e :: r => lawful s ow e /\ match mstep s e with RNext s' => all_lawful s' (owns s ow e) r | _ => False end
  end.
Lemma mrun_reachable : forall es s ow s' ow', reachable s ow -> all_lawful s ow es -> mrun s ow es = Some (s', ow') -> reachable s' ow'.
Proof.
  induction es as [|e es IH]; intros s ow s' ow' R L E; cbn [mrun all_lawful] in *; [congruence|].
  destruct L as [L1 L2]. destruct (mstep s e) as [s1| | |] eqn:Em; try contradiction.
  eapply IH; [|exact L2|exact E]. eapply reachable_step; eassumption.
Qed.
