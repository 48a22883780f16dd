(** A small separation logic for the memory model: [triple P c Q G] says that [c], started where the blocks [P] are allocated
    (among others), neither releases nor changes any other block, has no undefined behaviour, leaves the blocks [Q a] in place
    of [P] and establishes [G a], where [a] is its result; and that it gives back unerased key material only at places that
    [spill] allows.  The outcomes of the questions are restricted by [may]: a question of a sort that [may] excludes is answered
    with no. *)
From Coq Require Import List Bool PeanoNat Lia Permutation.
Import ListNotations.
From Verif Require Import MemModel.

Definition ids (l : list cell) : list nat := map c_id l.

Definition wf (m : mem) : Prop := NoDup (ids (m_live m)) /\ Forall (fun i => i < m_next m) (ids (m_live m)).

Definition triple (may : site -> bool) (spill : place -> bool) {A} (P : list cell) (c : M A) (Q : A -> list cell) (G : A -> Prop)
  : Prop :=
  forall m R,
    wf m -> (forall n s, may s = false -> m_env m n s = false) -> Permutation (m_live m) (P ++ R) ->
    exists m' a,
      c m = Some (m', a) /\ wf m' /\ m_env m' = m_env m /\ Permutation (m_live m') (Q a ++ R) /\ G a /\
      (exists new, m_spilled m' = new ++ m_spilled m /\ Forall (fun p => spill p = true) new).

(** *** Finding blocks among others *)

Inductive take (A : list cell) : list cell -> list cell -> Prop :=
| tk_all : take A A []
| tk_app l : take A (A ++ l) l
| tk_cons c l : A = [c] -> take A (c :: l) l
| tk_skip_app x l l' : take A l l' -> take A (x ++ l) (x ++ l')
| tk_skip_cons x l l' : take A l l' -> take A (x :: l) (x :: l').

Inductive splits : list cell -> list cell -> list cell -> Prop :=
| sp_nil P : splits [] P P
| sp_app A B P F1 F : splits A P F1 -> splits B F1 F -> splits (A ++ B) P F
| sp_cons c B P F1 F : take [c] P F1 -> splits B F1 F -> splits (c :: B) P F
| sp_atom A P F : take A P F -> splits A P F.

Lemma take_perm A P F : take A P F -> Permutation P (A ++ F).
Proof.
  induction 1 as [|l|c l E|x l l' _ IH|x l l' _ IH].
  - rewrite app_nil_r. reflexivity.
  - reflexivity.
  - subst. reflexivity.
  - rewrite IH, !app_assoc. apply Permutation_app_tail, Permutation_app_comm.
  - rewrite IH. apply Permutation_middle.
Qed.

Lemma splits_perm A P F : splits A P F -> Permutation P (A ++ F).
Proof.
  induction 1 as [P|A B P F1 F _ IH1 _ IH2|c B P F1 F T _ IH|A P F T].
  - reflexivity.
  - rewrite IH1, IH2, app_assoc. reflexivity.
  - rewrite (take_perm _ _ _ T), IH. reflexivity.
  - exact (take_perm _ _ _ T).
Qed.

(** *** The rules *)

Section Logic.
Variable may : site -> bool.
Variable spill : place -> bool.

Local Notation tr := (triple may spill).

Lemma tr_ret {A} P (a : A) (Q : A -> list cell) (G : A -> Prop) : Permutation P (Q a) -> G a -> tr P (ret a) Q G.
Proof.
  intros HP HG m R W E L. exists m, a.
  split; [reflexivity|]. split; [exact W|]. split; [reflexivity|]. split.
  - rewrite L. apply Permutation_app_tail, HP.
  - split; [exact HG|]. exists []. split; [reflexivity|constructor].
Qed.

Lemma tr_bind {A B} P P0 F (c : M A) (k : A -> M B) Q0 G0 Q G :
  tr P0 c Q0 G0 -> splits P0 P F -> (forall a, G0 a -> tr (Q0 a ++ F) (k a) Q G) -> tr P (bind c k) Q G.
Proof.
  intros HC HS HK m R W E L.
  assert (L1 : Permutation (m_live m) (P0 ++ (F ++ R))).
  { rewrite L, (splits_perm _ _ _ HS), app_assoc. reflexivity. }
  destruct (HC m (F ++ R) W E L1) as (m1 & a & E1 & W1 & V1 & L2 & G1 & (n1 & S1 & A1)).
  assert (L3 : Permutation (m_live m1) ((Q0 a ++ F) ++ R)) by (rewrite L2, app_assoc; reflexivity).
  assert (E2 : forall n s, may s = false -> m_env m1 n s = false) by (rewrite V1; exact E).
  destruct (HK a G1 m1 R W1 E2 L3) as (m2 & b & E3 & W2 & V2 & L4 & G2 & (n2 & S2 & A2)).
  exists m2, b. unfold bind. rewrite E1.
  split; [exact E3|]. split; [exact W2|]. split; [congruence|]. split; [exact L4|]. split; [exact G2|].
  exists (n2 ++ n1). split; [rewrite S2, S1, app_assoc; reflexivity|]. apply Forall_app. split; assumption.
Qed.

Lemma tr_call {A} P P0 F (c : M A) Q0 G0 (Q : A -> list cell) (G : A -> Prop) :
  tr P0 c Q0 G0 -> splits P0 P F -> (forall a, G0 a -> Permutation (Q0 a ++ F) (Q a) /\ G a) -> tr P c Q G.
Proof.
  intros HC HS HK m R W E L.
  assert (L1 : Permutation (m_live m) (P0 ++ (F ++ R))).
  { rewrite L, (splits_perm _ _ _ HS), app_assoc. reflexivity. }
  destruct (HC m (F ++ R) W E L1) as (m1 & a & E1 & W1 & V1 & L2 & G1 & S1).
  destruct (HK a G1) as (HQ & HG).
  exists m1, a. split; [exact E1|]. split; [exact W1|]. split; [exact V1|]. split.
  - rewrite L2, app_assoc. apply Permutation_app_tail, HQ.
  - split; assumption.
Qed.

Lemma tr_pre {A} P P' (c : M A) Q G : Permutation P P' -> tr P' c Q G -> tr P c Q G.
Proof. intros HP HC m R W E L. apply HC; auto. rewrite L. apply Permutation_app_tail, HP. Qed.

Lemma tr_assoc {A B C} P (c : M A) (k : A -> M B) (k' : B -> M C) Q G :
  tr P (bind c (fun a => bind (k a) k')) Q G -> tr P (bind (bind c k) k') Q G.
Proof.
  intros H m R W E L. destruct (H m R W E L) as (m' & a & X & Y). exists m', a. split; [|exact Y].
  rewrite <- X. unfold bind. destruct (c m) as [[? ?]|]; reflexivity.
Qed.

Lemma tr_ret_bind {A B} P (a : A) (k : A -> M B) Q G : tr P (k a) Q G -> tr P (bind (ret a) k) Q G.
Proof. exact (fun H => H). Qed.

Lemma tr_if {A B} P (b : bool) (c d : M A) (k : A -> M B) Q G :
  tr P (if b then bind c k else bind d k) Q G -> tr P (bind (if b then c else d) k) Q G.
Proof. destruct b; exact (fun H => H). Qed.

(** *** The primitive operations *)

Lemma ask_tr s : tr [] (ask s) (fun _ => []) (fun a => a = true -> may s = true).
Proof.
  intros m R W E L. eexists _, _. split; [reflexivity|]. cbn.
  split; [exact W|]. split; [reflexivity|]. split; [exact L|]. split.
  - intro H. destruct (may s) eqn:D; [reflexivity|]. rewrite (E _ _ D) in H. discriminate.
  - exists []. split; [reflexivity|constructor].
Qed.

Lemma must_acquire_tr : tr [] must_acquire (fun b => [mkc b false 0]) (fun _ => True).
Proof.
  intros m R [W1 W2] E L. eexists _, _. split; [reflexivity|]. cbn.
  split; [split|].
  - cbn. constructor; [|exact W1]. intro I.
    rewrite Forall_forall in W2. specialize (W2 _ I). lia.
  - cbn. constructor; [lia|]. eapply Forall_impl; [|exact W2]. cbn. lia.
  - split; [reflexivity|]. split; [constructor; exact L|]. split; [exact I|]. exists []. split; [reflexivity|constructor].
Qed.

Lemma acquire_at_tr s :
  tr [] (acquire_at s) (fun o => match o with Some b => [mkc b false 0] | None => [] end) (fun o => o = None -> may s = true).
Proof.
  unfold acquire_at. eapply tr_bind; [apply ask_tr|apply sp_nil|]. intros [|] H.
  - apply tr_ret; [reflexivity|]. auto.
  - eapply tr_bind; [apply must_acquire_tr|apply sp_nil|]. intros b _. apply tr_ret; [reflexivity|]. discriminate.
Qed.

Lemma find_cell_split l b s r R :
  NoDup (ids l) -> Permutation l (mkc b s r :: R) ->
  find_cell b l = Some (mkc b s r) /\ Permutation (drop_cell b l) R.
Proof.
  revert R. induction l as [|c l IH]; intros R N H.
  - apply Permutation_nil in H. discriminate.
  - inversion N as [|? ? N1 N2]; subst. cbn. destruct (Nat.eqb_spec (c_id c) b) as [Eb|Eb].
    + assert (I : In (mkc b s r) (c :: l)) by (apply (Permutation_in _ (Permutation_sym H)); left; reflexivity).
      destruct I as [->|I].
      * split; [reflexivity|]. exact (Permutation_cons_inv H).
      * exfalso. apply N1. rewrite Eb. change b with (c_id (mkc b s r)). apply in_map, I.
    + assert (I : In c (mkc b s r :: R)) by (apply (Permutation_in _ H); left; reflexivity).
      destruct I as [<-|I]; [exfalso; apply Eb; reflexivity|].
      apply in_split in I. destruct I as (R1 & R2 & ->).
      assert (H' : Permutation l (mkc b s r :: R1 ++ R2)).
      { apply Permutation_cons_inv with (a := c). rewrite H. rewrite (perm_swap (mkc b s r) c). constructor.
        symmetry. apply Permutation_middle. }
      destruct (IH _ N2 H') as (F & D). split; [exact F|]. rewrite D. apply Permutation_middle.
Qed.

Lemma wf_perm m l n t e s : wf m -> Permutation (ids (m_live m)) (ids l) -> m_next m <= n -> wf (mk_mem l n t e s).
Proof.
  intros [W1 W2] H L. split; cbn.
  - apply (Permutation_NoDup H W1).
  - apply (Permutation_Forall H). eapply Forall_impl; [|exact W2]. cbn. lia.
Qed.

Lemma release_at_tr p b s r : (s = true -> spill p = true) -> tr [mkc b s r] (release_at p b) (fun _ => []) (fun _ => True).
Proof.
  intros HS m R W E L.
  destruct W as [W1 W2]. destruct (find_cell_split _ _ _ _ _ W1 L) as (F & D).
  unfold release_at. rewrite F. eexists _, _. split; [reflexivity|]. cbn.
  assert (LI : Permutation (ids (m_live m)) (b :: ids R)) by (apply (Permutation_map c_id) in L; exact L).
  split; [split; cbn|].
  - apply (Permutation_NoDup (Permutation_map c_id (Permutation_sym D))).
    apply (Permutation_NoDup LI) in W1. inversion W1; assumption.
  - apply (Permutation_Forall (Permutation_map c_id (Permutation_sym D))).
    apply (Permutation_Forall LI) in W2. inversion W2; assumption.
  - split; [reflexivity|]. split; [exact D|]. split; [exact I|].
    destruct s.
    + exists [p]. split; [reflexivity|]. constructor; [exact (HS eq_refl)|constructor].
    + exists []. split; [reflexivity|constructor].
Qed.

Lemma update_cell_tr b s r f s' r' :
  f (mkc b s r) = Some (mkc b s' r') ->
  tr [mkc b s r] (update_cell b f) (fun _ => [mkc b s' r']) (fun a => a = mkc b s r).
Proof.
  intros HF m R W E L.
  pose proof W as [W1 W2]. destruct (find_cell_split _ _ _ _ _ W1 L) as (F & D).
  unfold update_cell. rewrite F, HF. eexists _, _. split; [reflexivity|]. cbn.
  split.
  - apply (wf_perm m); [exact W| |lia]. etransitivity; [apply (Permutation_map c_id L)|]. cbn. constructor. symmetry.
    apply (Permutation_map c_id D).
  - split; [reflexivity|]. split; [constructor; exact D|]. split; [reflexivity|]. exists []. split; [reflexivity|constructor].
Qed.

Lemma touch_tr b s r : tr [mkc b s r] (touch b) (fun _ => [mkc b s r]) (fun _ => True).
Proof.
  unfold touch. eapply tr_bind; [apply (update_cell_tr b s r _ s r); reflexivity|apply sp_atom, tk_all|].
  intros a _. apply tr_ret; [reflexivity|exact I].
Qed.
Lemma taint_tr b s r : tr [mkc b s r] (taint b) (fun _ => [mkc b true r]) (fun _ => True).
Proof.
  unfold taint. eapply tr_bind; [apply (update_cell_tr b s r _ true r); reflexivity|apply sp_atom, tk_all|].
  intros a _. apply tr_ret; [reflexivity|exact I].
Qed.
Lemma scrub_tr b s r : tr [mkc b s r] (scrub b) (fun _ => [mkc b false r]) (fun _ => True).
Proof.
  unfold scrub. eapply tr_bind; [apply (update_cell_tr b s r _ false r); reflexivity|apply sp_atom, tk_all|].
  intros a _. apply tr_ret; [reflexivity|exact I].
Qed.
Lemma init_ref_tr b s r : tr [mkc b s r] (init_ref b) (fun _ => [mkc b s 1]) (fun _ => True).
Proof.
  unfold init_ref. eapply tr_bind; [apply (update_cell_tr b s r _ s 1); reflexivity|apply sp_atom, tk_all|].
  intros a _. apply tr_ret; [reflexivity|exact I].
Qed.
Lemma retain_tr b s r : tr [mkc b s (S r)] (retain b) (fun _ => [mkc b s (S (S r))]) (fun _ => True).
Proof.
  unfold retain. eapply tr_bind; [apply (update_cell_tr b s (S r) _ s (S (S r))); reflexivity|apply sp_atom, tk_all|].
  intros a _. apply tr_ret; [reflexivity|exact I].
Qed.
Lemma unref_tr b s r : tr [mkc b s (S r)] (unref b) (fun _ => [mkc b s r]) (fun a => a = (r =? 0)).
Proof.
  unfold unref. eapply tr_bind; [apply (update_cell_tr b s (S r) _ s r); reflexivity|apply sp_atom, tk_all|].
  intros a ->. apply tr_ret; [reflexivity|]. destruct r; reflexivity.
Qed.

(** A triple about the empty memory. *)
Lemma tr_start {A} (c : M A) Q G env :
  tr [] c Q G -> (forall n s, may s = false -> env n s = false) ->
  exists m' a, c (mk_mem [] 0 0 env []) = Some (m', a) /\ wf m' /\ Permutation (m_live m') (Q a) /\ G a /\
               Forall (fun p => spill p = true) (m_spilled m').
Proof.
  intros H E. destruct (H (mk_mem [] 0 0 env []) []) as (m' & a & X & W & _ & L & HG & (new & S & F)).
  - split; constructor.
  - exact E.
  - constructor.
  - exists m', a. split; [exact X|]. split; [exact W|]. split; [rewrite app_nil_r in L; exact L|]. split; [exact HG|].
    rewrite S. cbn. rewrite app_nil_r. exact F.
Qed.
End Logic.
