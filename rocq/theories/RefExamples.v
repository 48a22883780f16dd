(** Concrete runs of reference counting, checked by computation. *)
From Verif Require Import Base RefModel RefSpec RefProofs.
From Coq Require Import Arith Lia.
Import List.
Open Scope list_scope.
Open Scope nat_scope.

(** [lawful], computed. *)
Definition kids_of (h : list obj) (o : nat) : list nat := match nth_error h o with Some ob => ob_kids ob | None => [] end.
Fixpoint reach_list (fuel : nat) (h : list obj) (l : list nat) : list nat :=
  match fuel with O => l | S n => reach_list n h (l ++ flat_map (kids_of h) l) end.
Definition owned (ow : owners) (t : nat) : list nat := map snd (filter (fun x => Nat.eqb (fst x) t) ow).
Definition memb (o : nat) (l : list nat) : bool := existsb (Nat.eqb o) l.
Definition reachb (h : list obj) (ow : owners) (t o : nat) : bool := memb o (reach_list 3 h (owned ow t)).
Definition idleb (s : mstate) (t : nat) : bool := negb (existsb (fun x => Nat.eqb (fst x) t) (ms_todo s)).
Definition lawfulb (s : mstate) (ow : owners) (e : revent) : bool :=
  match e with
  | RNew t kids => idleb s t && forallb (reachb (ms_heap s) ow t) kids
  | RRetain t o => idleb s t && reachb (ms_heap s) ow t o
  | RRelease t o => idleb s t && memb o (owned ow t)
  | RUse t os => idleb s t && forallb (reachb (ms_heap s) ow t) os
  | RSend t _ o => idleb s t && memb o (owned ow t)
  | RMove t p k => idleb s t && memb k (owned ow t) && reachb (ms_heap s) (remove1 (t, k) ow) t p
  | RAdd t p k _ => idleb s t && reachb (ms_heap s) ow t p && reachb (ms_heap s) ow t k
  | RStep t => negb (idleb s t)
  end%bool.
Fixpoint run_lawful (s : mstate) (ow : owners) (es : list revent) : option (mstate * owners) :=
  match es with
  | [] => Some (s, ow)
  | e :: r => if lawfulb s ow e then match mstep s e with RNext s' => run_lawful s' (owns s ow e) r | _ => None end else None
  end.

Lemma memb_in : forall o l, memb o l = true -> In o l.
Proof. intros o l H. apply existsb_exists in H. destruct H as (x & I & E). apply Nat.eqb_eq in E. subst. exact I. Qed.
Lemma owned_in : forall ow t o, In o (owned ow t) -> In (t, o) ow.
Proof.
  intros ow t o H. unfold owned in H. apply in_map_iff in H. destruct H as ((t' & o') & E & K). cbn in E. subst.
  apply filter_In in K. destruct K as [K E]. apply Nat.eqb_eq in E. cbn in E. subst. exact K.
Qed.
Lemma reach_list_sound : forall h ow t fuel l, (forall o, In o l -> reach h ow t o) -> forall o, In o (reach_list fuel h l) -> reach h ow t o.
Proof.
  intros h ow t. induction fuel as [|n IH]; intros l H o I; cbn [reach_list] in I; [auto|]. eapply IH; [|exact I].
  intros k K. apply in_app_or in K. destruct K as [K|K]; [auto|]. apply in_flat_map in K. destruct K as (p & Ip & Ik).
  unfold kids_of in Ik. destruct (nth_error h p) as [ob|] eqn:E; [|contradiction]. eapply reach_kid; eauto.
Qed.
Lemma reachb_sound : forall h ow t o, reachb h ow t o = true -> reach h ow t o.
Proof.
  intros h ow t o H. apply memb_in in H. eapply reach_list_sound; [|exact H]. intros k K. apply reach_own. apply owned_in. exact K.
Qed.
Lemma idleb_iff : forall s t, idleb s t = true <-> idle s t.
Proof.
  intros s t. unfold idleb, idle. rewrite Bool.negb_true_iff, <- Bool.not_true_iff_false, existsb_exists. split.
  - intros H a K. apply H. exists (t, a). split; [exact K|apply Nat.eqb_refl].
  - intros H ((t' & a) & K & E). cbn in E. apply Nat.eqb_eq in E. subst. exact (H a K).
Qed.
Lemma lawfulb_sound : forall s ow e, lawfulb s ow e = true -> lawful s ow e.
Proof.
  intros s ow e H. destruct e; cbn [lawfulb lawful] in *; rewrite ?Bool.andb_true_iff in H; rewrite ?idleb_iff, ?forallb_forall in H.
  - destruct H as [H1 H2]. split; [exact H1|]. intros k K. apply reachb_sound. auto.
  - destruct H as [H1 H2]. split; [exact H1|]. apply reachb_sound. exact H2.
  - destruct H as [H1 H2]. split; [exact H1|]. apply owned_in, memb_in. exact H2.
  - destruct H as [H1 H2]. split; [exact H1|]. intros k K. apply reachb_sound. auto.
  - destruct H as [H1 H2]. split; [exact H1|]. apply owned_in, memb_in. exact H2.
  - destruct H as [[H1 H2] H3]. split; [exact H1|]. split; [apply owned_in, memb_in; exact H2|apply reachb_sound; exact H3].
  - destruct H as [[H1 H2] H3]. split; [exact H1|]. split; apply reachb_sound; assumption.
  - intros K. apply idleb_iff in K. rewrite K in H. discriminate.
Qed.
Lemma run_reachable : forall es s ow s' ow', reachable s ow -> run_lawful s ow es = Some (s', ow') -> reachable s' ow'.
Proof.
  induction es as [|e es IH]; intros s ow s' ow' R E; cbn [run_lawful] in E; [congruence|].
  destruct (lawfulb s ow e) eqn:L; [|discriminate]. apply lawfulb_sound in L. destruct (mstep s e) as [s1| | |] eqn:Em; try discriminate.
  eapply IH; [|exact E]. eapply reachable_step; eassumption.
Qed.

Definition run (es : list revent) : mstate * owners := match run_lawful ms_init [] es with Some x => x | None => (ms_init, []) end.
Lemma run_is_reachable : forall es, reachable (fst (run es)) (snd (run es)).
Proof.
  intros es. unfold run. destruct (run_lawful ms_init [] es) as [[s ow]|] eqn:E; [|exact reachable_init].
  eapply run_reachable; [exact reachable_init|exact E].
Qed.

(** A keyring (0) in a multi-keyring (1) in a default CMM (2); thread 1 gets its own reference on the CMM; both threads release. *)
Definition two_threads : list revent :=
  [RNew 0 []; RNew 0 []; RAdd 0 1 0 true; RStep 0; RNew 0 [1]; RStep 0; RRelease 0 0; RStep 0; RRetain 0 2; RSend 0 1 2; RUse 1 [2; 1; 0];
   RRelease 0 1; RStep 0; RRelease 0 2; RRelease 1 2; RStep 1; RStep 0; RStep 0; RStep 0; RStep 0; RStep 0; RStep 0; RStep 0; RStep 0; RStep 0].
(** Thread 0 is about to give up the last reference on the CMM. *)
Definition midway : list revent := firstn 16 two_threads.

(** aws_cryptosdk_multi_keyring_add_child fails to append the child it has already retained. *)
Definition failed_add : list revent :=
  [RNew 0 []; RNew 0 []; RAdd 0 1 0 false; RStep 0; RRelease 0 0; RStep 0; RRelease 0 1; RStep 0; RStep 0; RStep 0].
(** A multi-keyring is added to itself. *)
Definition self_add : list revent := [RNew 0 []; RAdd 0 0 0 true; RStep 0; RRelease 0 0; RStep 0].

(** A session (2) takes over the creator's reference on its CMM (1). *)
Definition session_owns_cmm : list revent :=
  [RNew 0 []; RNew 0 [0]; RStep 0; RNew 0 []; RMove 0 2 1; RRelease 0 0; RStep 0; RUse 0 [2; 1; 0];
   RRelease 0 2; RStep 0; RStep 0; RStep 0; RStep 0; RStep 0; RStep 0; RStep 0; RStep 0; RStep 0].

Definition midway_state : mstate := Eval vm_compute in fst (run midway).
Definition end_state : mstate := Eval vm_compute in fst (run two_threads).
Definition session_end_state : mstate := Eval vm_compute in fst (run session_owns_cmm).
Lemma midway_reachable : reachable midway_state [].
Proof. apply (run_reachable midway ms_init []); [exact reachable_init|vm_compute; reflexivity]. Qed.
Lemma end_reachable : reachable end_state [].
Proof. apply (run_reachable two_threads ms_init []); [exact reachable_init|vm_compute; reflexivity]. Qed.
Lemma session_end_reachable : reachable session_end_state [].
Proof. apply (run_reachable session_owns_cmm ms_init []); [exact reachable_init|vm_compute; reflexivity]. Qed.
