(** From the logic to the statements of [MemSpec]. *)
From Coq Require Import List Bool PeanoNat Lia Permutation.
Import ListNotations.
From Verif Require Import MemModel MemLogic MemSpec MemProofs.

Definition site_eqb (a b : site) : bool :=
  match a, b with
  | SAlloc, SAlloc | SGrow, SGrow | STransfer, STransfer | SParse, SParse | SChild, SChild | SPem, SPem | SPart, SPart
  | SBigNum, SBigNum | SSecondMd, SSecondMd | SEdkHash, SEdkHash | SLock, SLock | SRaii, SRaii | SCall, SCall | SCond, SCond => true
  | _, _ => false
  end.

Definition allowed (l : list site) (s : site) : bool := negb (existsb (site_eqb s) l).
Definition all_places : place -> bool := fun _ => true.
Definition place_eqb (a b : place) : bool :=
  match a, b with
  | PAesKey, PAesKey | PRsaKey, PRsaKey | PKmsKey, PKmsKey | PLocalKey, PLocalKey | POther, POther => true
  | _, _ => false
  end.
Definition among (l : list place) (p : place) : bool := existsb (place_eqb p) l.

Lemma site_eqb_eq a b : site_eqb a b = true -> a = b.
Proof. destruct a, b; cbn; congruence. Qed.
Lemma place_eqb_eq a b : place_eqb a b = true -> a = b.
Proof. destruct a, b; cbn; congruence. Qed.
Lemma among_in l p : among l p = true -> In p l.
Proof. intro H. apply existsb_exists in H. destruct H as (x & I & E). apply place_eqb_eq in E. subst. exact I. Qed.

Lemma never_env w l : never w l -> forall n s, allowed l s = false -> w n s = false.
Proof.
  intros N n s H. apply negb_false_iff, existsb_exists in H. destruct H as (x & I & E). apply site_eqb_eq in E. subst x.
  unfold never in N. rewrite Forall_forall in N. exact (N s I n).
Qed.

Lemma wf_of m : well_formed m -> wf m.
Proof. intros [H1 H2]. split; [exact H1|]. apply Forall_forall. intros i Hi. apply in_map_iff in Hi. destruct Hi as (c & <- & I). auto. Qed.

Section Top.
Variable w : world.

Lemma start_at {A} l sp (c : M A) Q G : never w l -> triple (allowed l) sp [] c Q G ->
  exists m a, c (started w) = Some (m, a) /\ Permutation (m_live m) (Q a) /\ G a /\ Forall (fun p => sp p = true) (m_spilled m).
Proof.
  intros N H. destruct (tr_start _ _ c Q G w H (never_env w l N)) as (m & a & E & _ & L & HG & S). eauto 10.
Qed.

Lemma any_dir d : dir_ok (allowed session_sites) all_places d.
Proof. destruct d; cbn; auto. Qed.

Lemma any_ops ops : Forall (op_ok (allowed session_sites) all_places) ops.
Proof. apply Forall_forall. intros [| |e] _; cbn; auto. apply any_dir. Qed.

Lemma life_leaves_nothing r via enc ops : never w session_sites -> leaves_nothing (life r via enc ops) w.
Proof.
  intro N.
  destruct (start_at _ _ _ _ _ N (life_tr (allowed session_sites) all_places r via enc ops eq_refl eq_refl eq_refl eq_refl eq_refl
              (any_dir enc) (any_ops ops)))
    as (m & a & E & L & _).
  exists m, a. split; [exact E|]. apply Permutation_sym, Permutation_nil in L. exact L.
Qed.

Lemma caching_life_leaves_nothing r named : never w caching_sites -> leaves_nothing (caching_life r named) w.
Proof.
  intro N.
  destruct (start_at _ _ _ _ _ N (caching_life_tr (allowed caching_sites) all_places r named eq_refl eq_refl eq_refl))
    as (m & a & E & L & _).
  exists m, a. split; [exact E|]. apply Permutation_sym, Permutation_nil in L. exact L.
Qed.

Lemma triple_fails_clean {A} l (c : M (option A)) Q G : never w l -> triple (allowed l) all_places [] c Q G -> Q None = [] ->
  fails_clean c w.
Proof.
  intros N H E m W V.
  destruct (H m (m_live m) (wf_of m W)) as (m' & o & X & _ & _ & L & _).
  - rewrite V. exact (never_env w l N).
  - reflexivity.
  - exists m', o. split; [exact X|]. split.
    + intros b I. eapply Permutation_in; [symmetry; exact L|]. apply in_or_app. auto.
    + intros ->. rewrite L, E. reflexivity.
Qed.

Lemma nothing : never w [].
Proof. constructor. Qed.

Lemma constructors :
  fails_clean raw_aes_keyring_new w /\ fails_clean enc_materials_new w /\ fails_clean dec_materials_new w /\
  fails_clean sign_start_keygen w /\ fails_clean verify_start w /\ fails_clean hdr_init w /\
  (forall enc, fails_clean (session_new enc) w) /\
  (forall priv pub, never w [SPem] -> fails_clean (raw_rsa_keyring_new priv pub) w) /\
  (forall priv, fails_clean (raw_rsa_keyring_new priv false) w) /\
  fails_clean (multi_keyring_new None) w.
Proof.
  repeat split.
  - exact (triple_fails_clean [] _ _ _ nothing (raw_aes_keyring_new_tr _ _) eq_refl).
  - exact (triple_fails_clean [] _ _ _ nothing (enc_materials_new_tr _ _) eq_refl).
  - exact (triple_fails_clean [] _ _ _ nothing (dec_materials_new_tr _ _) eq_refl).
  - exact (triple_fails_clean [] _ _ _ nothing (sign_start_keygen_tr _ _) eq_refl).
  - exact (triple_fails_clean [] _ _ _ nothing (verify_start_tr _ _) eq_refl).
  - exact (triple_fails_clean [] _ _ _ nothing (hdr_init_tr _ _) eq_refl).
  - intro enc. exact (triple_fails_clean [] _ _ _ nothing (session_new_tr _ _ enc) eq_refl).
  - intros priv pub N. exact (triple_fails_clean _ _ _ _ N (raw_rsa_keyring_new_tr (allowed [SPem]) _ priv pub eq_refl) eq_refl).
  - intro priv. exact (triple_fails_clean [] _ _ _ nothing (raw_rsa_keyring_private_tr _ _ priv) eq_refl).
  - exact (triple_fails_clean [] _ _ _ nothing (multi_keyring_new_tr _ _ None 0) eq_refl).
Qed.

Lemma dir_among enc ops : dir_ok (allowed session_sites) (among (may_spill enc ops)) enc.
Proof.
  unfold may_spill, directs, dir_ok. destruct enc; cbn [Bool.eqb orb].
  - repeat split; reflexivity.
  - unfold among. rewrite existsb_app. apply orb_true_iff. right. reflexivity.
Qed.
Lemma op_among enc ops : Forall (op_ok (allowed session_sites) (among (may_spill enc ops))) ops.
Proof.
  apply Forall_forall. intros [|v1 n m t|e] I; cbn [op_ok]; auto.
  unfold may_spill, directs, dir_ok. destruct e.
  - assert (E : existsb (fun o => match o with OReset e => Bool.eqb e true | _ => false end) ops = true)
      by (apply existsb_exists; eexists; split; [exact I|reflexivity]).
    rewrite E, orb_true_r. repeat split; reflexivity.
  - assert (E : existsb (fun o => match o with OReset e => Bool.eqb e false | _ => false end) ops = true)
      by (apply existsb_exists; eexists; split; [exact I|reflexivity]).
    rewrite E, orb_true_r. unfold among. rewrite existsb_app. apply orb_true_iff. right. reflexivity.
Qed.

Lemma life_spills r via enc ops : never w session_sites ->
  exists m a, life r via enc ops (started w) = Some (m, a) /\ forall p, In p (m_spilled m) -> In p (may_spill enc ops).
Proof.
  intro N.
  destruct (start_at _ _ _ _ _ N (life_tr (allowed session_sites) (among (may_spill enc ops)) r via enc ops
              eq_refl eq_refl eq_refl eq_refl eq_refl (dir_among enc ops) (op_among enc ops)))
    as (m & a & E & _ & _ & S).
  exists m, a. split; [exact E|]. intros p I. rewrite Forall_forall in S. apply among_in, S, I.
Qed.

Lemma use_holds r via enc ops : never w session_sites ->
  exists m o, use r via enc ops (started w) = Some (m, o) /\
    (o = None -> m_live m = []) /\
    (o <> None -> secrets (m_live m) <= keys r + 1) /\
    (o <> None -> rested ops -> secrets (m_live m) = keys r).
Proof.
  intro N.
  destruct (start_at _ _ _ _ _ N (use_tr (allowed session_sites) all_places r via enc ops eq_refl eq_refl eq_refl eq_refl eq_refl
              (any_dir enc) (any_ops ops)))
    as (m & o & E & L & H & _).
  exists m, o. split; [exact E|]. rewrite (secrets_perm _ _ L). destruct o as [s|]; cbn [owfp].
  - destruct (H _ eq_refl) as [H1 H2]. split; [discriminate|]. auto.
  - split; [|split; congruence]. intros _. apply Permutation_sym, Permutation_nil in L. exact L.
Qed.
End Top.

(** *** Witnesses *)

Definition round : mop := ORound true 1 1 0.
Definition at_times (s : site) (l : list nat) : nat -> site -> bool := fun n s' => site_eqb s s' && existsb (Nat.eqb n) l.
Definition always (s : site) : world := fun _ s' => site_eqb s s'.

Lemma only_always s : only s (always s).
Proof. intros n s' H _. unfold always. destruct (site_eqb s s') eqn:E; [|reflexivity]. apply site_eqb_eq in E. congruence. Qed.
Lemma only_at s l l' : only s (fun n s' => at_times s l n s' || at_times SCond l' n s').
Proof.
  intros n s' H H'. unfold at_times. destruct (site_eqb s s') eqn:E; [apply site_eqb_eq in E; congruence|].
  destruct (site_eqb SCond s') eqn:E'; [apply site_eqb_eq in E'; congruence|]. reflexivity.
Qed.

Lemma transfer_double_free :
  exists r via enc ops w, only STransfer w /\ life r via enc ops (started w) = None.
Proof.
  exists (RMulti (Some RAes) [RAes; RAes; RAes; RAes]), false, true, [round; round], (always STransfer).
  split; [apply only_always|]. vm_compute. reflexivity.
Qed.
Ltac leak := eexists; eexists; split; [vm_compute; reflexivity|discriminate].
Lemma raii_undefined :
  exists r via enc ops w, only SRaii w /\ life r via enc ops (started w) = None.
Proof.
  exists (RKms false 2), false, true, [round; round], (always SRaii).
  split; [apply only_always|]. vm_compute. reflexivity.
Qed.
Lemma parse_leak : exists r via enc ops w, only SParse w /\ leaks (life r via enc ops) w.
Proof.
  exists RAes, false, false, [round; ORound true 5 0 0], (always SParse). split; [apply only_always|]. leak.
Qed.
Lemma pem_leak : exists r via enc ops w, only SPem w /\ leaks (life r via enc ops) w.
Proof. exists (RRsa true true), false, false, [], (always SPem). split; [apply only_always|]. leak. Qed.
Lemma child_leak : exists r via enc ops w, only SChild w /\ leaks (life r via enc ops) w.
Proof.
  exists (RMulti None [RAes; RAes; RAes; RAes; RAes]), false, false, [], (always SChild). split; [apply only_always|]. leak.
Qed.
Lemma bignum_leak : exists r via enc ops w, only SBigNum w /\ leaks (life r via enc ops) w.
Proof.
  exists RAes, false, true, [round; round; round; round; ORound true 1 1 1],
    (fun n s => at_times SBigNum [90] n s || at_times SCond [17; 82] n s).
  split; [apply only_at|]. leak.
Qed.
Lemma partition_leak : exists r named w, only SPart w /\ leaks (caching_life r named) w.
Proof. exists RAes, false, (always SPart). split; [apply only_always|]. leak. Qed.

Ltac spilled := eexists; eexists; split; [|split; [vm_compute; reflexivity|cbn; auto]]; repeat constructor.
Lemma aes_spills : spills PAesKey.
Proof. exists RAes, false, true, [round; round], (at_times SCall [32]). spilled. Qed.
Lemma rsa_spills : spills PRsaKey.
Proof. exists (RRsa true true), false, true, [round; round], (at_times SCall [24]). spilled. Qed.
Lemma kms_spills : spills PKmsKey.
Proof. exists (RKms false 2), false, true, [round; round], (at_times SCall [27]). spilled. Qed.
Lemma local_spills : spills PLocalKey.
Proof. exists RAes, false, false, [round; round], (always SGrow). spilled. Qed.
