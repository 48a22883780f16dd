(** From the logic to the statements of [LocalMemSpec]. *)
From Coq Require Import List Bool PeanoNat Lia Permutation.
Import ListNotations.
From Verif Require Import MemModel MemLogic MemSpec MemProofs MemTop LocalMemModel LocalMemLogic LocalMemProofs LocalMemSpec.

Lemma ops_spill ops : Forall (op_spills (among (local_spill ops))) ops.
Proof.
  apply Forall_forall. intros o I. destruct o; cbn [op_spills]; auto. unfold local_spill.
  assert (E : existsb (fun o => match o with LGenerate _ _ _ => true | _ => false end) ops = true)
    by (apply existsb_exists; eexists; split; [exact I|reflexivity]).
  rewrite E. repeat split; reflexivity.
Qed.
Lemma ops_any ops : Forall (op_spills all_places) ops.
Proof. apply Forall_forall. intros [] _; cbn; auto. Qed.

Section Top.
Variable w : world.
Hypothesis N : never w local_sites.

Lemma local_life_clean r capacity named cmm_first ops :
  exists m a, local_life r capacity named cmm_first ops (started w) = Some (m, a) /\ m_live m = [] /\
              forall p, In p (m_spilled m) -> In p (local_spill ops).
Proof.
  destruct (start_at w _ _ _ _ _ N (local_life_tr (allowed local_sites) (among (local_spill ops)) r capacity named cmm_first ops
              eq_refl eq_refl eq_refl eq_refl eq_refl eq_refl eq_refl eq_refl (ops_spill ops)))
    as (m & a & E & L & _ & S).
  exists m, a. split; [exact E|]. split; [apply Permutation_sym, Permutation_nil in L; exact L|].
  intros p I. rewrite Forall_forall in S. apply among_in, S, I.
Qed.
Lemma local_life_leaves_nothing r capacity named cmm_first ops : leaves_nothing (local_life r capacity named cmm_first ops) w.
Proof. destruct (local_life_clean r capacity named cmm_first ops) as (m & a & E & L & _). exists m, a. auto. Qed.
Lemma local_life_spills r capacity named cmm_first ops :
  exists m a, local_life r capacity named cmm_first ops (started w) = Some (m, a) /\
              forall p, In p (m_spilled m) -> In p (local_spill ops).
Proof. destruct (local_life_clean r capacity named cmm_first ops) as (m & a & E & _ & S). exists m, a. auto. Qed.

Lemma local_use_holds r capacity named ops :
  exists m o, local_use r capacity named ops (started w) = Some (m, o) /\
    (o = None -> m_live m = []) /\
    forall c, o = Some c ->
      keys r <= secrets (m_live m) /\
      secrets (m_live m) <= keys r + length (z_encs c) + length (z_decs c) + 2 * length (v_all (z_cache c)) /\
      (cleared ops -> secrets (m_live m) <= keys r + length (z_encs c) + length (z_decs c) + 2 * length (z_hands c)) /\
      (cleared ops -> idle c -> secrets (m_live m) = keys r).
Proof.
  destruct (start_at w _ _ _ _ _ N (local_use_tr (allowed local_sites) all_places r capacity named ops
              eq_refl eq_refl eq_refl eq_refl eq_refl eq_refl eq_refl eq_refl (ops_any ops)))
    as (m & o & E & L & H & _).
  exists m, o. split; [exact E|]. split; [intros ->; apply Permutation_sym, Permutation_nil in L; exact L|].
  intros c ->. rewrite (secrets_perm _ _ L). destruct (H _ eq_refl) as [K EK]. pose proof (secrets_zfp c K) as [B1 B2]. rewrite EK in *.
  assert (X : cleared ops -> length (v_all (z_cache c)) <= length (z_hands c)).
  { intros [before ->].
    destruct (start_at w _ _ _ _ _ N (local_clear_tr (allowed local_sites) all_places r capacity named before
                eq_refl eq_refl eq_refl eq_refl eq_refl eq_refl eq_refl eq_refl (ops_any before)))
      as (m' & o' & E' & _ & H' & _).
    rewrite E in E'. injection E' as <- <-. destruct (H' _ eq_refl) as [_ HH]. apply entries_held; assumption. }
  split; [exact B1|]. split; [exact B2|]. split.
  - intro C. specialize (X C). lia.
  - intros C (H1 & H2 & H3). specialize (X C). rewrite H1, H2, H3 in *. cbn [length] in *. lia.
Qed.
End Top.

(** *** Witnesses *)

Lemma second_md_leak : exists r cap named first ops w, only SSecondMd w /\ leaks (local_life r cap named first ops) w.
Proof. exists RAes, 2, false, true, [LGenerate 0 0 0], (always SSecondMd). split; [apply only_always|]. leak. Qed.
Lemma edk_hash_double_free :
  exists r cap named first ops w, only SEdkHash w /\ local_life r cap named first ops (started w) = None.
Proof. exists RAes, 2, false, true, [LDecrypt 0 1 0 0], (always SEdkHash). split; [apply only_always|]. vm_compute. reflexivity. Qed.
Lemma only_once s n : only s (at_times s [n]).
Proof.
  intros k s' H _. unfold at_times. destruct (site_eqb s s') eqn:E; [apply site_eqb_eq in E; congruence|reflexivity].
Qed.
Lemma lock_leak : exists r cap named first ops w, only SLock w /\ leaks (local_life r cap named first ops) w.
Proof.
  exists RAes, 2, false, true, [LDecrypt 0 1 9 9; LFind 0; LRelease 0 true; LClear], (at_times SLock [90]).
  split; [apply only_once|]. leak.
Qed.
Lemma clear_does_nothing :
  exists r cap named ops w m c,
    only SLock w /\ local_use r cap named ops (started w) = Some (m, Some c) /\
    cleared ops /\ idle c /\ keys r < secrets (m_live m).
Proof.
  exists RAes, 2, false, [LDecrypt 0 1 9 9; LDropDec 0; LClear], (always SLock). eexists. eexists.
  split; [apply only_always|]. split; [vm_compute; reflexivity|]. split; [exists [LDecrypt 0 1 9 9; LDropDec 0]; reflexivity|].
  split; [repeat split|]. vm_compute. repeat constructor.
Qed.
