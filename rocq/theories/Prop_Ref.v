(** C55: reference counting of CMMs, keyrings and materials caches. *)
From Verif Require Import Base RefModel RefSpec RefProofs RefExamples.
From Coq Require Import Arith Lia.
Import List.
Open Scope list_scope.
Open Scope nat_scope.

(** Whatever owners do lawfully, in whatever interleaving, no object is accessed after its memory was released.  The only other way
    to stop is the assertion on 2^64-1 references. *)
Theorem C55_never_used_after_destruction : forall s ow e, reachable s ow -> lawful s ow e ->
  (exists s', mstep s e = RNext s') \/ (mstep s e = RAssert /\ exists o, N.of_nat (refs s ow o) = UINT64_MAX).
Proof. exact never_used_after. Qed.
Print Assumptions C55_never_used_after_destruction.

(** The counter is the number of references, wherever they are. *)
Theorem C55_count_is_number_of_references : forall s ow o ob, reachable s ow -> nth_error (ms_heap s) o = Some ob ->
  ob_count ob = N.of_nat (refs s ow o).
Proof. exact count_is_references. Qed.
Print Assumptions C55_count_is_number_of_references.

(** At every moment, the destructor was or is about to be called iff no reference is left; it is called at most once; while there is
    a reference the memory is there. *)
Theorem C55_destroyed_iff_no_reference : forall s ow o, reachable s ow -> created s o ->
  (doomed s o <-> refs s ow o = 0) /\ count_occ Nat.eq_dec (ms_log s) o <= 1 /\ (0 < refs s ow o -> alive s o).
Proof. exact destroyed_iff_last. Qed.
Print Assumptions C55_destroyed_iff_no_reference.

(** The step that dooms an object is exactly the decrement that gives up its last reference. *)
Theorem C55_destroyed_by_last_release : forall s ow t s' o, reachable s ow -> lawful s ow (RStep t) -> mstep s (RStep t) = RNext s' -> created s o ->
  (~ doomed s o /\ doomed s' o <->
   (exists l1 l2, ms_todo s = l1 ++ (t, ADown o) :: l2 /\ forall a, ~ In (t, a) l1) /\ refs s ow o = 1).
Proof. exact last_release. Qed.
Print Assumptions C55_destroyed_by_last_release.

(** When every call has returned, the memory is there iff there is a reference; otherwise the destructor was called exactly once. *)
Theorem C55_quiescent : forall s ow o, reachable s ow -> created s o -> ms_todo s = [] ->
  (alive s o <-> 0 < refs s ow o) /\ (0 < refs s ow o -> ~ In o (ms_log s)) /\
  (refs s ow o = 0 -> count_occ Nat.eq_dec (ms_log s) o = 1).
Proof. exact quiescent. Qed.
Print Assumptions C55_quiescent.

(** When the owners have released everything, every object is gone, if objects refer to older ones only and no append failed. *)
Theorem C55_no_leak : forall s, reachable s [] -> ms_todo s = [] -> ms_leaked s = [] -> refers_to_older s ->
  forall o, created s o -> ~ alive s o /\ count_occ Nat.eq_dec (ms_log s) o = 1.
Proof. exact no_leak. Qed.
Print Assumptions C55_no_leak.

(** Every call ends: pending work cannot go on for ever, and never gets stuck. *)
Theorem C55_release_terminates : forall s ow, reachable s ow ->
  (exists bound, forall ts s', steps s ts s' -> length ts <= bound) /\
  (forall ts s' t, steps s ts s' -> ~ idle s' t -> (exists s2, mstep s' (RStep t) = RNext s2) \/
     (mstep s' (RStep t) = RAssert /\ exists o, N.of_nat (refs s' ow o) = UINT64_MAX)).
Proof. exact steps_end. Qed.
Print Assumptions C55_release_terminates.

(** A failed aws_cryptosdk_multi_keyring_add_child leaves the child with a reference nobody can release: it is never destroyed. *)
Theorem C55_failed_add_leaks_refuted : exists s o, reachable s [] /\ ms_todo s = [] /\ refers_to_older s /\ created s o /\ alive s o.
Proof.
  exists (fst (run failed_add)), 0. split; [exact (run_is_reachable failed_add)|]. split; [reflexivity|]. split.
  - intros [|[|p]] ob k; cbn; intros E K; [injection E as <-; contradiction|injection E as <-; contradiction|destruct p; discriminate].
  - split; [cbn; unfold created; cbn; lia|]. eexists. split; [reflexivity|reflexivity].
Qed.
Print Assumptions C55_failed_add_leaks_refuted.

(** A multi-keyring may be added to itself; it is then never destroyed. *)
Theorem C55_no_leak_with_cycles_refuted : exists s o, reachable s [] /\ ms_todo s = [] /\ ms_leaked s = [] /\ created s o /\ alive s o.
Proof.
  exists (fst (run self_add)), 0. split; [exact (run_is_reachable self_add)|]. split; [reflexivity|]. split; [reflexivity|].
  split; [unfold created; cbn; lia|]. eexists. split; [reflexivity|reflexivity].
Qed.
Print Assumptions C55_no_leak_with_cycles_refuted.

(** Two threads give up a default CMM, its multi-keyring and its keyring. *)
Example C55_example_midway : let s := midway_state in
  reachable s [] /\ lawful s [] (RStep 0) /\ created s 2 /\ refs s [] 2 = 1 /\ ~ doomed s 2 /\
  exists s', mstep s (RStep 0) = RNext s' /\ doomed s' 2 /\ ~ doomed s' 1 /\ alive s' 0.
Proof.
  cbv zeta. split; [exact midway_reachable|]. split; [intros H; apply (H (ADown 2)); left; reflexivity|].
  split; [unfold created; cbn; lia|]. split; [reflexivity|]. split.
  - intros [[]|(t & [H|[]])]; discriminate.
  - eexists. split; [reflexivity|]. split; [right; exists 0; left; reflexivity|]. split.
    + intros [[]|(t & [H|[]])]; discriminate.
    + eexists. split; reflexivity.
Qed.
Example C55_example_end : let s := end_state in
  reachable s [] /\ ms_todo s = [] /\ ms_leaked s = [] /\ ms_log s = [2; 1; 0] /\ refers_to_older s /\ created s 2 /\ refs s [] 2 = 0.
Proof.
  cbv zeta. split; [exact end_reachable|]. repeat (split; [reflexivity|]).
  split; [|split; [unfold created; cbn; lia|reflexivity]].
  intros [|[|[|p]]] ob k; cbn; intros E K; try (injection E as <-; contradiction). destruct p; discriminate.
Qed.
Example C55_example_session : let s := session_end_state in
  reachable s [] /\ ms_todo s = [] /\ ms_log s = [2; 1; 0] /\ map ob_alive (ms_heap s) = [false; false; false].
Proof. cbv zeta. split; [exact session_end_reachable|]. repeat split. Qed.
