(** C69: what the builders of MRK-aware multi-keyrings leave behind. *)
From Verif Require Import Base KmsModel RefModel RefSpec RefProofs BuildModel BuildSpec BuildProofs KmsExamples.
From Coq Require Import Arith Lia Permutation.
Import List.
Open Scope list_scope.
Open Scope nat_scope.

(** A builder that returns NULL has destroyed every keyring it had made, wherever it failed, and owns no reference. *)
Theorem C69_failed_build_leaves_nothing : forall s ow b es n, ms_todo s = [] -> builder_call b (length (ms_heap s)) es None n ->
  exists s', runs s ow es s' ow /\ ms_todo s' = [] /\ ms_leaked s' = ms_leaked s /\ untouched s s' /\ (forall o, new_object s s' o -> ~ alive s' o).
Proof. exact C69_fail_lemma. Qed.
Print Assumptions C69_failed_build_leaves_nothing.

(** A keyring that is returned holds one keyring for each identifier (or region), all made by this call. *)
Theorem C69_returned_keyring : forall s ow b es m n, ms_todo s = [] -> builder_call b (length (ms_heap s)) es (Some m) n ->
  exists s' ow' parts, runs s ow es s' ow' /\ ms_todo s' = [] /\ ms_leaked s' = ms_leaked s /\ untouched s s' /\
    nth_error (ms_heap s') m = Some (mk_obj 1 true parts) /\ length parts = n /\ (forall o, new_object s s' o <-> In o (m :: parts)) /\
    NoDup (m :: parts) /\ In (b, m) ow'.
Proof. exact C69_made_lemma. Qed.
Print Assumptions C69_returned_keyring.

(** The builder gives back none of its references on these keyrings: when the caller, who knows only the multi-keyring, has released
    it, all of them are still there, each with the one reference of the call that has returned. *)
Theorem C69_parts_outlive_keyring : forall s ow b t es m n, ms_todo s = [] -> builder_call b (length (ms_heap s)) es (Some m) n ->
  exists s' ow' parts steps, runs s ow (es ++ [RSend b t m] ++ release_ev t m steps) s' ow' /\ ms_todo s' = [] /\
    Permutation ow' (map (pair b) parts ++ ow) /\ length parts = n /\ NoDup parts /\ ~ alive s' m /\
    (forall o, In o parts -> new_object s s' o /\ nth_error (ms_heap s') o = Some (mk_obj 1 true [])).
Proof. exact C69_outlive_lemma. Qed.
Print Assumptions C69_parts_outlive_keyring.

(** So "once the keyring is released, everything made for it is destroyed" is false. *)
Theorem C69_success_leaks_refuted : exists es m s' ow' steps o, builder_call 1 0 es (Some m) 2 /\
  runs ms_init [] (es ++ [RSend 1 0 m] ++ release_ev 0 m steps) s' ow' /\ ms_todo s' = [] /\ (forall x, ~ In (0, x) ow') /\
  new_object ms_init s' o /\ alive s' o.
Proof.
  destruct (mrk_multi_ev (fun _ _ => true) [] true (Some mrk_us) [arn_a] 1 0) as [es r] eqn:E.
  assert (R : r = Some 1) by (vm_compute in E; congruence). subst r.
  pose proof (call_multi 1 0 (fun _ _ => true) [] true (Some mrk_us) [arn_a] es (Some 1) E) as C. cbn in C.
  destruct (C69_outlive_lemma ms_init [] 1 0 es 1 2 eq_refl C) as (s' & ow' & parts & st & RU & T & P & PL & ND & D & K).
  destruct parts as [|o parts]; [discriminate|]. exists es, 1, s', ow', st, o. split; [exact C|]. split; [exact RU|]. split; [exact T|].
  destruct (K o (or_introl eq_refl)) as [K1 K2]. split; [|split; [exact K1|eexists; split; [exact K2|reflexivity]]].
  intros x I. apply (Permutation_in _ P) in I. rewrite app_nil_r in I. apply in_map_iff in I. destruct I as (y & X & _). discriminate.
Qed.
Print Assumptions C69_success_leaks_refuted.

(** A keyring is returned iff the inputs are acceptable (see C50 for what that means). *)
Theorem C69_multi_iff : forall client grants gen ids b base,
  snd (mrk_multi_ev client grants true gen ids b base) <> None <-> mrk_multi_build client grants gen ids <> None.
Proof. exact multi_some_lemma. Qed.
Print Assumptions C69_multi_iff.
Theorem C69_discovery_iff : forall client grants f regions b base,
  snd (mrk_discovery_ev client grants f true regions b base) <> None <-> mrk_multi_discovery client grants f regions <> None.
Proof. exact discovery_some_lemma. Qed.
Print Assumptions C69_discovery_iff.

(** The discovery builder succeeds iff there is a region, no region is empty and there is a client for each; it makes one discovery
    keyring per region, limited to that region, with the caller's filter and grant tokens. *)
Theorem C69_discovery_keyrings : forall client grants f regions ks, mrk_multi_discovery client grants f regions = Some ks <->
  regions <> [] /\ ~ In [] regions /\ (forall i r, nth_error regions i = Some r -> client i r = true) /\
  ks = map (fun r => mk_mrk [] r f grants) regions.
Proof. exact discovery_lemma. Qed.
Print Assumptions C69_discovery_keyrings.

(** The second child has no client: generator, first child and multi-keyring are made and destroyed. *)
Example C69_example_failure : exists es, builder_call 7 0 es None 3 /\ length es = 20.
Proof.
  exists (fst (mrk_multi_ev (fun i _ => Nat.ltb i 2) [] true (Some mrk_us) [arn_a; arn_b] 7 0)). split; [|vm_compute; reflexivity].
  apply (call_multi 7 0 (fun i _ => Nat.ltb i 2) [] true (Some mrk_us) [arn_a; arn_b]). vm_compute. reflexivity.
Qed.
(** A discovery multi-keyring for two regions. *)
Example C69_example_discovery : exists es, builder_call 7 0 es (Some 0) 2 /\
  mrk_multi_discovery (fun _ _ => true) [] None [[1%N]; [2%N]] = Some [mk_mrk [] [1%N] None []; mk_mrk [] [2%N] None []].
Proof.
  exists (fst (mrk_discovery_ev (fun _ _ => true) [] None true [[1%N]; [2%N]] 7 0)). split; [|reflexivity].
  apply (call_discovery 7 0 (fun _ _ => true) [] None true [[1%N]; [2%N]]). vm_compute. reflexivity.
Qed.
