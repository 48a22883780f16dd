(** Configuration of the caching CMM (C72): proofs. *)
From Verif Require Import Base BaseProofs AlgModel EncCtxModel HdrModel CryptoModel SessionModel KeyringModel
  WireSpec CacheModel CacheSpec CachingModel CachingSpec CacheHitSpec CachingUsage.
From Coq Require Import ZArith Lia ZifyBool ZifyNat ZifyN.
Import List ListNotations.
Open Scope list_scope. Open Scope N_scope.

Lemma convert_zero : forall ttl unit, convert_ttl ttl unit = 0 <-> ttl = 0 \/ ~ time_unit unit.
Proof.
  intros ttl unit. unfold convert_ttl, time_unit.
  destruct (N.eqb_spec ttl 0), (N.eqb_spec unit 1), (N.eqb_spec unit 1000), (N.eqb_spec unit 1000000),
    (N.eqb_spec unit 1000000000); cbn [orb negb]; try (subst; tauto); try lia; subst unit;
    match goal with |- context [1000000000 / ?u] => let v := eval vm_compute in (1000000000 / u) in change (1000000000 / u) with v end;
    split; unfold UINT64_MAX; lia.
Qed.

Lemma convert_lasts : forall ttl unit, ttl <> 0 -> time_unit unit -> lasts (convert_ttl ttl unit) ttl unit.
Proof.
  intros ttl unit T U. unfold convert_ttl, lasts. destruct (N.eqb_spec ttl 0); [contradiction|].
  destruct U as [U|[U|[U|U]]]; subst unit; match goal with |- context [negb ?b] => change (negb b) with false end; cbn [orb];
    match goal with |- context [1000000000 / ?u] => let v := eval vm_compute in (1000000000 / u) in change (1000000000 / u) with v end;
    change UINT64_MAX with 18446744073709551615; lia.
Qed.

Definition conf_bounds (m : caching) : Prop :=
  1 <= cm_limit_msgs m <= 2 ^ 32 /\ cm_limit_bytes m <= 2 ^ 63 - 1 /\ 1 <= cm_ttl m <= 2 ^ 64 - 1.

Lemma convert_max : forall ttl unit, convert_ttl ttl unit <= 2 ^ 64 - 1.
Proof. intros. unfold convert_ttl. destruct ((ttl =? 0) || _); [lia|]. change (2 ^ 64 - 1) with UINT64_MAX. lia. Qed.

Lemma configured_bounds : forall m, configured m -> conf_bounds m.
Proof.
  intros m C. induction C as [part ttl unit m E|m n m' C IH E|m n m' C IH E|m ttl unit m' C IH E]; unfold conf_bounds in *.
  - unfold caching_new in E. cbv zeta in E. destruct (N.eqb_spec (convert_ttl ttl unit) 0); [discriminate|].
    pose proof (convert_max ttl unit). assert (m = mk_caching part MAX_LIMIT_MESSAGES INT64_MAX (convert_ttl ttl unit)) by congruence.
    subst m. cbn [cm_limit_msgs cm_limit_bytes cm_ttl]. unfold MAX_LIMIT_MESSAGES, INT64_MAX. lia.
  - unfold set_limit_bytes in E. destruct (N.ltb_spec INT64_MAX n); [discriminate|].
    assert (m' = mk_caching (cm_partition m) (cm_limit_msgs m) n (cm_ttl m)) by congruence. subst m'.
    cbn [cm_limit_msgs cm_limit_bytes cm_ttl]. unfold INT64_MAX in *. lia.
  - unfold set_limit_messages in E. destruct (N.eqb_spec n 0), (N.ltb_spec MAX_LIMIT_MESSAGES n); try discriminate.
    cbn [orb] in E. assert (m' = mk_caching (cm_partition m) n (cm_limit_bytes m) (cm_ttl m)) by congruence. subst m'.
    cbn [cm_limit_msgs cm_limit_bytes cm_ttl]. unfold MAX_LIMIT_MESSAGES in *. lia.
  - unfold set_ttl in E. cbv zeta in E. destruct (N.eqb_spec (convert_ttl ttl unit) 0); [discriminate|].
    pose proof (convert_max ttl unit).
    assert (m' = mk_caching (cm_partition m) (cm_limit_msgs m) (cm_limit_bytes m) (convert_ttl ttl unit)) by congruence.
    subst m'. cbn [cm_limit_msgs cm_limit_bytes cm_ttl]. lia.
Qed.

Lemma configured_types : forall m, configured m -> c_types m.
Proof.
  intros m C. apply configured_bounds in C. destruct C as (A & B & D). unfold c_types. change two64 with (2 ^ 64).
  split; [|split].
  - apply N.le_lt_trans with (2 ^ 64 - 1); [apply D|]. vm_compute. reflexivity.
  - apply N.le_lt_trans with (2 ^ 63 - 1); [exact B|]. vm_compute. reflexivity.
  - apply N.le_lt_trans with (2 ^ 32); [apply A|]. vm_compute. reflexivity.
Qed.

Lemma set_bytes_spec : forall n m,
  match set_limit_bytes n m with
  | Ok m' => n <= 2 ^ 63 - 1 /\ cm_limit_bytes m' = n /\ cm_limit_msgs m' = cm_limit_msgs m /\ cm_ttl m' = cm_ttl m
             /\ cm_partition m' = cm_partition m
  | Err e => e = E_INVALID_ARGUMENT /\ 2 ^ 63 - 1 < n
  end.
Proof. intros. unfold set_limit_bytes. change INT64_MAX with (2 ^ 63 - 1). destruct (N.ltb_spec (2 ^ 63 - 1) n); cbn; auto. Qed.

Lemma set_msgs_spec : forall n m,
  match set_limit_messages n m with
  | Ok m' => 1 <= n <= 2 ^ 32 /\ cm_limit_msgs m' = n /\ cm_limit_bytes m' = cm_limit_bytes m /\ cm_ttl m' = cm_ttl m
             /\ cm_partition m' = cm_partition m
  | Err e => e = E_INVALID_ARGUMENT /\ (n = 0 \/ 2 ^ 32 < n)
  end.
Proof.
  intros. unfold set_limit_messages. change MAX_LIMIT_MESSAGES with (2 ^ 32).
  destruct (N.eqb_spec n 0), (N.ltb_spec (2 ^ 32) n); cbn [orb]; auto.
  cbn [cm_limit_msgs cm_limit_bytes cm_ttl cm_partition]. split; [|auto]. split; [|auto]. clear - n0. lia.
Qed.

Lemma set_ttl_spec : forall ttl unit m,
  match set_ttl ttl unit m with
  | Ok m' => ttl <> 0 /\ time_unit unit /\ lasts (cm_ttl m') ttl unit /\ cm_limit_bytes m' = cm_limit_bytes m
             /\ cm_limit_msgs m' = cm_limit_msgs m /\ cm_partition m' = cm_partition m
  | Err e => e = E_INVALID_ARGUMENT /\ (ttl = 0 \/ ~ time_unit unit)
  end.
Proof.
  intros. unfold set_ttl. cbv zeta. destruct (N.eqb_spec (convert_ttl ttl unit) 0) as [Z|Z].
  - split; [auto|]. now apply convert_zero.
  - assert (T : ttl <> 0 /\ time_unit unit).
    { split; [intros ->; apply Z, convert_zero; auto|]. unfold time_unit.
      destruct (N.eq_dec unit 1), (N.eq_dec unit 1000), (N.eq_dec unit 1000000), (N.eq_dec unit 1000000000); auto.
      exfalso. apply Z, convert_zero. right. unfold time_unit. tauto. }
    destruct T as (T & U). cbn [cm_limit_msgs cm_limit_bytes cm_ttl cm_partition]. auto 10 using convert_lasts.
Qed.

Lemma new_spec : forall part ttl unit,
  match caching_new part ttl unit with
  | Ok m => ttl <> 0 /\ time_unit unit /\ lasts (cm_ttl m) ttl unit /\ cm_limit_bytes m = 2 ^ 63 - 1
            /\ cm_limit_msgs m = 2 ^ 32 /\ cm_partition m = part
  | Err e => e = E_INVALID_ARGUMENT /\ (ttl = 0 \/ ~ time_unit unit)
  end.
Proof.
  intros. pose proof (set_ttl_spec ttl unit (mk_caching part MAX_LIMIT_MESSAGES INT64_MAX 0)) as S.
  unfold set_ttl, caching_new in *. cbv zeta in *. destruct (convert_ttl ttl unit =? 0); [exact S|].
  cbn [cm_limit_msgs cm_limit_bytes cm_ttl cm_partition] in *. exact S.
Qed.

Lemma configured_sequential : forall io sha cap jobs h c,
  exec io sha locks cap jobs h c -> overlap_at_most 1 sha jobs h -> all_configured jobs ->
  forall p j0 mat b n ctx id ch, In (mk_ev j0 (XCache (KPutEnc mat b n ctx id)) (RPut (Some p)) ch) h ->
  forall l, l <> [] -> NoDup l -> (forall j, In j l -> served h j p) ->
  (exists j m rq, In j l /\ jobs j = GenJob m rq /\ b + total_size jobs l <= cm_limit_bytes m)
  /\ (exists j m rq, In j l /\ jobs j = GenJob m rq /\ n + Nlen l <= cm_limit_msgs m).
Proof.
  intros io sha cap jobs h c E OV CF.
  apply (usage_limits io sha cap jobs h c 1 (2 ^ 63 - 1) (2 ^ 32) E OV).
  - intros j m rq J. assert (C : configured m) by (apply (CF j); now rewrite J).
    apply configured_bounds in C. destruct C as (A & B & _). split; [exact B|apply A].
  - vm_compute. reflexivity.
  - vm_compute. discriminate.
  - vm_compute. reflexivity.
Qed.
