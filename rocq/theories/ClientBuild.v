(** What the builders of ClientModel make. *)
From Verif Require Import Base KeyringModel KmsModel BuildModel ClientModel ClientSpec.
From Coq Require Import Arith Lia.
Import List.
Open Scope list_scope.

Definition gives (s : supplier) : Prop := obliging (Some s).

Lemma get_yields : forall A (Q : A -> Prop) s r k,
  (forall c f, yields Q (k (Some c) f)) -> (~ gives s -> forall f, yields Q (k None f)) -> yields Q (get_client s r k).
Proof.
  intros A Q s r k H K. destruct s as [[c|]|n|n]; cbn.
  - apply H.
  - apply K. intros X; exact X.
  - intros [c|]; [apply H|]. intro c. apply H.
  - intros [c|] f; [apply H|]. apply K. intros X; exact X.
Qed.
Lemma default_yields : forall A (Q : A -> Prop) sup fin, (forall s, (obliging sup -> gives s) -> yields Q (fin s)) -> yields Q (or_default sup fin).
Proof. intros A Q [s|] fin H; cbn; [apply H; auto|]. intro n. apply H. intros _. exact I. Qed.
Lemma supplier_yields : forall A (Q : A -> Prop) ids c sup fin, (forall s, yields Q (fin s)) -> yields Q (build_supplier ids c sup fin).
Proof.
  intros A Q ids [c|] sup fin H; cbn [build_supplier]; [apply H|]. destruct ids as [|id [|id2 ids]].
  - destruct sup; cbn; auto.
  - destruct sup as [s|]; cbn; [|auto]. destruct s as [c|n|n]; cbn; auto.
    + intros [c|]; cbn; auto.
    + intros c f. destruct f; cbn; auto.
  - destruct sup; cbn; auto.
Qed.

Definition first_client (i : nat) (b : bool) (cl : nat -> list N -> bool) : nat -> list N -> bool := fun j r => if Nat.eqb j i then b else cl j r.
Lemma first_here i b cl r : first_client i b cl i r = b. Proof. unfold first_client. rewrite Nat.eqb_refl. reflexivity. Qed.
Lemma first_after i b cl j r : (i < j)%nat -> first_client i b cl j r = cl j r.
Proof. intro H. unfold first_client. rewrite (proj2 (Nat.eqb_neq j i)) by lia. reflexivity. Qed.
Lemma first_true (s : supplier) i cl : (gives s -> forall j r, cl j r = true) -> gives s -> forall j r, first_client i true cl j r = true.
Proof. intros H G j r. unfold first_client. destruct (Nat.eqb j i); auto. Qed.

Lemma children_agree cl cl' grants ids : forall i, (forall j r, (i <= j)%nat -> cl j r = cl' j r) -> mrk_children cl grants i ids = mrk_children cl' grants i ids.
Proof. induction ids as [|id ids IH]; intros i H; cbn [mrk_children]; [reflexivity|]. cbv zeta. rewrite (H i _ (le_n i)), (IH (S i)) by (intros; apply H; lia). reflexivity. Qed.
Lemma regions_agree cl cl' grants f ids : forall i, (forall j r, (i <= j)%nat -> cl j r = cl' j r) -> discovery_children cl grants f i ids = discovery_children cl' grants f i ids.
Proof. induction ids as [|id ids IH]; intros i H; cbn [discovery_children]; [reflexivity|]. cbv zeta. rewrite (H i _ (le_n i)), (IH (S i)) by (intros; apply H; lia). reflexivity. Qed.

Definition with_clients (l : list kms_kr) : Prop := Forall (fun kr => exists c, supplier_of kr = SSingle (Some c)) l.
(** [o] is [done] followed by keyrings for [ks]. *)
Definition made_as (done : list kms_kr) (ks : option (list mrk)) (o : option (list kms_kr)) : Prop :=
  match o, ks with
  | None, None => True
  | Some l, Some ks => with_clients l /\ map key_of l = map key_of done ++ map inr ks
  | _, _ => False
  end.

Lemma children_yields : forall A (Q : A -> Prop) s grants ids i done fin, with_clients done ->
  (forall cl o, (gives s -> forall j r, cl j r = true) -> made_as done (mrk_children cl grants i ids) o -> yields Q (fin o)) ->
  yields Q (children_p s grants ids done fin).
Proof.
  intros A Q s grants. induction ids as [|id ids IH]; intros i done fin D F; cbn [children_p].
  - apply (F (fun _ _ => true)); [auto|]. cbn. rewrite app_nil_r. auto.
  - cbv zeta. destruct (is_empty (parse_region id)) eqn:R.
    { apply (F (fun _ _ => true)); [auto|]. cbn. rewrite R. exact I. }
    apply get_yields.
    + intros c _. destruct (mrk_build grants id) as [k|] eqn:B.
      * apply (IH (S i)); [apply Forall_app; split; [exact D|constructor; [cbn; eauto|constructor]]|]. intros cl o G M. apply (F (first_client i true cl)); [exact (first_true s i cl G)|].
        cbn [mrk_children]. cbv zeta. rewrite R, first_here, B. cbn [orb negb]. rewrite (children_agree _ cl) by (intros; apply first_after; lia).
        revert M. unfold made_as. destruct o, (mrk_children cl grants (S i) ids) as [ks|]; auto. rewrite map_app, <- app_assoc. auto.
      * apply (F (fun _ _ => true)); [auto|]. cbn. rewrite R, B. exact I.
    + intros NG _. apply (F (fun _ _ => false)); [contradiction|]. cbn. rewrite R. exact I.
Qed.
Lemma regions_yields : forall A (Q : A -> Prop) s grants f ids i done fin, with_clients done ->
  (forall cl o, (gives s -> forall j r, cl j r = true) -> made_as done (discovery_children cl grants f i ids) o -> yields Q (fin o)) ->
  yields Q (regions_p s grants f ids done fin).
Proof.
  intros A Q s grants f. induction ids as [|id ids IH]; intros i done fin D F; cbn [regions_p].
  - apply (F (fun _ _ => true)); [auto|]. cbn. rewrite app_nil_r. auto.
  - apply get_yields.
    + intros c _. destruct (mrk_build_discovery grants id f) as [k|] eqn:B.
      * apply (IH (S i)); [apply Forall_app; split; [exact D|constructor; [cbn; eauto|constructor]]|]. intros cl o G M. apply (F (first_client i true cl)); [exact (first_true s i cl G)|].
        cbn [discovery_children]. rewrite first_here, B. cbn [negb]. rewrite (regions_agree _ cl) by (intros; apply first_after; lia).
        revert M. unfold made_as. destruct o, (discovery_children cl grants f (S i) ids) as [ks|]; auto. rewrite map_app, <- app_assoc. auto.
      * apply (F (fun _ _ => true)); [auto|]. cbn. rewrite B. exact I.
    + intros NG _. apply (F (fun _ _ => false)); [contradiction|]. cbn. exact I.
Qed.

Lemma build_yields b : yields (fun o => built_as b o /\ own_clients b o) (build_p b Ret).
Proof.
  destruct b as [c sup grants gen others|c sup grants f|c sup grants id|c sup grants region f|sup grants gen ids|sup grants regions f|c sup grants region]; cbn [build_p].
  - destruct (kms_build grants gen others) as [k|] eqn:E; [apply supplier_yields; intro s|]; cbn; rewrite E; auto.
  - apply supplier_yields. intro s. cbn. auto.
  - destruct (mrk_build grants id) as [k|] eqn:E; [apply supplier_yields; intro s|]; cbn; rewrite E; auto.
  - destruct c as [c|], sup as [s|]; cbn; auto. destruct (mrk_build_discovery grants region f) as [k|] eqn:E; cbn; rewrite ?E; auto.
  - assert (NO : mrk_multi_build (fun _ _ => true) grants gen ids = None -> built_as (BMulti sup grants gen ids) None /\ own_clients (BMulti sup grants gen ids) None).
    { intro E. split; [exists (fun _ _ => true); rewrite E; auto|exact I]. }
    unfold mrk_multi_build in NO. destruct (match gen with Some g => is_empty g | None => false end) eqn:E1; [cbn [yields]; apply NO; reflexivity|].
    cbv zeta in *. destruct (existsb is_empty ids) eqn:E2; [cbn [yields]; apply NO; reflexivity|].
    destruct (match match gen with Some g => g :: ids | None => ids end with [] => true | _ => false end) eqn:E3; [cbn [yields]; apply NO; reflexivity|].
    destruct (Nat.ltb 0 (length (find_duplicate_kms_mrk_ids match gen with Some g => g :: ids | None => ids end))) eqn:E4; [cbn [yields]; apply NO; reflexivity|].
    clear NO. apply default_yields. intros s GS. destruct gen as [g|].
    + apply get_yields.
      * intros c _. destruct (mrk_build grants g) as [k|] eqn:B.
        -- apply (children_yields _ _ s grants ids 1); [constructor; [cbn; eauto|constructor]|]. intros cl o G M. cbn [yields]. split.
           ++ exists (first_client 0 true cl). split; [intro X; exact (first_true s 0 cl G (GS X))|]. unfold mrk_multi_build. cbv zeta. rewrite E1, E2, E4, first_here, B. cbn [negb].
              rewrite (children_agree _ cl) by (intros; apply first_after; lia). revert M. unfold made_as. destruct o as [l|], (mrk_children cl grants 1 ids) as [ks|]; cbn; try contradiction; [intros [_ M]; rewrite M|]; reflexivity.
           ++ revert M. unfold made_as. destruct o as [l|]; [|intros _; exact I]. destruct (mrk_children cl grants 1 ids); [intros [M _]; exact M|contradiction].
        -- cbn [yields]. split; [|exact I]. exists (fun _ _ => true). split; [auto|]. unfold mrk_multi_build. cbv zeta. rewrite E1, E2, E4, B. reflexivity.
      * intros NG _. cbn [yields]. split; [|exact I]. exists (fun _ _ => false). split; [intro X; exfalso; auto|]. unfold mrk_multi_build. cbv zeta. rewrite E1, E2, E4. reflexivity.
    + apply (children_yields _ _ s grants ids 1); [constructor|]. intros cl o G M. cbn [yields]. split.
      * exists cl. split; [auto|]. unfold mrk_multi_build. cbv zeta. rewrite E2, E3, E4. revert M. unfold made_as.
        destruct o as [l|], (mrk_children cl grants 1 ids) as [ks|]; cbn; try contradiction; [intros [_ M]; rewrite M|]; reflexivity.
      * revert M. unfold made_as. destruct o as [l|]; [|intros _; exact I]. destruct (mrk_children cl grants 1 ids); [intros [M _]; exact M|contradiction].
  - unfold built_as, mrk_multi_discovery. destruct regions as [|r rs]; [cbn; split; [exists (fun _ _ => true)|]; auto|].
    destruct (existsb is_empty (r :: rs)) eqn:E; [cbn [yields]; split; [exists (fun _ _ => true)|]; cbn; auto|].
    apply default_yields. intros s GS. apply (regions_yields _ _ s grants f (r :: rs) 0); [constructor|]. intros cl o G M. cbn [yields]. split.
    + exists cl. split; [auto|]. revert M. unfold made_as. destruct o as [l|], (discovery_children cl grants f 0 (r :: rs)) as [ks|]; cbn [option_map]; try contradiction; [intros [_ M]; rewrite M|]; reflexivity.
    + revert M. unfold made_as. destruct o as [l|]; [|intros _; exact I]. destruct (discovery_children cl grants f 0 (r :: rs)); [intros [M _]; exact M|contradiction].
  - destruct c as [c|], sup as [s|]; cbn; auto.
Qed.
