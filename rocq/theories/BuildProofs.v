(** References taken and given back by the builders of MRK-aware multi-keyrings. *)
From Verif Require Import Base KmsModel RefModel RefSpec RefProofs BuildModel BuildSpec.
From Coq Require Import Arith Lia Permutation.
Import List.
Open Scope list_scope.
Open Scope nat_scope.

Lemma runs_app : forall es1 es2 s ow s1 ow1 s2 ow2, runs s ow es1 s1 ow1 -> runs s1 ow1 es2 s2 ow2 -> runs s ow (es1 ++ es2) s2 ow2.
Proof.
  induction es1 as [|e es IH]; intros es2 s ow s1 ow1 s2 ow2 A B; inversion A; subst; cbn [app]; [exact B|].
  econstructor; eauto.
Qed.
Lemma runs_reachable : forall es s ow s' ow', reachable s ow -> runs s ow es s' ow' -> reachable s' ow'.
Proof.
  induction es as [|e es IH]; intros s ow s' ow' R H; inversion H; subst; [exact R|]. eapply IH; [|eassumption].
  eapply reachable_step; eassumption.
Qed.

Ltac nils H := repeat rewrite app_nil_r in H.

(** A state in which no call is in progress. *)
Notation at_rest H log lk := (mk_ms H [] log lk).
Lemma idle_nil : forall H log lk t, idle (at_rest H log lk) t.
Proof. intros H log lk t a []. Qed.
Lemma busy : forall s t a, In (t, a) (ms_todo s) -> ~ idle s t.
Proof. intros s t a I N. exact (N a I). Qed.

Lemma next_here : forall t a l, next_of t ((t, a) :: l) = Some ([], a, l).
Proof. intros. cbn [next_of]. now rewrite Nat.eqb_refl. Qed.

(** One pending action at the head. *)
Lemma step_runs : forall H t a l log lk ow H' nx lg lk', run_act H a = ADone H' nx lg lk' ->
  runs (mk_ms H ((t, a) :: l) log lk) ow [RStep t] (mk_ms H' (map (pair t) nx ++ l) (log ++ lg) (lk ++ lk')) ow.
Proof.
  intros H t a l log lk ow H' nx lg lk' E. eapply runs_cons; [|cbn [mstep ms_heap ms_todo ms_log ms_leaked]; rewrite next_here, E; reflexivity|apply runs_nil].
  apply busy with (a := a). left. reflexivity.
Qed.

Lemma live_at : forall H o c ks, nth_error H o = Some (mk_obj c true ks) -> live H o = Some (mk_obj c true ks).
Proof. intros H o c ks E. unfold live. now rewrite E. Qed.

Lemma up_at : forall H o c ks, nth_error H o = Some (mk_obj c true ks) -> (c = 1 \/ c = 2)%N ->
  refcount_up H o = COk (upd H o (mk_obj (c + 1) true ks)) c.
Proof. intros H o c ks E C. unfold refcount_up. rewrite (live_at _ _ _ _ E). destruct C as [->| ->]; reflexivity. Qed.
Lemma down_at : forall H o c ks, nth_error H o = Some (mk_obj c true ks) -> (c = 1 \/ c = 2)%N ->
  refcount_down H o = COk (upd H o (mk_obj (c - 1) true ks)) c.
Proof. intros H o c ks E C. unfold refcount_down. rewrite (live_at _ _ _ _ E). destruct C as [->| ->]; reflexivity. Qed.

(** *** Making keyrings *)
Lemma new_runs : forall H log lk ow b, runs (at_rest H log lk) ow [RNew b []] (at_rest (H ++ [mk_obj 1 true []]) log lk) ((b, length H) :: ow).
Proof. intros H log lk ow b. eapply runs_cons; [|reflexivity|apply runs_nil]. split; [apply idle_nil|intros k []]. Qed.

Lemma attach_act : forall H p k ks, k <> p -> nth_error H k = Some (mk_obj 1 true []) -> nth_error H p = Some (mk_obj 1 true ks) ->
  run_act H (AAttach p k true) = ADone (upd (upd H k (mk_obj 2 true [])) p (mk_obj 1 true (ks ++ [k]))) [] [] [].
Proof.
  intros H p k ks N K P. cbn [run_act]. rewrite (up_at _ _ _ _ K) by auto.
  rewrite (live_at _ p 1 ks) by (rewrite nth_upd_other; auto). reflexivity.
Qed.

Lemma add_runs : forall H log lk ow b p k ks, k <> p -> nth_error H k = Some (mk_obj 1 true []) -> nth_error H p = Some (mk_obj 1 true ks) ->
  In (b, p) ow -> In (b, k) ow ->
  runs (at_rest H log lk) ow [RAdd b p k true; RStep b] (at_rest (upd (upd H k (mk_obj 2 true [])) p (mk_obj 1 true (ks ++ [k]))) log lk) ow.
Proof.
  intros H log lk ow b p k ks N K P OP OK. eapply runs_cons; [|reflexivity|].
  - split; [apply idle_nil|]. split; apply reach_own; assumption.
  - cbn [owns ms_heap ms_todo ms_log ms_leaked app]. pose proof (step_runs _ b _ [] log lk ow _ _ _ _ (attach_act H p k ks N K P)) as R.
    nils R. exact R.
Qed.

Lemma new_with_runs : forall H log lk ow b k, nth_error H k = Some (mk_obj 1 true []) -> In (b, k) ow ->
  runs (at_rest H log lk) ow [RNew b [k]; RStep b]
    (at_rest (upd (upd (H ++ [mk_obj 1 true []]) k (mk_obj 2 true [])) (length H) (mk_obj 1 true [k])) log lk) ((b, length H) :: ow).
Proof.
  intros H log lk ow b k K OK. assert (L : k < length H) by (apply nth_error_Some; congruence).
  eapply runs_cons; [|reflexivity|].
  - split; [apply idle_nil|]. intros x [<-|[]]. apply reach_own. exact OK.
  - cbn [owns ms_heap ms_todo ms_log ms_leaked app map].
    assert (A : run_act (H ++ [mk_obj 1 true []]) (AAttach (length H) k true) =
                ADone (upd (upd (H ++ [mk_obj 1 true []]) k (mk_obj 2 true [])) (length H) (mk_obj 1 true ([] ++ [k]))) [] [] []).
    { apply attach_act; [lia|rewrite nth_error_app1; auto|]. rewrite nth_error_app2, Nat.sub_diag by lia. reflexivity. }
    pose proof (step_runs _ b _ [] log lk ((b, length H) :: ow) _ _ _ _ A) as R. nils R. exact R.
Qed.

(** *** Giving references back *)
Lemma release2_runs : forall H log lk ow b o ks, nth_error H o = Some (mk_obj 2 true ks) -> In (b, o) ow ->
  runs (at_rest H log lk) ow (release_ev b o 1) (at_rest (upd H o (mk_obj 1 true ks)) log lk) (remove1 (b, o) ow).
Proof.
  intros H log lk ow b o ks E O. unfold release_ev. cbn [repeat]. eapply runs_cons; [|reflexivity|].
  - split; [apply idle_nil|exact O].
  - cbn [owns ms_heap ms_todo ms_log ms_leaked app].
    assert (A : run_act H (ADown o) = ADone (upd H o (mk_obj 1 true ks)) [] [] []) by (cbn [run_act]; rewrite (down_at _ _ _ _ E) by auto; reflexivity).
    pose proof (step_runs _ b _ [] log lk (remove1 (b, o) ow) _ _ _ _ A) as R. nils R. exact R.
Qed.

Definition kill (H : list obj) (k : nat) : list obj :=
  upd (upd (upd H k (mk_obj 0 true [])) k (mk_obj 0 true [])) k (mk_obj 0 false []).
Lemma nth_kill_same : forall H k x, nth_error H k = Some x -> nth_error (kill H k) k = Some (mk_obj 0 false []).
Proof. intros H k x E. unfold kill. eapply nth_upd_same, nth_upd_same, nth_upd_same. exact E. Qed.
Lemma nth_kill_other : forall H k j, k <> j -> nth_error (kill H k) j = nth_error H j.
Proof. intros H k j N. unfold kill. now rewrite !nth_upd_other. Qed.
Lemma nth_kills_other : forall ks H j, ~ In j ks -> nth_error (fold_left kill ks H) j = nth_error H j.
Proof.
  induction ks as [|k ks IH]; intros H j N; cbn [fold_left]; [reflexivity|]. rewrite IH; [apply nth_kill_other|]; cbn in N; tauto.
Qed.
Lemma nth_kills_in : forall ks H j x, NoDup ks -> In j ks -> nth_error H j = Some x -> nth_error (fold_left kill ks H) j = Some (mk_obj 0 false []).
Proof.
  induction ks as [|k ks IH]; intros H j x D I E; [destruct I|]. cbn [fold_left]. inversion D; subst. destruct (Nat.eq_dec k j) as [->|N].
  - rewrite nth_kills_other by assumption. eapply nth_kill_same, E.
  - destruct I as [I|I]; [contradiction|]. eapply IH; eauto. rewrite nth_kill_other; eauto.
Qed.
Lemma kill_len : forall H k, length (kill H k) = length H.
Proof. intros. unfold kill. now rewrite !length_upd. Qed.
Lemma kills_len : forall ks H, length (fold_left kill ks H) = length H.
Proof. induction ks as [|k ks IH]; intros H; cbn [fold_left]; [reflexivity|]. now rewrite IH, kill_len. Qed.

(** An object with one reference and no references of its own, given up within a destructor. *)
Lemma kill_runs : forall H k l log lk ow b, nth_error H k = Some (mk_obj 1 true []) ->
  runs (mk_ms H ((b, ADown k) :: l) log lk) ow (repeat (RStep b) 3) (mk_ms (kill H k) l (log ++ [k]) lk) ow.
Proof.
  intros H k l log lk ow b E.
  assert (A1 : run_act H (ADown k) = ADone (upd H k (mk_obj 0 true [])) [ADestroy k] [] []) by (cbn [run_act]; rewrite (down_at _ _ _ _ E) by auto; reflexivity).
  set (H1 := upd H k (mk_obj 0 true [])) in *.
  assert (E1 : nth_error H1 k = Some (mk_obj 0 true [])) by (eapply nth_upd_same; exact E).
  assert (A2 : run_act H1 (ADestroy k) = ADone (upd H1 k (mk_obj 0 true [])) [AFree k] [k] []) by (cbn [run_act]; rewrite (live_at _ _ _ _ E1); reflexivity).
  set (H2 := upd H1 k (mk_obj 0 true [])) in *.
  assert (E2 : nth_error H2 k = Some (mk_obj 0 true [])) by (eapply nth_upd_same; exact E1).
  assert (A3 : run_act H2 (AFree k) = ADone (upd H2 k (mk_obj 0 false [])) [] [] []) by (cbn [run_act]; rewrite (live_at _ _ _ _ E2); reflexivity).
  pose proof (step_runs _ b _ l log lk ow _ _ _ _ A1) as R1. pose proof (step_runs _ b _ l log lk ow _ _ _ _ A2) as R2.
  pose proof (step_runs _ b _ l (log ++ [k]) lk ow _ _ _ _ A3) as R3. nils R1; nils R2; nils R3. cbn [map app] in R1, R2, R3.
  change (repeat (RStep b) 3) with ([RStep b] ++ [RStep b] ++ [RStep b]).
  eapply runs_app; [exact R1|]. eapply runs_app; [exact R2|]. exact R3.
Qed.

Lemma kills_runs : forall ks H l log lk ow b, NoDup ks -> (forall k, In k ks -> nth_error H k = Some (mk_obj 1 true [])) ->
  runs (mk_ms H (map (pair b) (map ADown ks) ++ l) log lk) ow (repeat (RStep b) (3 * length ks)) (mk_ms (fold_left kill ks H) l (log ++ ks) lk) ow.
Proof.
  induction ks as [|k ks IH]; intros H l log lk ow b D K.
  - cbn. rewrite app_nil_r. apply runs_nil.
  - inversion D; subst. replace (3 * length (k :: ks)) with (3 + 3 * length ks) by (cbn [length]; lia). rewrite repeat_app.
    cbn [map app fold_left]. eapply runs_app.
    + apply kill_runs. apply K. now left.
    + replace (log ++ k :: ks) with ((log ++ [k]) ++ ks) by (now rewrite <- app_assoc). apply IH; [assumption|].
      intros j J. rewrite nth_kill_other; [apply K; now right|]. intros ->. contradiction.
Qed.

(** Giving up the last reference on [m], which holds the only references on [ks]. *)
Lemma release_all_runs : forall H log lk ow b m ks, nth_error H m = Some (mk_obj 1 true ks) -> ~ In m ks -> NoDup ks ->
  (forall k, In k ks -> nth_error H k = Some (mk_obj 1 true [])) -> In (b, m) ow ->
  exists H', runs (at_rest H log lk) ow (release_ev b m (3 + 3 * length ks)) (at_rest H' (log ++ m :: ks) lk) (remove1 (b, m) ow) /\
    length H' = length H /\ (forall o, In o (m :: ks) -> nth_error H' o = Some (mk_obj 0 false [])) /\
    (forall o, ~ In o (m :: ks) -> nth_error H' o = nth_error H o).
Proof.
  intros H log lk ow b m ks E NM D K OW. set (ow' := remove1 (b, m) ow).
  assert (A1 : run_act H (ADown m) = ADone (upd H m (mk_obj 0 true ks)) [ADestroy m] [] []) by (cbn [run_act]; rewrite (down_at _ _ _ _ E) by auto; reflexivity).
  set (H1 := upd H m (mk_obj 0 true ks)) in *.
  assert (E1 : nth_error H1 m = Some (mk_obj 0 true ks)) by (eapply nth_upd_same; exact E).
  assert (A2 : run_act H1 (ADestroy m) = ADone (upd H1 m (mk_obj 0 true [])) (map ADown ks ++ [AFree m]) [m] []) by (cbn [run_act]; rewrite (live_at _ _ _ _ E1); reflexivity).
  set (H2 := upd H1 m (mk_obj 0 true [])) in *.
  assert (E2 : nth_error H2 m = Some (mk_obj 0 true [])) by (eapply nth_upd_same; exact E1).
  assert (K2 : forall k, In k ks -> nth_error H2 k = Some (mk_obj 1 true [])).
  { intros k I. unfold H2, H1. rewrite !nth_upd_other; auto; intros ->; contradiction. }
  set (H3 := fold_left kill ks H2).
  assert (E3 : nth_error H3 m = Some (mk_obj 0 true [])) by (unfold H3; rewrite nth_kills_other; auto).
  assert (A4 : run_act H3 (AFree m) = ADone (upd H3 m (mk_obj 0 false [])) [] [] []) by (cbn [run_act]; rewrite (live_at _ _ _ _ E3); reflexivity).
  exists (upd H3 m (mk_obj 0 false [])). split; [|split; [|split]].
  - unfold release_ev. eapply runs_cons; [split; [apply idle_nil|exact OW]|reflexivity|]. cbn [owns ms_heap ms_todo ms_log ms_leaked app]. fold ow'.
    replace (3 + 3 * length ks) with (1 + (1 + (3 * length ks + 1))) by lia. rewrite !repeat_app. cbn [repeat].
    pose proof (step_runs _ b _ [] log lk ow' _ _ _ _ A1) as R1. pose proof (step_runs _ b _ [] log lk ow' _ _ _ _ A2) as R2.
    rewrite map_app in R2. nils R1; nils R2. cbn [map app] in R1, R2.
    eapply runs_app; [exact R1|]. eapply runs_app; [exact R2|].
    eapply runs_app; [apply kills_runs; assumption|].
    pose proof (step_runs _ b _ [] ((log ++ [m]) ++ ks) lk ow' _ _ _ _ A4) as R4. nils R4. cbn [map app] in R4.
    rewrite <- app_assoc in R4. cbn [app] in R4. fold H3. rewrite <- app_assoc. exact R4.
  - rewrite length_upd. unfold H3. rewrite kills_len. unfold H2, H1. now rewrite !length_upd.
  - intros o [<-|I]; [eapply nth_upd_same; exact E3|]. rewrite nth_upd_other by (intros ->; contradiction). unfold H3. eapply nth_kills_in; eauto.
  - intros o N. cbn in N. rewrite nth_upd_other by tauto. unfold H3. rewrite nth_kills_other by tauto. unfold H2, H1. rewrite !nth_upd_other by tauto. reflexivity.
Qed.

(** Giving up the last reference on [m], when each of [ks] has another reference. *)
Lemma downs_runs : forall ks H l log lk ow b, NoDup ks -> (forall k, In k ks -> nth_error H k = Some (mk_obj 2 true [])) ->
  exists H', runs (mk_ms H (map (pair b) (map ADown ks) ++ l) log lk) ow (repeat (RStep b) (length ks)) (mk_ms H' l log lk) ow /\
    length H' = length H /\ (forall k, In k ks -> nth_error H' k = Some (mk_obj 1 true [])) /\ (forall o, ~ In o ks -> nth_error H' o = nth_error H o).
Proof.
  induction ks as [|k ks IH]; intros H l log lk ow b D K.
  - exists H. cbn. split; [apply runs_nil|]. repeat split; auto. intros k [].
  - inversion D; subst.
    assert (A : run_act H (ADown k) = ADone (upd H k (mk_obj 1 true [])) [] [] []).
    { cbn [run_act]. rewrite (down_at _ _ _ _ (K k (or_introl eq_refl))) by auto. reflexivity. }
    destruct (IH (upd H k (mk_obj 1 true [])) l log lk ow b) as (H' & R & L & I & O); [assumption| |].
    { intros j J. rewrite nth_upd_other; [apply K; now right|]. intros ->. contradiction. }
    exists H'. split; [|split; [|split]].
    + cbn [map app length repeat]. pose proof (step_runs _ b _ (map (pair b) (map ADown ks) ++ l) log lk ow _ _ _ _ A) as R1.
      nils R1. cbn [map app] in R1. change (RStep b :: repeat (RStep b) (length ks)) with ([RStep b] ++ repeat (RStep b) (length ks)).
      eapply runs_app; eassumption.
    + now rewrite L, length_upd.
    + intros j [<-|J]; [|auto]. rewrite O by assumption. eapply nth_upd_same. apply K. now left.
    + intros o N. cbn in N. rewrite O by tauto. apply nth_upd_other. tauto.
Qed.

Lemma release_shared_runs : forall H log lk ow b m ks, nth_error H m = Some (mk_obj 1 true ks) -> ~ In m ks -> NoDup ks ->
  (forall k, In k ks -> nth_error H k = Some (mk_obj 2 true [])) -> In (b, m) ow ->
  exists H', runs (at_rest H log lk) ow (release_ev b m (3 + length ks)) (at_rest H' (log ++ [m]) lk) (remove1 (b, m) ow) /\
    length H' = length H /\ nth_error H' m = Some (mk_obj 0 false []) /\ (forall k, In k ks -> nth_error H' k = Some (mk_obj 1 true [])) /\
    (forall o, ~ In o (m :: ks) -> nth_error H' o = nth_error H o).
Proof.
  intros H log lk ow b m ks E NM D K OW. set (ow' := remove1 (b, m) ow).
  assert (A1 : run_act H (ADown m) = ADone (upd H m (mk_obj 0 true ks)) [ADestroy m] [] []) by (cbn [run_act]; rewrite (down_at _ _ _ _ E) by auto; reflexivity).
  set (H1 := upd H m (mk_obj 0 true ks)) in *.
  assert (E1 : nth_error H1 m = Some (mk_obj 0 true ks)) by (eapply nth_upd_same; exact E).
  assert (A2 : run_act H1 (ADestroy m) = ADone (upd H1 m (mk_obj 0 true [])) (map ADown ks ++ [AFree m]) [m] []) by (cbn [run_act]; rewrite (live_at _ _ _ _ E1); reflexivity).
  set (H2 := upd H1 m (mk_obj 0 true [])) in *.
  assert (E2 : nth_error H2 m = Some (mk_obj 0 true [])) by (eapply nth_upd_same; exact E1).
  assert (K2 : forall k, In k ks -> nth_error H2 k = Some (mk_obj 2 true [])).
  { intros k I. unfold H2, H1. rewrite !nth_upd_other; auto; intros ->; contradiction. }
  destruct (downs_runs ks H2 [(b, AFree m)] (log ++ [m]) lk ow' b D K2) as (H3 & R3 & L3 & I3 & O3).
  assert (E3 : nth_error H3 m = Some (mk_obj 0 true [])) by (rewrite O3; auto).
  assert (A4 : run_act H3 (AFree m) = ADone (upd H3 m (mk_obj 0 false [])) [] [] []) by (cbn [run_act]; rewrite (live_at _ _ _ _ E3); reflexivity).
  exists (upd H3 m (mk_obj 0 false [])). split; [|split; [|split; [|split]]].
  - unfold release_ev. eapply runs_cons; [split; [apply idle_nil|exact OW]|reflexivity|]. cbn [owns ms_heap ms_todo ms_log ms_leaked app]. fold ow'.
    replace (3 + length ks) with (1 + (1 + (length ks + 1))) by lia. rewrite !repeat_app. cbn [repeat].
    pose proof (step_runs _ b _ [] log lk ow' _ _ _ _ A1) as R1. pose proof (step_runs _ b _ [] log lk ow' _ _ _ _ A2) as R2.
    rewrite map_app in R2. nils R1; nils R2. cbn [map app] in R1, R2.
    eapply runs_app; [exact R1|]. eapply runs_app; [exact R2|]. eapply runs_app; [exact R3|].
    pose proof (step_runs _ b _ [] (log ++ [m]) lk ow' _ _ _ _ A4) as R4. nils R4. exact R4.
  - rewrite length_upd, L3. unfold H2, H1. now rewrite !length_upd.
  - eapply nth_upd_same. exact E3.
  - intros k I. rewrite nth_upd_other by (intros ->; contradiction). auto.
  - intros o N. cbn in N. rewrite nth_upd_other by tauto. rewrite O3 by tauto. unfold H2, H1. rewrite !nth_upd_other by tauto. reflexivity.
Qed.

(** *** Owners *)
Lemma remove1_app : forall x l r, In x l -> remove1 x (l ++ r) = remove1 x l ++ r.
Proof.
  intros x l r. induction l as [|y l IH]; intros I; [destruct I|]. cbn [app remove1].
  destruct (Nat.eqb (fst y) (fst x) && Nat.eqb (snd y) (snd x))%bool eqn:E; [reflexivity|]. cbn [app]. f_equal. apply IH.
  destruct I as [->|I]; [|exact I]. rewrite !Nat.eqb_refl in E. discriminate.
Qed.
Definition drop_all (xs ow : owners) : owners := fold_left (fun l x => remove1 x l) xs ow.
Lemma drop_all_part : forall xs ys zs r, Permutation ys (xs ++ zs) -> exists zs', drop_all xs (ys ++ r) = zs' ++ r /\ Permutation zs' zs.
Proof.
  induction xs as [|x xs IH]; intros ys zs r P; cbn [drop_all fold_left].
  - exists ys. split; [reflexivity|exact P].
  - assert (I : In x ys) by (eapply Permutation_in; [symmetry; exact P|now left]). rewrite (remove1_app _ _ _ I). apply IH.
    apply Permutation_cons_inv with (a := x). rewrite <- (remove1_perm x ys I). exact P.
Qed.
Lemma drop_all_in : forall xs ow y, In y ow -> ~ In y xs -> In y (drop_all xs ow).
Proof.
  induction xs as [|x xs IH]; intros ow y I N; cbn [drop_all fold_left]; [exact I|]. cbn in N. apply IH; [|tauto].
  apply in_remove1_other; [exact I|]. intros ->. tauto.
Qed.

(** Giving back one of two references on each of [os]. *)
Lemma release_parts_runs : forall os H log lk ow b, NoDup os -> (forall o, In o os -> nth_error H o = Some (mk_obj 2 true [])) -> (forall o, In o os -> In (b, o) ow) ->
  exists H', runs (at_rest H log lk) ow (flat_map (fun o => release_ev b o 1) os) (at_rest H' log lk) (drop_all (map (pair b) os) ow) /\
    length H' = length H /\ (forall o, In o os -> nth_error H' o = Some (mk_obj 1 true [])) /\ (forall o, ~ In o os -> nth_error H' o = nth_error H o).
Proof.
  induction os as [|o os IH]; intros H log lk ow b D E OW.
  - exists H. cbn. split; [apply runs_nil|]. repeat split; auto. intros o [].
  - inversion D; subst. destruct (IH (upd H o (mk_obj 1 true [])) log lk (remove1 (b, o) ow) b) as (H' & R & L & I & O); [assumption| | |].
    + intros j J. rewrite nth_upd_other; [apply E; now right|]. intros ->. contradiction.
    + intros j J. apply in_remove1_other; [apply OW; now right|]. intros X. injection X as ->. contradiction.
    + exists H'. split; [|split; [|split]].
      * cbn [flat_map map]. eapply runs_app; [apply release2_runs; [apply E; now left|apply OW; now left]|exact R].
      * now rewrite L, length_upd.
      * intros j [<-|J]; [|auto]. rewrite O by assumption. eapply nth_upd_same. apply E. now left.
      * intros j N. cbn in N. rewrite O by tauto. apply nth_upd_other. tauto.
Qed.

(** *** The builder *)
Record built (h H : list obj) (gens : list nat) (k : nat) : Prop := {
  bt_len : length H = length h + length gens + 1 + k;
  bt_old : forall o, o < length h -> nth_error H o = nth_error h o;
  bt_multi : nth_error H (length h + length gens) = Some (mk_obj 1 true (gens ++ seq (S (length h + length gens)) k));
  bt_parts : forall o, In o (gens ++ seq (S (length h + length gens)) k) -> nth_error H o = Some (mk_obj 2 true []) }.

(** The numbers of the keyrings in the multi-keyring. *)
Definition gens_of (base : nat) (g : bool) : list nat := if g then [base] else [].
Lemma parts_ne : forall base g k o, In o (gens_of base g ++ seq (S (base + length (gens_of base g))) k) ->
  base <= o /\ o <> base + length (gens_of base g) /\ o < base + length (gens_of base g) + 1 + k.
Proof. intros base g k o I. apply in_app_or in I. destruct g; cbn in *; [destruct I as [[<-|[]]|I]|destruct I as [[]|I]]; try apply in_seq in I; lia. Qed.
Lemma parts_nodup : forall base g k, NoDup (gens_of base g ++ seq (S (base + length (gens_of base g))) k).
Proof.
  intros base [] k; cbn; [constructor|]; try apply seq_NoDup. rewrite in_seq. lia.
Qed.

Lemma children_runs : forall b h log lk g oks H k ow es n ok, let gens := gens_of (length h) g in let m := length h + length gens in
  built h H gens k -> In (b, m) ow -> children_ev b m (S m + k) oks = (es, n, ok) ->
  (ok = true <-> forallb (fun x => x) oks = true) /\ (ok = true -> n = length oks) /\
  exists H', runs (at_rest H log lk) ow es (at_rest H' log lk) (rev (map (pair b) (seq (S m + k) n)) ++ ow) /\ built h H' gens (k + n).
Proof.
  intros b h log lk g oks. induction oks as [|[|] oks IH]; intros H k ow es n ok gens m B OW E; cbn [children_ev] in E.
  - injection E as <- <- <-. split; [easy|]. split; [easy|]. exists H. rewrite Nat.add_0_r. split; [apply runs_nil|exact B].
  - remember (S m + k) as c eqn:CE. destruct (children_ev b m (S c) oks) as [[es' n'] ok'] eqn:C. injection E as <- <- <-.
    destruct B as [BL BO BM BP]. fold m in BM, BP, BL.
    assert (LH : length H = c) by lia.
    set (H1 := H ++ [mk_obj 1 true []]).
    assert (HC : nth_error H1 c = Some (mk_obj 1 true [])) by (unfold H1; rewrite nth_error_app2, LH, Nat.sub_diag by lia; reflexivity).
    assert (HM : nth_error H1 m = Some (mk_obj 1 true (gens ++ seq (S m) k))) by (unfold H1; rewrite nth_error_app1 by lia; exact BM).
    set (H2 := upd (upd H1 c (mk_obj 2 true [])) m (mk_obj 1 true ((gens ++ seq (S m) k) ++ [c]))).
    assert (B2 : built h H2 gens (S k)).
    { assert (SQ : gens ++ seq (S m) (S k) = (gens ++ seq (S m) k) ++ [c]) by (rewrite seq_S, app_assoc, CE; reflexivity).
      constructor; fold m.
      - unfold H2, H1. rewrite !length_upd, app_length. cbn. lia.
      - intros o L. unfold H2. rewrite !nth_upd_other by lia. unfold H1. rewrite nth_error_app1 by lia. auto.
      - rewrite SQ. unfold H2. eapply nth_upd_same. rewrite nth_upd_other by lia. exact HM.
      - intros o I. rewrite SQ in I. pose proof I as I0. rewrite <- SQ in I0. apply (parts_ne (length h) g (S k)) in I0. fold gens m in I0.
        unfold H2. rewrite nth_upd_other by lia.
        apply in_app_or in I. destruct I as [I|[<-|[]]]; [|eapply nth_upd_same; exact HC].
        rewrite nth_upd_other by (apply (parts_ne (length h) g k) in I; fold gens m in I; lia).
        unfold H1. rewrite nth_error_app1; [auto|]. apply (parts_ne (length h) g k) in I. fold gens m in I. lia. }
    destruct (IH H2 (S k) ((b, c) :: ow) es' n' ok') as (O1 & O2 & H' & R & B'); [exact B2|now right|fold gens m; replace (S m + S k) with (S c) by lia; exact C|]. fold gens m in R.
    split; [cbn [forallb andb]; exact O1|]. split; [intros X; cbn [length]; f_equal; auto|].
    exists H'. split; [|now rewrite <- Nat.add_succ_comm].
    fold m. change (RNew b [] :: RAdd b m c true :: RStep b :: es') with ([RNew b []] ++ [RAdd b m c true; RStep b] ++ es').
    eapply runs_app; [apply new_runs|]. rewrite LH. fold H1. eapply runs_app.
    + apply add_runs; [|exact HC|exact HM|now right|now left]. lia.
    + replace (rev (map (pair b) (seq c (S n'))) ++ ow) with (rev (map (pair b) (seq (S m + S k) n')) ++ (b, c) :: ow); [exact R|].
      cbn [seq map rev]. replace (S m + S k) with (S c) by lia. now rewrite <- app_assoc.
  - injection E as <- <- <-. cbn. split; [easy|]. split; [easy|]. exists H. rewrite Nat.add_0_r. split; [apply runs_nil|exact B].
Qed.

Definition with_gen (gen : option bool) : bool := match gen with Some _ => true | None => false end.

Lemma made_runs : forall b h log lk ow g oks es n ok, let base := length h in let gens := gens_of base g in let m := base + length gens in
  children_ev b m (S m) oks = (es, n, ok) ->
  (ok = true <-> forallb (fun x => x) oks = true) /\ (ok = true -> n = length oks) /\
  exists H, runs (at_rest h log lk) ow ((if g then [RNew b []] else []) ++ [RNew b gens] ++ repeat (RStep b) (length gens) ++ es) (at_rest H log lk)
      (rev (map (pair b) (seq base (length gens + 1 + n))) ++ ow) /\ built h H gens n.
Proof.
  intros b h log lk ow g oks es n ok base gens m E.
  assert (X : exists H0, runs (at_rest h log lk) ow ((if g then [RNew b []] else []) ++ [RNew b gens] ++ repeat (RStep b) (length gens)) (at_rest H0 log lk)
              (rev (map (pair b) (seq base (length gens + 1))) ++ ow) /\ built h H0 gens 0).
  { unfold m, gens, base in *. destruct g; cbn [gens_of length app repeat] in *.
    - set (h1 := h ++ [mk_obj 1 true []]). assert (L1 : length h1 = length h + 1) by (unfold h1; rewrite app_length; reflexivity).
      assert (K : nth_error h1 (length h) = Some (mk_obj 1 true [])) by (unfold h1; rewrite nth_error_app2, Nat.sub_diag by lia; reflexivity).
      exists (upd (upd (h1 ++ [mk_obj 1 true []]) (length h) (mk_obj 2 true [])) (length h1) (mk_obj 1 true [length h])). split.
      + change [RNew b []; RNew b [length h]; RStep b] with ([RNew b []] ++ [RNew b [length h]; RStep b]).
        eapply runs_app; [apply new_runs|]. cbn [seq map rev app plus]. fold h1. replace (S (length h)) with (length h1) by lia.
        apply new_with_runs; [exact K|now left].
      + constructor; cbn [length app seq].
        * rewrite !length_upd, app_length, L1. cbn. lia.
        * intros o L. rewrite !nth_upd_other by lia. rewrite nth_error_app1 by lia. unfold h1. apply nth_error_app1. exact L.
        * rewrite <- L1. eapply nth_upd_same. rewrite nth_upd_other by lia. rewrite nth_error_app2, Nat.sub_diag by lia. reflexivity.
        * intros o [<-|[]]. rewrite nth_upd_other by lia. eapply nth_upd_same. rewrite nth_error_app1 by lia. exact K.
    - exists (h ++ [mk_obj 1 true []]). split; [apply new_runs|]. constructor; cbn [length app seq].
      + rewrite app_length. cbn. lia.
      + intros o L. apply nth_error_app1. exact L.
      + rewrite Nat.add_0_r, nth_error_app2, Nat.sub_diag by lia. reflexivity.
      + intros o []. }
  destruct X as (H0 & R0 & B0).
  assert (I0 : In (b, m) (rev (map (pair b) (seq base (length gens + 1))) ++ ow)).
  { apply in_or_app. left. apply in_rev. rewrite rev_involutive. apply in_map, in_seq. unfold m. lia. }
  replace (S m) with (S m + 0) in E by lia.
  destruct (children_runs b h log lk g oks H0 0 _ es n ok B0 I0 E) as (O1 & O2 & H & R & B). split; [exact O1|]. split; [exact O2|].
  exists H. split; [|exact B]. fold base gens m in R. rewrite Nat.add_0_r in R.
  assert (SQ : seq base (length gens + 1 + n) = seq base (length gens + 1) ++ seq (S m) n).
  { rewrite (seq_app (length gens + 1) n base). replace (base + (length gens + 1)) with (S m) by (unfold m; lia). reflexivity. }
  rewrite SQ.
  rewrite map_app, rev_app_distr, <- app_assoc. rewrite !app_assoc. rewrite <- (app_assoc _ [RNew b gens]). eapply runs_app; [exact R0|].
  rewrite <- !app_assoc. exact R.
Qed.

Lemma seq_parts_perm : forall base g n, Permutation (seq base (length (gens_of base g) + 1 + n))
  (base + length (gens_of base g) :: gens_of base g ++ seq (S (base + length (gens_of base g))) n).
Proof.
  intros base [] n; cbn [gens_of length plus app].
  - change (S (S n)) with (2 + n). rewrite seq_app. cbn [seq app plus]. rewrite Nat.add_1_r. replace (base + 2) with (S (S base)) by lia. apply perm_swap.
  - rewrite Nat.add_0_r. reflexivity.
Qed.

Lemma heap_dead : forall H o log lk, nth_error H o = Some (mk_obj 0 false []) -> ~ alive (at_rest H log lk) o.
Proof. intros H o log lk E (ob & X & A). cbn in X. rewrite E in X. injection X as <-. discriminate. Qed.

Lemma build_fails_lemma : forall s ow b gen alloc oks es, ms_todo s = [] -> build_ev b (length (ms_heap s)) gen alloc oks = (es, None) ->
  exists s', runs s ow es s' ow /\ ms_todo s' = [] /\ ms_leaked s' = ms_leaked s /\ untouched s s' /\ (forall o, new_object s s' o -> ~ alive s' o).
Proof.
  intros [h todo log lk] ow b gen alloc oks es T E. cbn in T. subst todo. cbn [ms_heap ms_leaked] in *.
  assert (NOTHING : es = [] -> exists s', runs (at_rest h log lk) ow es s' ow /\ ms_todo s' = [] /\ ms_leaked s' = lk /\
            untouched (at_rest h log lk) s' /\ (forall o, new_object (at_rest h log lk) s' o -> ~ alive s' o)).
  { intros ->. exists (at_rest h log lk). split; [apply runs_nil|]. split; [reflexivity|]. split; [reflexivity|].
    split; [intros o _; reflexivity|intros o [A B]; contradiction]. }
  destruct (match gen with Some false => true | _ => false end) eqn:GF.
  { destruct gen as [[]|]; try discriminate. cbn in E. injection E as <-. auto. }
  set (g := with_gen gen). set (base := length h) in *. set (gens := gens_of base g). set (m := base + length gens).
  assert (EQ : build_ev b base gen alloc oks =
    (let make_gen := if g then [RNew b []] else [] in
      if negb alloc then (make_gen ++ flat_map (fun g => release_ev b g 3) gens, None)
      else
        let '(es, n, ok) := children_ev b m (S m) oks in
        let made := make_gen ++ [RNew b gens] ++ repeat (RStep b) (length gens) ++ es in
        if ok then (made, Some m)
        else (made ++ flat_map (fun o => release_ev b o 1) (gens ++ seq (S m) n)
                   ++ release_ev b m (3 + 3 * (length gens + n)), None))).
  { unfold m, gens, g. destruct gen as [[]|]; [reflexivity|discriminate|reflexivity]. }
  rewrite EQ in E. clear EQ. cbv zeta in E. destruct alloc; cbn [negb] in E.
  2:{ injection E as <-. destruct g eqn:G; cbn [gens_of gens flat_map app].
      - rewrite app_nil_r. change (RNew b [] :: release_ev b base 3) with ([RNew b []] ++ release_ev b base 3).
        destruct (release_all_runs (h ++ [mk_obj 1 true []]) log lk ((b, base) :: ow) b base []) as (H' & R & L & D & O).
        + unfold base. rewrite nth_error_app2, Nat.sub_diag by lia. reflexivity.
        + intros [].
        + constructor.
        + intros k [].
        + now left.
        + exists (at_rest H' (log ++ [base]) lk). split; [|split; [reflexivity|split; [reflexivity|split]]].
          * eapply runs_app; [apply new_runs|]. fold base. cbn [remove1 fst snd] in R. rewrite !Nat.eqb_refl in R. exact R.
          * intros o C. unfold created in C. cbn [ms_heap] in *. rewrite O; [apply nth_error_app1; exact C|]. intros [<-|[]]. unfold base in C. lia.
          * intros o [C N]. unfold created in *. cbn [ms_heap] in *. apply heap_dead. apply D. left. rewrite L, app_length in C. unfold base. cbn in C. lia.
      - apply NOTHING. reflexivity. }
  destruct (children_ev b m (S m) oks) as [[ces n] ok] eqn:C. destruct ok; [discriminate|]. injection E as <-.
  destruct (made_runs b h log lk ow g oks ces n false C) as (_ & _ & H & R & [BL BO BM BP]). fold base gens m in R, BL, BO, BM, BP.
  set (parts := gens ++ seq (S m) n) in *.
  set (ow1 := rev (map (pair b) (seq base (length gens + 1 + n))) ++ ow) in *.
  pose proof (parts_nodup base g n) as ND. fold gens m parts in ND.
  assert (OWN : forall o, base <= o < base + length gens + 1 + n -> In (b, o) ow1).
  { intros o I. unfold ow1. apply in_or_app. left. apply in_rev. rewrite rev_involutive. apply in_map, in_seq. lia. }
  assert (PN : forall o, In o parts -> base <= o /\ o <> m /\ o < base + length gens + 1 + n) by (intros o I; exact (parts_ne base g n o I)).
  destruct (release_parts_runs parts H log lk ow1 b ND BP) as (H1 & R1 & L1 & P1 & O1); [intros o I; apply OWN; apply PN in I; lia|].
  assert (NM : ~ In m parts) by (intros I; apply PN in I; lia).
  destruct (release_all_runs H1 log lk (drop_all (map (pair b) parts) ow1) b m parts) as (H2 & R2 & L2 & D2 & O2).
  - rewrite O1 by exact NM. exact BM.
  - exact NM.
  - exact ND.
  - exact P1.
  - apply drop_all_in; [apply OWN; unfold m; lia|]. intros I. apply in_map_iff in I. destruct I as (x & X & I). injection X as ->. contradiction.
  - assert (PL : length gens + n = length parts) by (unfold parts; rewrite app_length, seq_length; reflexivity).
    assert (OWE : remove1 (b, m) (drop_all (map (pair b) parts) ow1) = ow).
    { assert (P : Permutation (rev (map (pair b) (seq base (length gens + 1 + n)))) (map (pair b) parts ++ [(b, m)])).
      { rewrite <- Permutation_rev. change [(b, m)] with (map (pair b) [m]). rewrite <- map_app. apply Permutation_map.
        pose proof (seq_parts_perm base g n) as SP. fold gens m parts in SP. rewrite SP. apply Permutation_cons_append. }
      destruct (drop_all_part _ _ _ ow P) as (z & Z1 & Z2). fold ow1 in Z1. rewrite Z1.
      apply Permutation_sym, Permutation_length_1_inv in Z2. subst z. cbn [app remove1 fst snd]. now rewrite !Nat.eqb_refl. }
    rewrite OWE in R2. rewrite PL. exists (at_rest H2 (log ++ m :: parts) lk). split; [|split; [reflexivity|split; [reflexivity|split]]].
    + eapply runs_app; [exact R|]. eapply runs_app; [exact R1|exact R2].
    + intros o K. unfold created in K. cbn [ms_heap] in *. fold base in K. rewrite O2, O1; [apply BO; exact K| |].
      * intros I. apply PN in I. lia.
      * intros [<-|I]; [unfold m in K; lia|apply PN in I; lia].
    + intros o [K N]. unfold created in *. cbn [ms_heap] in *. apply heap_dead. apply D2. fold base in N. rewrite L2, L1, BL in K.
      fold base in K. assert (I : In o (seq base (length gens + 1 + n))) by (apply in_seq; lia).
      eapply Permutation_in in I; [|apply (seq_parts_perm base g n)]. exact I.
Qed.

Lemma build_succeeds_lemma : forall s ow b gen alloc oks es m, ms_todo s = [] -> build_ev b (length (ms_heap s)) gen alloc oks = (es, Some m) ->
  exists s' ow' parts, runs s ow es s' ow' /\ ms_todo s' = [] /\ ms_leaked s' = ms_leaked s /\ untouched s s' /\
    Permutation ow' ((b, m) :: map (pair b) parts ++ ow) /\ nth_error (ms_heap s') m = Some (mk_obj 1 true parts) /\
    (forall o, new_object s s' o <-> In o (m :: parts)) /\ NoDup (m :: parts) /\
    length parts = (if with_gen gen then 1 else 0) + length oks /\
    (forall o, In o parts -> nth_error (ms_heap s') o = Some (mk_obj 2 true [])).
Proof.
  intros [h todo log lk] ow b gen alloc oks es m' T E. cbn in T. subst todo. cbn [ms_heap ms_leaked] in *.
  destruct (match gen with Some false => true | _ => false end) eqn:GF.
  { destruct gen as [[]|]; try discriminate. }
  set (g := with_gen gen). set (base := length h) in *. set (gens := gens_of base g). set (m := base + length gens).
  assert (EQ : build_ev b base gen alloc oks =
    (let make_gen := if g then [RNew b []] else [] in
      if negb alloc then (make_gen ++ flat_map (fun g => release_ev b g 3) gens, None)
      else
        let '(es, n, ok) := children_ev b m (S m) oks in
        let made := make_gen ++ [RNew b gens] ++ repeat (RStep b) (length gens) ++ es in
        if ok then (made, Some m)
        else (made ++ flat_map (fun o => release_ev b o 1) (gens ++ seq (S m) n)
                   ++ release_ev b m (3 + 3 * (length gens + n)), None))).
  { unfold m, gens, g. destruct gen as [[]|]; [reflexivity|discriminate|reflexivity]. }
  rewrite EQ in E. clear EQ. cbv zeta in E. destruct alloc; cbn [negb] in E; [|discriminate].
  destruct (children_ev b m (S m) oks) as [[ces n] ok] eqn:C. destruct ok; [|discriminate]. injection E as <- <-.
  destruct (made_runs b h log lk ow g oks ces n true C) as (_ & NL & H & R & [BL BO BM BP]). fold base gens m in R, BL, BO, BM, BP.
  pose proof (parts_nodup base g n) as ND. fold gens m in ND.
  exists (at_rest H log lk). eexists. exists (gens ++ seq (S m) n). split; [exact R|]. split; [reflexivity|]. split; [reflexivity|].
  split; [intros o K; apply BO; exact K|]. split.
  { rewrite <- Permutation_rev. pose proof (seq_parts_perm base g n) as SP. fold gens m in SP. rewrite SP. cbn [map app]. reflexivity. }
  split; [exact BM|]. split; [|split; [|split]].
  - intros o. unfold new_object, created. cbn [ms_heap]. fold base. rewrite BL. fold base. split.
    + intros [K N]. assert (I : In o (seq base (length gens + 1 + n))) by (apply in_seq; lia).
      eapply Permutation_in in I; [|apply (seq_parts_perm base g n)]. exact I.
    + intros I. assert (I' : In o (seq base (length gens + 1 + n))).
      { eapply Permutation_in; [symmetry; apply (seq_parts_perm base g n)|exact I]. }
      apply in_seq in I'. lia.
  - constructor; [|exact ND]. intros I. pose proof (parts_ne base g n m I) as X. fold gens m in X. lia.
  - rewrite app_length, seq_length, NL by reflexivity. unfold gens. destruct g; reflexivity.
  - exact BP.
Qed.

(** *** Afterwards *)
Lemma remove1_head_perm : forall x l r, Permutation l (x :: r) -> Permutation (remove1 x l) r.
Proof.
  intros x l r P. assert (I : In x l) by (eapply Permutation_in; [symmetry; exact P|now left]).
  apply Permutation_cons_inv with (a := x). rewrite <- (remove1_perm x l I). exact P.
Qed.

Lemma outlive_lemma : forall s ow b t gen alloc oks es m, ms_todo s = [] -> build_ev b (length (ms_heap s)) gen alloc oks = (es, Some m) ->
  exists s' ow' parts steps, runs s ow (es ++ [RSend b t m] ++ release_ev t m steps) s' ow' /\ ms_todo s' = [] /\ untouched s s' /\
    Permutation ow' (map (pair b) parts ++ ow) /\ length parts = (if with_gen gen then 1 else 0) + length oks /\ NoDup parts /\
    ~ alive s' m /\ (forall o, In o parts -> new_object s s' o /\ nth_error (ms_heap s') o = Some (mk_obj 1 true [])).
Proof.
  intros s ow b t gen alloc oks es m T E.
  destruct (build_succeeds_lemma s ow b gen alloc oks es m T E) as (s1 & ow1 & parts & R & T1 & _ & U & P & M & NO & ND & PL & PK).
  destruct s1 as [h1 td1 log1 lk1]. cbn in T1. subst td1. cbn [ms_heap] in *.
  assert (O1 : In (b, m) ow1) by (eapply Permutation_in; [symmetry; exact P|now left]).
  inversion ND as [|x y NM NDP]; subst.
  set (ow2 := (t, m) :: remove1 (b, m) ow1).
  destruct (release_shared_runs h1 log1 lk1 ow2 t m parts M NM NDP PK) as (H & R2 & L & D & K & O); [now left|].
  exists (at_rest H (log1 ++ [m]) lk1), (remove1 (t, m) ow2), parts, (3 + length parts). split; [|split; [reflexivity|split; [|split; [|split; [|split; [|split]]]]]].
  - eapply runs_app; [exact R|]. eapply runs_app; [|exact R2]. eapply runs_cons; [split; [apply idle_nil|exact O1]|reflexivity|apply runs_nil].
  - intros o C. cbn [ms_heap]. rewrite O; [apply U; exact C|]. intros I. apply NO in I. destruct I as [_ I]. contradiction.
  - unfold ow2. cbn [remove1 fst snd]. rewrite !Nat.eqb_refl. cbn [andb]. apply remove1_head_perm. exact P.
  - exact PL.
  - exact NDP.
  - apply heap_dead. exact D.
  - intros o I. assert (N : new_object s (at_rest h1 log1 lk1) o) by (apply NO; now right). split; [|apply K; exact I].
    destruct N as [N1 N2]. split; [|exact N2]. unfold created in *. cbn [ms_heap] in *. rewrite L. exact N1.
Qed.

(** *** The two public builders *)
Lemma is_empty_spec : forall l, is_empty l = true <-> l = [].
Proof. intros [|x l]; split; easy. Qed.

Lemma children_ok : forall client grants ids i, (mrk_children client grants i ids <> None <-> forallb (fun x => x) (child_oks client grants i ids) = true) /\
  length (child_oks client grants i ids) = length ids.
Proof.
  intros client grants. induction ids as [|id ids IH]; intros i; cbn [mrk_children child_oks forallb length]; [split; [split; [reflexivity|discriminate]|reflexivity]|].
  destruct (IH (S i)) as [IH1 IH2]. split; [|now rewrite IH2].
  destruct (is_empty (parse_region id)); cbn [orb negb andb]; [split; [congruence|discriminate]|].
  destruct (client i (parse_region id)); cbn [orb negb andb]; [|split; [congruence|discriminate]].
  destruct (mrk_build grants id) as [k|]; cbn [andb]; [|split; [congruence|discriminate]].
  rewrite <- IH1. destruct (mrk_children client grants (S i) ids); split; congruence.
Qed.

Lemma build_some : forall b base gen oks, snd (build_ev b base gen true oks) <> None <->
  gen <> Some false /\ forallb (fun x => x) oks = true.
Proof.
  intros b base gen oks.
  assert (C : forall m next, snd (children_ev b m next oks) = forallb (fun x => x) oks).
  { induction oks as [|[|] oks IH]; intros m next; cbn [children_ev forallb]; [reflexivity| |reflexivity].
    specialize (IH m (S next)). destruct (children_ev b m (S next) oks) as [[es n] ok]. exact IH. }
  destruct gen as [[]|]; cbn [build_ev negb length Nat.add].
  - specialize (C (base + 1) (S (base + 1))). destruct (children_ev b (base + 1) (S (base + 1)) oks) as [[es n] ok]. cbn [snd] in C. rewrite <- C.
    destruct ok; cbn; split; try easy; intros [_ X]; discriminate.
  - cbn. split; [congruence|]. intros [X _]. congruence.
  - specialize (C (base + 0) (S (base + 0))). destruct (children_ev b (base + 0) (S (base + 0)) oks) as [[es n] ok]. cbn [snd] in C. rewrite <- C.
    destruct ok; cbn; split; try easy; intros [_ X]; discriminate.
Qed.

Lemma multi_some_lemma : forall client grants gen ids b base,
  snd (mrk_multi_ev client grants true gen ids b base) <> None <-> mrk_multi_build client grants gen ids <> None.
Proof.
  intros client grants gen ids b base. unfold mrk_multi_ev, mrk_multi_build.
  destruct (match gen with Some g => is_empty g | None => false end); [cbn; split; congruence|].
  destruct (existsb is_empty ids); [cbn; split; congruence|]. cbv zeta.
  destruct (match match gen with Some g => g :: ids | None => ids end with [] => true | _ :: _ => false end); [cbn; split; congruence|].
  destruct (Nat.ltb 0 _); [cbn; split; congruence|].
  rewrite build_some. destruct (children_ok client grants ids 1) as [CO _]. rewrite <- CO. destruct gen as [g|].
  - destruct (client 0 (parse_region g)); cbn [negb andb]; [|split; [intros [X _]; congruence|congruence]].
    destruct (mrk_build grants g); [|split; [intros [X _]; congruence|congruence]].
    destruct (mrk_children client grants 1 ids); split; try easy; try (intros [_ X]; congruence); intros; split; congruence.
  - destruct (mrk_children client grants 1 ids); split; try easy; try (intros [_ X]; congruence); intros; split; congruence.
Qed.

Lemma discovery_ok : forall client grants f regions i, (discovery_children client grants f i regions <> None <-> forallb (fun x => x) (discovery_oks client grants f i regions) = true) /\
  length (discovery_oks client grants f i regions) = length regions.
Proof.
  intros client grants f. induction regions as [|r rs IH]; intros i; cbn [discovery_children discovery_oks forallb length]; [split; [split; [reflexivity|discriminate]|reflexivity]|].
  destruct (IH (S i)) as [IH1 IH2]. split; [|now rewrite IH2].
  destruct (client i r); cbn [negb andb]; [|split; [congruence|discriminate]].
  destruct (mrk_build_discovery grants r f) as [k|]; cbn [andb]; [|split; [congruence|discriminate]].
  rewrite <- IH1. destruct (discovery_children client grants f (S i) rs); split; congruence.
Qed.

Lemma discovery_some_lemma : forall client grants f regions b base,
  snd (mrk_discovery_ev client grants f true regions b base) <> None <-> mrk_multi_discovery client grants f regions <> None.
Proof.
  intros client grants f regions b base. unfold mrk_discovery_ev, mrk_multi_discovery. destruct regions as [|r rs]; [cbn; split; congruence|].
  destruct (existsb is_empty (r :: rs)); [cbn; split; congruence|]. rewrite build_some. rewrite <- (proj1 (discovery_ok client grants f (r :: rs) 0)).
  split; [intros [_ X]; exact X|intros X; split; [discriminate|exact X]].
Qed.

(** Both builders end in [build_ev] or do nothing. *)
Lemma multi_ev_cases : forall client grants alloc gen ids b base es r, mrk_multi_ev client grants alloc gen ids b base = (es, r) ->
  (es = [] /\ r = None) \/ exists g, build_ev b base g alloc (child_oks client grants 1 ids) = (es, r) /\
    with_gen g = match gen with Some _ => true | None => false end.
Proof.
  intros client grants alloc gen ids b base es r E. unfold mrk_multi_ev in E.
  destruct (match gen with Some g => is_empty g | None => false end); [left; injection E; auto|].
  destruct (existsb is_empty ids); [left; injection E; auto|]. cbv zeta in E.
  destruct (match match gen with Some g => g :: ids | None => ids end with [] => true | _ :: _ => false end); [left; injection E; auto|].
  destruct (Nat.ltb 0 _); [left; injection E; auto|]. right. eexists. split; [exact E|]. destruct gen; reflexivity.
Qed.
Lemma discovery_ev_cases : forall client grants f alloc regions b base es r, mrk_discovery_ev client grants f alloc regions b base = (es, r) ->
  (es = [] /\ r = None) \/ build_ev b base None alloc (discovery_oks client grants f 0 regions) = (es, r).
Proof.
  intros client grants f alloc regions b base es r E. unfold mrk_discovery_ev in E. destruct regions as [|x rs]; [left; injection E; auto|].
  destruct (existsb is_empty (x :: rs)); [left; injection E; auto|]. right. exact E.
Qed.

Lemma call_cases : forall b base es r n, builder_call b base es r n -> (es = [] /\ r = None) \/
  exists g alloc oks, build_ev b base g alloc oks = (es, r) /\ (if with_gen g then 1 else 0) + length oks = n.
Proof.
  intros b base es r n [client grants alloc gen ids es' r' E|client grants f alloc regions es' r' E].
  - destruct (multi_ev_cases _ _ _ _ _ _ _ _ _ E) as [X|(g & X & W)]; [left; exact X|right]. exists g, alloc, (child_oks client grants 1 ids).
    split; [exact X|]. rewrite W, (proj2 (children_ok client grants ids 1)). destruct gen; reflexivity.
  - destruct (discovery_ev_cases _ _ _ _ _ _ _ _ _ E) as [X|X]; [left; exact X|right]. exists None, alloc, (discovery_oks client grants f 0 regions).
    split; [exact X|]. rewrite (proj2 (discovery_ok client grants f regions 0)). reflexivity.
Qed.

Lemma C69_fail_lemma : forall s ow b es n, ms_todo s = [] -> builder_call b (length (ms_heap s)) es None n ->
  exists s', runs s ow es s' ow /\ ms_todo s' = [] /\ ms_leaked s' = ms_leaked s /\ untouched s s' /\ (forall o, new_object s s' o -> ~ alive s' o).
Proof.
  intros s ow b es n T C. destruct (call_cases _ _ _ _ _ C) as [[-> _]|(g & alloc & oks & E & _)].
  - exists s. split; [apply runs_nil|]. split; [exact T|]. split; [reflexivity|]. split; [intros o _; reflexivity|intros o [A B]; contradiction].
  - eapply build_fails_lemma; eassumption.
Qed.
Lemma C69_made_lemma : forall s ow b es m n, ms_todo s = [] -> builder_call b (length (ms_heap s)) es (Some m) n ->
  exists s' ow' parts, runs s ow es s' ow' /\ ms_todo s' = [] /\ ms_leaked s' = ms_leaked s /\ untouched s s' /\
    nth_error (ms_heap s') m = Some (mk_obj 1 true parts) /\ length parts = n /\ (forall o, new_object s s' o <-> In o (m :: parts)) /\
    NoDup (m :: parts) /\ In (b, m) ow'.
Proof.
  intros s ow b es m n T C. destruct (call_cases _ _ _ _ _ C) as [[_ X]|(g & alloc & oks & E & N)]; [discriminate|].
  destruct (build_succeeds_lemma _ ow _ _ _ _ _ _ T E) as (s1 & ow1 & parts & R & T1 & LK & U & P & M & NO & ND & PL & PK).
  exists s1, ow1, parts. split; [exact R|]. split; [exact T1|]. split; [exact LK|]. split; [exact U|]. split; [exact M|]. split; [congruence|].
  split; [exact NO|]. split; [exact ND|]. eapply Permutation_in; [symmetry; exact P|now left].
Qed.
Lemma C69_outlive_lemma : forall s ow b t es m n, ms_todo s = [] -> builder_call b (length (ms_heap s)) es (Some m) n ->
  exists s' ow' parts steps, runs s ow (es ++ [RSend b t m] ++ release_ev t m steps) s' ow' /\ ms_todo s' = [] /\
    Permutation ow' (map (pair b) parts ++ ow) /\ length parts = n /\ NoDup parts /\ ~ alive s' m /\
    (forall o, In o parts -> new_object s s' o /\ nth_error (ms_heap s') o = Some (mk_obj 1 true [])).
Proof.
  intros s ow b t es m n T C. destruct (call_cases _ _ _ _ _ C) as [[_ X]|(g & alloc & oks & E & N)]; [discriminate|].
  destruct (outlive_lemma s ow b t g alloc oks es m T E) as (s' & ow' & parts & st & R & T' & _ & P & PL & ND & D & K).
  exists s', ow', parts, st. split; [exact R|]. split; [exact T'|]. split; [exact P|]. split; [congruence|]. split; [exact ND|]. split; [exact D|exact K].
Qed.

(** What BuildDiscovery puts together. *)
Lemma discovery_children_iff : forall client grants f regions i ks, (forall r, In r regions -> r <> []) ->
  (discovery_children client grants f i regions = Some ks <->
   (forall j r, nth_error regions j = Some r -> client (i + j) r = true) /\ ks = map (fun r => mk_mrk [] r f grants) regions).
Proof.
  intros client grants f. induction regions as [|r rs IH]; intros i ks NE; cbn [discovery_children map].
  - split; [intros X; injection X as <-; split; [intros [|j] r; discriminate|reflexivity]|intros [_ ->]; reflexivity].
  - assert (B : mrk_build_discovery grants r f = Some (mk_mrk [] r f grants)).
    { unfold mrk_build_discovery. destruct r as [|x r]; [exfalso; exact (NE [] (or_introl eq_refl) eq_refl)|reflexivity]. }
    rewrite B. specialize (fun ks => IH (S i) ks (fun r I => NE r (or_intror I))).
    destruct (client i r) eqn:C; cbn [negb].
    + destruct (discovery_children client grants f (S i) rs) as [ks'|] eqn:D.
      * destruct (proj1 (IH ks') eq_refl) as [A ->]. split.
        -- intros X. injection X as <-. split; [|reflexivity]. intros [|j] r' N; cbn in N; [injection N as <-; now rewrite Nat.add_0_r|].
           specialize (A j r' N). now rewrite <- Nat.add_succ_comm.
        -- intros [_ ->]. reflexivity.
      * split; [discriminate|]. intros [A ->]. exfalso. assert (X : None = Some (map (fun r => mk_mrk [] r f grants) rs)); [|discriminate].
        apply IH. split; [|reflexivity]. intros j r' N. specialize (A (S j) r' N). now rewrite <- Nat.add_succ_comm in A.
    + split; [discriminate|]. intros [A _]. specialize (A 0 r eq_refl). rewrite Nat.add_0_r in A. congruence.
Qed.
Lemma discovery_lemma : forall client grants f regions ks, mrk_multi_discovery client grants f regions = Some ks <->
  regions <> [] /\ ~ In [] regions /\ (forall i r, nth_error regions i = Some r -> client i r = true) /\
  ks = map (fun r => mk_mrk [] r f grants) regions.
Proof.
  intros client grants f regions ks. unfold mrk_multi_discovery. destruct regions as [|x rs]; [split; [discriminate|intros (X & _); congruence]|].
  destruct (existsb is_empty (x :: rs)) eqn:E.
  - split; [discriminate|]. intros (_ & N & _). apply existsb_exists in E. destruct E as (y & I & Y). apply is_empty_spec in Y. subst. contradiction.
  - assert (NE : ~ In [] (x :: rs)).
    { intros I. assert (X : existsb is_empty (x :: rs) = true) by (apply existsb_exists; exists []; auto). congruence. }
    rewrite (discovery_children_iff client grants f (x :: rs) 0 ks) by (intros r I ->; contradiction). cbn [Nat.add].
    split; [intros [A B]; split; [discriminate|split; [exact NE|split; [exact A|exact B]]]|intros (_ & _ & A & B); split; assumption].
Qed.
