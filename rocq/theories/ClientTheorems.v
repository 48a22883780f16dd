(** Further proofs about KMS clients: exceptions, when clients are kept, how many are made, agreement with KmsModel.v. *)
From Verif Require Import Base AlgModel EncCtxModel HdrModel FrameModel CryptoModel SessionModel KeyringModel KmsModel ClientModel WireSpec SessionSpec KeyringSpec BaseProofs KmsSpec ClientSpec ArnProofs KmsProofs MrkProofs ClientProofs.
From Coq Require Import ZArith Arith Lia.
Import List.
Open Scope list_scope.
Open Scope N_scope.

(** ** A generic traversal: what holds of every program made of [attempt]s *)
Section Walk.
  Variable A : Type.
  Variable W : prog A -> Prop.
  Variable okS : supplier -> Prop.
  Hypothesis W_attempt : forall s r rq none refused ok, okS s -> W none -> W refused -> (forall x, W (ok x)) -> W (attempt s r rq none refused ok).

  Lemma kms_dec_walk : forall k s ctx edks log fin, okS s -> (forall l r, W (fin l r)) -> W (kms_dec_p k s ctx log edks fin).
  Proof.
    intros k s ctx. induction edks as [|e edks IH]; intros log fin S F; cbn [kms_dec_p]; [apply F|].
    destruct (kms_select k e); [|apply IH; assumption]. cbv zeta. apply W_attempt; auto.
  Qed.
  Lemma kms_enc_walk : forall k s ev ctx plain ids i log edks tr fin, okS s -> (forall l e t r, W (fin l e t r)) -> W (kms_enc_p k s ev ctx plain i log ids edks tr fin).
  Proof.
    intros k s ev ctx plain. induction ids as [|id ids IH]; intros i log edks tr fin S F; cbn [kms_enc_p]; [apply F|].
    cbv zeta. apply W_attempt; auto. intros x. destruct (append_edk _ edks x) as [edks' [e|]]; auto.
  Qed.
  Lemma mrk_dec_walk : forall k s ctx len edks failed log fin, okS s -> (forall l r, W (fin l r)) -> W (mrk_dec_p k s ctx len failed log edks fin).
  Proof.
    intros k s ctx len. induction edks as [|e edks IH]; intros failed log fin S F; cbn [mrk_dec_p]; [apply F|].
    destruct (mrk_select k e) as [[r key]|]; [|apply IH; assumption]. cbv zeta. apply W_attempt; auto.
    intros x. destruct len; [|apply F]. destruct (_ || _)%bool; auto.
  Qed.
  Lemma use_walk : forall kr u fin, okS (supplier_of kr) -> W fin -> W (use_p kr u fin).
  Proof.
    intros [k s|k s] [ev ctx alg a|ev edks ctx alg a] fin S F; cbn [use_p supplier_of] in *.
    - unfold kms_on_encrypt_p. destruct (kk_ids k); [exact F|]. destruct (kv_fail ev 0); [exact F|]. destruct (kv_fail ev 1); [exact F|].
      destruct (ka_key a); [apply kms_enc_walk; auto|]. destruct (alg_lookup alg); [|exact F]. cbv zeta. apply W_attempt; auto.
      intros x. destruct (append_edk _ _ x) as [edks [e|]]; [exact F|]. destruct (kv_fail ev 3); [exact F|]. apply kms_enc_walk; auto.
    - apply kms_dec_walk; auto.
    - unfold mrk_on_encrypt_p. destruct (is_empty _); [exact F|]. destruct (kv_fail ev 0); [exact F|]. destruct (kv_fail ev 1); [exact F|].
      cbv zeta. destruct (ka_key a); [apply W_attempt; auto|]. destruct (alg_lookup alg); [|exact F]. apply W_attempt; auto.
    - unfold mrk_on_decrypt_p. destruct (negb _); [exact F|]. apply mrk_dec_walk; auto.
  Qed.
  Lemma uses_walk : forall krs us fin, Forall (fun kr => okS (supplier_of kr)) krs -> W fin -> W (uses_p krs us fin).
  Proof.
    intros krs. induction us as [|[i u] us IH]; intros fin L F; cbn [uses_p]; [exact F|]. destruct (nth_error krs i) as [kr|] eqn:N; [|auto].
    apply use_walk; [exact (nth_forall _ _ _ _ _ L N)|auto].
  Qed.

  Hypothesis okS_single : forall c, okS (SSingle c).
  Hypothesis okS_caching : forall n, okS (SCaching n).
  Hypothesis W_get : forall s r k, okS s -> (forall c f, W (k c f)) -> W (get_client s r k).
  Hypothesis W_new : forall r k, (forall c, W (k c)) -> W (New r k).
  Hypothesis W_mk : forall k, (forall n, W (k n)) -> W (MkCache k).

  Lemma children_walk : forall s g ids done fin, okS s -> Forall (fun kr => okS (supplier_of kr)) done -> W (fin None) ->
    (forall l, Forall (fun kr => okS (supplier_of kr)) l -> W (fin (Some l))) -> W (children_p s g ids done fin).
  Proof.
    intros s g. induction ids as [|id ids IH]; intros done fin S D F1 F2; cbn [children_p]; [auto|]. cbv zeta.
    destruct (is_empty _); [exact F1|]. apply W_get; [exact S|]. intros [c|] _; [|exact F1]. destruct (mrk_build g id); [|exact F1].
    apply IH; auto. apply Forall_app. split; [exact D|]. constructor; [apply okS_single|constructor].
  Qed.
  Lemma regions_walk : forall s g f regions done fin, okS s -> Forall (fun kr => okS (supplier_of kr)) done -> W (fin None) ->
    (forall l, Forall (fun kr => okS (supplier_of kr)) l -> W (fin (Some l))) -> W (regions_p s g f regions done fin).
  Proof.
    intros s g f. induction regions as [|r regions IH]; intros done fin S D F1 F2; cbn [regions_p]; [auto|].
    apply W_get; [exact S|]. intros [c|] _; [|exact F1]. destruct (mrk_build_discovery g r f); [|exact F1].
    apply IH; auto. apply Forall_app. split; [exact D|]. constructor; [apply okS_single|constructor].
  Qed.

  (** [early s]: the program of lines 380-382 with supplier [s] is all right. *)
  Definition sup_ok (b : builder) : Prop :=
    match b with BKms _ s _ _ _ | BDiscovery _ s _ _ | BMrk _ s _ _ | BMrkDiscovery _ s _ _ _ | BMulti s _ _ _ | BMultiDiscovery s _ _ _ | BMrkRegion _ s _ _ => forall x, s = Some x -> okS x end.
  Definition early (s : supplier) : Prop := forall r k, (forall c, W (k c)) -> W (get_client s r (fun c f => report f (k c))).

  Lemma build_supplier_walk : forall ids c sup fin, (forall s, sup = Some s -> okS s) -> (forall id s, ids = [id] -> c = None -> sup = Some s -> early s) ->
    (forall s, okS s -> W (fin s)) -> W (build_supplier ids c sup fin).
  Proof.
    intros ids c sup fin S E F. unfold build_supplier. destruct c as [c|]; [apply F, okS_single|].
    assert (D : W match sup with Some s => fin s | None => MkCache (fun n => fin (SCaching n)) end).
    { destruct sup as [s|]; [apply F, S; reflexivity|]. apply W_mk. intros n. apply F, okS_caching. }
    destruct ids as [|id [|id2 ids]]; try exact D. cbv zeta. destruct sup as [s|].
    - apply (E id s eq_refl eq_refl eq_refl). intros c. apply F, okS_single.
    - apply W_new. intros c. apply F, okS_single.
  Qed.
  Lemma build_walk : forall b fin, sup_ok b -> (forall s, asks_early b s -> early s) -> W (fin None) ->
    (forall l, Forall (fun kr => okS (supplier_of kr)) l -> W (fin (Some l))) -> W (build_p b fin).
  Proof.
    intros b fin S E F1 F2.
    assert (D : forall sup (k : supplier -> prog A), (forall s, sup = Some s -> okS s) -> (forall s, okS s -> W (k s)) -> W (or_default sup k)).
    { intros [s|] k X Y; cbn; [apply Y, X; reflexivity|]. apply W_mk. intros n. apply Y, okS_caching. }
    destruct b as [c sup g gen others|c sup g f|c sup g id|c sup g region f|sup g gen ids|sup g regions f|c sup g region]; cbn [build_p sup_ok] in *.
    - destruct (kms_build g gen others); [|exact F1]. apply build_supplier_walk; [exact S| |].
      + intros id s X -> ->. injection X as -> ->. apply E. reflexivity.
      + intros s X. apply F2. constructor; [exact X|constructor].
    - apply build_supplier_walk; [exact S|discriminate|]. intros s X. apply F2. constructor; [exact X|constructor].
    - destruct (mrk_build g id); [|exact F1]. apply build_supplier_walk; [exact S| |].
      + intros id' s X -> ->. apply E. reflexivity.
      + intros s X. apply F2. constructor; [exact X|constructor].
    - destruct c; [|exact F1]. destruct sup; [exact F1|]. destruct (mrk_build_discovery g region f); [|exact F1]. apply F2. constructor; [apply okS_single|constructor].
    - destruct (match gen with Some g0 => is_empty g0 | None => false end); [exact F1|]. destruct (existsb is_empty ids); [exact F1|].
      destruct (match match gen with Some g0 => g0 :: ids | None => ids end with [] => true | _ => false end); [exact F1|].
      destruct (Nat.ltb _ _); [exact F1|]. apply D; [exact S|]. intros s X. destruct gen as [g0|]; [|apply children_walk; auto].
      apply W_get; [exact X|]. intros [c|] _; [|exact F1]. destruct (mrk_build g g0); [|exact F1]. apply children_walk; auto.
      constructor; [apply okS_single|constructor].
    - destruct (match regions with [] => true | _ => false end); [exact F1|]. destruct (existsb is_empty regions); [exact F1|].
      apply D; [exact S|]. intros s X. apply regions_walk; auto.
    - destruct c; [|exact F1]. destruct sup; [exact F1|]. apply F2. constructor; [apply okS_single|constructor].
  Qed.
End Walk.

Definition task_sups (okS : supplier -> Prop) (t : task) : Prop := match t with TUse kr _ => okS (supplier_of kr) | TBuild b _ => sup_ok okS b end.

Lemma thread_walk : forall (W : prog unit -> Prop) (okS : supplier -> Prop), W (Ret tt) ->
  (forall s r rq none refused ok, okS s -> W none -> W refused -> (forall x, W (ok x)) -> W (attempt s r rq none refused ok)) ->
  (forall c, okS (SSingle c)) -> (forall n, okS (SCaching n)) -> (forall s r k, okS s -> (forall c f, W (k c f)) -> W (get_client s r k)) ->
  (forall r k, (forall c, W (k c)) -> W (New r k)) -> (forall k, (forall n, W (k n)) -> W (MkCache k)) ->
  forall ts, Forall (task_sups okS) ts -> Forall (fun t => match t with TUse _ _ => True | TBuild b _ => forall s, asks_early b s -> early unit W s end) ts -> W (thread ts).
Proof.
  intros W okS H0 HA H1 H2 HG HN HM. induction ts as [|t ts IH]; intros S E; cbn [thread]; [exact H0|].
  inversion S as [|? ? S1 S2]; inversion E as [|? ? E1 E2]; subst. destruct t as [kr u|b us]; cbn in S1, E1 |- *.
  - eapply use_walk; eauto.
  - eapply build_walk; eauto. intros l L. eapply uses_walk; eauto.
Qed.

(** ** No exception *)
Fixpoint nothrow {A} (p : prog A) : Prop :=
  match p with
  | Ret _ => True
  | Throw => False
  | Look _ _ k => forall o, nothrow (k o)
  | New _ k => forall c, nothrow (k c)
  | Ask _ _ k => forall c f, c = None \/ f <> CUnset -> nothrow (k c f)
  | Send _ _ k => forall o, nothrow (k o)
  | Put _ _ _ k => nothrow k
  | MkCache k => forall n, nothrow (k n)
  end.
Lemma report_nothrow : forall A f (k : prog A), f <> CUnset -> nothrow k -> nothrow (report f k).
Proof. intros A [| | |] k N K; cbn; auto; contradiction. Qed.
Lemma attempt_nothrow : forall A s r rq (none refused : prog A) ok, nothrow none -> nothrow refused -> (forall x, nothrow (ok x)) -> nothrow (attempt s r rq none refused ok).
Proof.
  intros A s r rq none refused ok N R K. destruct s as [[c|]|n|n]; cbn.
  - intros [x|]; cbn; auto.
  - exact N.
  - intros [c|]; cbn; [|intros c]; intros [x|]; cbn; auto.
  - intros [c|] f H; [|exact N]. intros [x|]; [|exact R]. apply report_nothrow; auto. destruct H; [discriminate|assumption].
Qed.
Lemma get_nothrow : forall A s r (k : option client -> callable -> prog A), (forall c f, nothrow (k c f)) -> nothrow (get_client s r k).
Proof. intros A [c|n|n] r k K; cbn; auto. intros [c|]; cbn; auto. Qed.
Lemma step_nothrow : forall A a (p : prog A) st p' st', polite a -> step a p st = (p', st') -> nothrow p -> nothrow p'.
Proof.
  intros A a p [m mk nx lg] p' st' P S W. destruct p as [x| |n r k|r k|n r k|c rq k|n r c k|k]; cbn in *; injection S as <- <-; auto.
Qed.
Lemma no_throw : forall k0 j0 tss sched ts st, Forall (Forall (never_asks_early is_custom)) tss -> Forall (fun x => polite (snd x)) sched ->
  crun sched (map thread tss) (cs_init k0 j0) = (ts, st) -> ~ In Throw ts.
Proof.
  intros k0 j0 tss sched ts st C P R I.
  destruct (crun_inv unit (fun p _ => nothrow p) (fun _ => True) polite) with (sched := sched) (ts := map thread tss) (st := (cs_init k0 j0)) (ts' := ts) (st' := st) as [_ J]; auto.
  - intros a p s p' s' HP S _ G. split; [exact Logic.I|]. split; [|auto]. exact (step_nothrow _ _ _ _ _ _ HP S G).
  - apply Forall_map. eapply Forall_impl; [|exact C]. intros l L. cbn beta.
    apply thread_walk with (okS := fun _ => True); cbn; auto.
    + intros. apply attempt_nothrow; auto.
    + intros. apply get_nothrow; auto.
    + apply Forall_forall. intros [kr u|[]] _; cbn; auto.
    + eapply Forall_impl; [|exact L]. intros [kr u|b us] H; cbn in *; [exact Logic.I|]. intros s E. specialize (H s E). intros r k K.
      destruct s as [c|n|n]; cbn in *; auto. { intros [c|]; cbn; auto. } contradiction.
  - rewrite Forall_forall in J. exact (J Throw I).
Qed.

(** ** Clients are kept after success *)
Fixpoint tracked {A} (U : client -> Prop) (p : prog A) : Prop :=
  match p with
  | Ret _ | Throw => True
  | Look _ _ k => forall o, tracked U (k o)
  | New _ k => forall c, tracked U (k c)
  | Ask _ _ k => forall c f, (match f with CStore _ _ _ => False | _ => True end) -> tracked U (k c f)
  | Send c _ k => tracked U (k None) /\ forall x, tracked (fun d => d = c \/ U d) (k (Some x))
  | Put _ _ c k => U c /\ tracked U k
  | MkCache k => forall n, tracked U (k n)
  end.
Lemma tracked_mono : forall A (p : prog A) (U V : client -> Prop), (forall c, U c -> V c) -> tracked U p -> tracked V p.
Proof.
  intros A. fix IH 1. intros p U V H T. destruct p as [x| |n r k|r k|n r k|c rq k|n r c k|k]; cbn in *; auto.
  - intros o. exact (IH _ _ _ H (T o)).
  - intros o. exact (IH _ _ _ H (T o)).
  - intros o f Z. exact (IH _ _ _ H (T o f Z)).
  - destruct T as [T1 T2]. split; [exact (IH _ _ _ H T1)|]. intros x. apply (IH _ (fun d => d = c \/ U d)); [|apply T2]. intros d [E|E]; auto.
  - destruct T as [T1 T2]. split; [auto|]. exact (IH _ _ _ H T2).
  - intros n. exact (IH _ _ _ H (T n)).
Qed.
Definition always {A} (p : prog A) : Prop := forall U, tracked U p.
Lemma attempt_always : forall A s r rq (none refused : prog A) ok, always none -> always refused -> (forall x, always (ok x)) -> always (attempt s r rq none refused ok).
Proof.
  intros A s r rq none refused ok N R K U. destruct s as [[c|]|n|n]; cbn.
  - split; [apply R|]. intros x. apply K.
  - apply N.
  - intros [c|]; cbn; [|intros c]; (split; [apply R|]); intros x; cbn; [apply K|]. split; [left; reflexivity|apply K].
  - intros [c|] f H; [|apply N]. split; [apply R|]. intros x. destruct f; cbn; auto; try apply K; contradiction.
Qed.
Definition answered (log : list cevent) (c : client) : Prop := exists rq x, In (ESend c rq (Some x)) log.
Definition inv3 (st : cstate) : Prop :=
  (forall n r c, cs_cache st n r = Some c -> In (EPut n c) (cs_log st)) /\
  (forall n c l1 l2, cs_log st = l1 ++ EPut n c :: l2 -> answered l1 c).

Lemma app_last_cases : forall A (l l1 l2 : list A) x y, l ++ [x] = l1 ++ y :: l2 -> (l2 = [] /\ l1 = l /\ y = x) \/ exists l2', l2 = l2' ++ [x] /\ l = l1 ++ y :: l2'.
Proof.
  intros A l l1 l2 x y E. destruct l2 as [|z l2] using rev_ind; [left|right].
  - apply app_inj_tail in E. destruct E as [-> ->]. auto.
  - clear IHl2. exists l2. rewrite app_comm_cons, app_assoc in E. apply app_inj_tail in E. destruct E as [-> ->]. auto.
Qed.

Lemma step_tracked : forall A a (p : prog A) st p' st', separate a -> step a p st = (p', st') -> inv3 st -> tracked (answered (cs_log st)) p ->
  inv3 st' /\ tracked (answered (cs_log st')) p' /\ forall q : prog A, tracked (answered (cs_log st)) q -> tracked (answered (cs_log st')) q.
Proof.
  intros A a p [m mk nx lg] p' st' SP S [I1 I2] W. cbn in *.
  assert (G : forall e c, answered lg c -> answered (lg ++ [e]) c).
  { intros e c (rq & x & Z). exists rq, x. apply in_or_app. auto. }
  assert (M : forall e (q : prog A), tracked (answered lg) q -> tracked (answered (lg ++ [e])) q).
  { intros e q. apply tracked_mono, G. }
  assert (I2' : forall e, (forall n c, e <> EPut n c) -> forall n c l1 l2, lg ++ [e] = l1 ++ EPut n c :: l2 -> answered l1 c).
  { intros e NE n c l1 l2 E. apply app_last_cases in E. destruct E as [(-> & -> & E)|(l2' & -> & E)]; [exfalso; exact (NE n c (eq_sym E))|exact (I2 _ _ _ _ E)]. }
  destruct p as [x| |n r k|r k|n r k|c rq k|n r c k|k]; cbn in *; injection S as <- <-; cbn.
  - split; [split; assumption|auto].
  - split; [split; assumption|auto].
  - split; [split; assumption|auto].
  - split; [split|]; [intros n0 r0 c0 E; apply in_or_app; left; eauto|apply I2'; discriminate|]. split; auto.
  - split; [split; assumption|]. split; [|auto]. apply W. exact SP.
  - destruct W as [W1 W2]. split; [split|]; [intros n0 r0 c0 E; apply in_or_app; left; eauto|apply I2'; discriminate|]. split; auto.
    destruct (rp_call a) as [x|]; [|apply M, W1]. eapply tracked_mono; [|apply (W2 x)]. cbn. intros d [->|H]; [|apply G, H].
    exists rq, x. apply in_or_app. right. left. reflexivity.
  - destruct W as [W1 W2]. split; [split|split; [apply M, W2|apply M]].
    + intros n' r' d E. apply bind_cache_cases in E. apply in_or_app. destruct E as [(-> & -> & ->)|E]; [right; left; reflexivity|left; eauto].
    + intros n' c' l1 l2 E. apply app_last_cases in E. destruct E as [(-> & -> & E)|(l2' & -> & E)]; [|exact (I2 _ _ _ _ E)]. injection E as -> ->. exact W1.
  - split; [split; assumption|auto].
Qed.

Lemma get_always : forall A s r (k : option client -> callable -> prog A), (forall c f, always (k c f)) -> always (get_client s r k).
Proof. intros A [c|n|n] r k K U; cbn; intros; try apply K. destruct o; cbn; intros; apply K. Qed.

Lemma kept_lemma : forall k0 j0 tss sched ts st, Forall (Forall (never_asks_early is_caching)) tss -> Forall (fun x => separate (snd x)) sched ->
  crun sched (map thread tss) (cs_init k0 j0) = (ts, st) -> forall n r c, cs_cache st n r = Some c -> kept_after_success (cs_log st) n c.
Proof.
  intros k0 j0 tss sched ts st C P R.
  destruct (crun_inv unit (fun p s => tracked (answered (cs_log s)) p) inv3 separate) with (sched := sched) (ts := map thread tss) (st := (cs_init k0 j0)) (ts' := ts) (st' := st) as [[J1 J2] _]; auto.
  - intros a p s p' s' HP S J G. exact (step_tracked _ _ _ _ _ _ HP S J G).
  - split; cbn; [discriminate|]. intros n c [|] l2 E; discriminate.
  - apply Forall_map. eapply Forall_impl; [|exact C]. intros l L. cbn beta.
    enough (K : always (thread l)) by apply K.
    apply thread_walk with (okS := fun _ => True); cbn; auto.
    + intros U. exact Logic.I.
    + intros. apply attempt_always; auto.
    + intros. apply get_always; auto.
    + intros r k K U c. apply K.
    + intros k K U n. apply K.
    + apply Forall_forall. intros [kr u|[]] _; cbn; auto.
    + eapply Forall_impl; [|exact L]. intros [kr u|b us] H; cbn in *; [exact Logic.I|]. intros s E. specialize (H s E). intros r k K U.
      destruct s as [c|n|n]; cbn in *; [apply K|exfalso; apply H; exact Logic.I|]. intros c [| | |] Z; cbn; try apply K; try exact Logic.I; contradiction.
  - intros n r c E. split; [exact (J1 n r c E)|]. intros l1 l2 X. exact (J2 n c l1 l2 X).
Qed.

Lemma stays_lemma : forall A sched (ts : list (prog A)) st ts' st' n r, crun sched ts st = (ts', st') -> cs_cache st n r <> None -> cs_cache st' n r <> None.
Proof.
  intros A. induction sched as [|[i a] sched IH]; intros ts st ts' st' n r R H; cbn in R; [injection R as <- <-; exact H|].
  destruct (nth_error ts i) as [p|]; [|eauto]. destruct (step a p st) as [p' st1] eqn:S. apply (IH _ _ _ _ n r R).
  destruct st as [m mk nx lg]. destruct p; cbn in S; injection S as <- <-; cbn in *; try exact H.
  unfold bind_cache. destruct (Nat.eqb n n0 && bytes_eqb r region)%bool; [discriminate|exact H].
Qed.

(** ** One client per region *)
Fixpoint orderly {A} (n : nat) (m : nat -> list N -> option client) (p : prog A) : Prop :=
  match p with
  | Ret _ | Throw => True
  | Look n' r k => n' = n /\ orderly n m (k (m n r))
  | New r k => m n r = None /\ forall c, cl_region c = r -> orderly n m (k c)
  | Ask _ _ _ => False
  | Send c _ k => (m n (cl_region c) = Some c \/ m n (cl_region c) = None) /\ orderly n m (k None) /\
      forall x, (m n (cl_region c) = Some c \/ exists k', k (Some x) = Put n (cl_region c) c k') /\ orderly n m (k (Some x))
  | Put n' r c k => n' = n /\ r = cl_region c /\ m n r = None /\ orderly n (bind_cache m n r c) k
  | MkCache _ => False
  end.
Definition proper_cache (n : nat) (m : nat -> list N -> option client) : Prop := forall r c, m n r = Some c -> cl_region c = r.
Definition orderly_any {A} (n : nat) (p : prog A) : Prop := forall m, proper_cache n m -> orderly n m p.

Lemma attempt_orderly : forall A n r rq (none refused : prog A) ok, orderly_any n none -> orderly_any n refused -> (forall x, orderly_any n (ok x)) ->
  orderly_any n (attempt (SCaching n) r rq none refused ok).
Proof.
  intros A n r rq none refused ok N R K m P. cbn. split; [reflexivity|]. destruct (m n r) as [c|] eqn:E; cbn.
  - rewrite (P r c E). split; [left; exact E|]. split; [apply R, P|]. intros x. split; [left; exact E|apply K, P].
  - split; [exact E|]. intros c CR. rewrite CR. split; [right; exact E|]. split; [apply R, P|]. intros x.
    split; [right; eauto|]. split; [reflexivity|]. split; [reflexivity|]. split; [exact E|]. apply K.
    intros r' c' E'. apply bind_cache_cases in E'. destruct E' as [(_ & -> & ->)|E']; [exact CR|apply P, E'].
Qed.

Definition compatible (c : client) (e : cevent) : Prop :=
  match e with ENew c' => cl_region c' <> cl_region c | ESend c' _ _ => cl_region c' = cl_region c -> c' = c | EPut _ _ => True end.
Lemma one_client_app : forall log e, one_client log -> (forall c rq x, In (ESend c rq (Some x)) log -> compatible c e) -> one_client (log ++ [e]).
Proof.
  intros log e O H l1 c rq x l2 E e' I. apply app_last_cases in E. destruct E as [(-> & _)|(l2' & -> & E)]; [destruct I|].
  apply in_app_or in I. destruct I as [I|[<-|[]]]; [exact (O _ _ _ _ _ E _ I)|]. apply (H c rq x). rewrite E. apply in_or_app. right. left. reflexivity.
Qed.

Definition inv4 {A} (n : nat) (p : prog A) (st : cstate) : Prop :=
  proper_cache n (cs_cache st) /\ orderly n (cs_cache st) p /\ one_client (cs_log st) /\
  forall c rq x, In (ESend c rq (Some x)) (cs_log st) -> cs_cache st n (cl_region c) = Some c \/ exists k, p = Put n (cl_region c) c k.

Lemma step_orderly : forall A n a (p : prog A) st p' st', step a p st = (p', st') -> inv4 n p st -> inv4 n p' st'.
Proof.
  intros A n a p [m mk nx lg] p' st' S (I1 & I2 & I3 & I4). unfold inv4 in *. cbn in *.
  destruct p as [x| |n0 r k|r k|n0 r k|c rq k|n0 r c k|k]; cbn in *; injection S as <- <-; cbn.
  - auto.
  - auto.
  - destruct I2 as [-> I2]. repeat split; auto. intros c rq x Z. destruct (I4 c rq x Z) as [H|[k' H]]; [auto|discriminate].
  - destruct I2 as [I2 I5]. split; [exact I1|]. split; [apply I5; reflexivity|]. split.
    + apply one_client_app; [exact I3|]. intros c rq x Z. cbn. destruct (I4 c rq x Z) as [H|[k' H]]; [|discriminate]. intros ->. congruence.
    + intros c rq x Z. apply in_app_or in Z. destruct Z as [Z|[Z|[]]]; [|discriminate]. destruct (I4 c rq x Z) as [H|[k' H]]; [auto|discriminate].
  - destruct I2.
  - destruct I2 as (I2 & I5 & I6). split; [exact I1|]. split; [destruct (rp_call a) as [x|]; [apply I6|exact I5]|]. split.
    + apply one_client_app; [exact I3|]. intros d rq' x Z. cbn. destruct (I4 d rq' x Z) as [H|[k' H]]; [|discriminate]. intros E. rewrite E in I2.
      destruct I2; congruence.
    + intros d rq' x Z. apply in_app_or in Z. destruct Z as [Z|[Z|[]]].
      * destruct (I4 d rq' x Z) as [H|[k' H]]; [auto|discriminate].
      * injection Z as <- _ E. rewrite E. exact (proj1 (I6 x)).
  - destruct I2 as (-> & -> & I2 & I5). split; [|split; [exact I5|split]].
    + intros r' c' E. apply bind_cache_cases in E. destruct E as [(_ & -> & ->)|E]; [reflexivity|apply I1, E].
    + apply one_client_app; [exact I3|]. intros d rq' x Z. exact Logic.I.
    + intros d rq' x Z. apply in_app_or in Z. destruct Z as [Z|[Z|[]]]; [|discriminate]. left. unfold bind_cache. rewrite Nat.eqb_refl. cbn.
      destruct (bytes_eqb (cl_region d) (cl_region c)) eqn:B.
      * apply bytes_eqb_spec in B. destruct (I4 d rq' x Z) as [H|[k' H]]; [congruence|]. injection H as _ <- _. reflexivity.
      * destruct (I4 d rq' x Z) as [H|[k' H]]; [exact H|]. injection H as _ <- _. rewrite bytes_eqb_refl in B. discriminate.
  - destruct I2.
Qed.

Lemma crun_one : forall A (P : prog A -> cstate -> Prop), (forall a p st p' st', step a p st = (p', st') -> P p st -> P p' st') ->
  forall sched p st ts' st', crun sched [p] st = (ts', st') -> P p st -> exists p', ts' = [p'] /\ P p' st'.
Proof.
  intros A P K. induction sched as [|[i a] sched IH]; intros p st ts' st' R H; cbn [crun] in R; [injection R as <- <-; eauto|].
  destruct i as [|i]; cbn in R.
  - destruct (step a p st) as [p1 st1] eqn:S. exact (IH _ _ _ _ R (K _ _ _ _ _ S H)).
  - destruct i; cbn in R; exact (IH _ _ _ _ R H).
Qed.

Lemma one_client_lemma : forall k0 j0 n ts sched ps st, Forall (uses_supplier (SCaching n)) ts -> crun sched [thread ts] (cs_init k0 j0) = (ps, st) -> one_client (cs_log st).
Proof.
  intros k0 j0 n ts sched ps st U R.
  destruct (crun_one unit (inv4 n)) with (sched := sched) (p := thread ts) (st := (cs_init k0 j0)) (ts' := ps) (st' := st) as (p' & _ & _ & _ & O & _); auto.
  - intros a p s p' s' S I. exact (step_orderly _ _ _ _ _ _ _ S I).
  - split; [intros r c E; discriminate|]. split.
    + enough (K : orderly_any n (thread ts)) by (apply K; intros r c E; discriminate).
      revert U. clear. induction ts as [|[kr u|b us] ts IH]; intros U; inversion U as [|? ? U1 U2]; subst; cbn [thread].
      * intros m _. exact Logic.I.
      * apply use_walk with (W := orderly_any n) (okS := fun s => s = SCaching n); auto. intros s r rq none refused ok ->. apply attempt_orderly.
      * destruct U1.
    + cbn. split; [intros [|] ? ? ? ? E; discriminate|intros c rq x []].
Qed.

(** ** Builders given a client or a single key *)
Fixpoint only {A} (c : client) (p : prog A) : Prop :=
  match p with
  | Ret _ | Throw => True
  | Send c' _ k => c' = c /\ forall o, only c (k o)
  | _ => False
  end.
Lemma uses_only : forall c krs us, Forall (fun kr => supplier_of kr = SSingle (Some c)) krs -> only c (uses_p krs us (Ret tt)).
Proof.
  intros c krs us H. apply (uses_walk unit (only c) (fun s => s = SSingle (Some c))).
  - intros s r rq none refused ok -> N R K. cbn. split; [reflexivity|]. intros [x|]; cbn; auto.
  - exact H.
  - exact Logic.I.
Qed.
Definition inv6 {A} (c : client) (cs : list client) (p : prog A) (st : cstate) : Prop := only c p /\ all_sent_with c (cs_log st) /\ made (cs_log st) = cs.
Lemma step_only : forall A c cs a (p : prog A) st p' st', step a p st = (p', st') -> inv6 c cs p st -> inv6 c cs p' st'.
Proof.
  intros A c cs a p [m mk nx lg] p' st' S (I1 & I2 & I3). unfold inv6 in *. cbn in *.
  destruct p as [x| |n0 r k|r k|n0 r k|c0 rq k|n0 r c0 k|k]; cbn in *; injection S as <- <-; cbn; try contradiction; auto.
  destruct I1 as [-> I1]. split; [apply I1|]. split.
  - intros c' rq' o Z. apply in_app_or in Z. destruct Z as [Z|[Z|[]]]; [exact (I2 _ _ _ Z)|]. injection Z as <- _ _. reflexivity.
  - unfold made in *. rewrite flat_map_app, I3. cbn. apply app_nil_r.
Qed.

Lemma given_client_lemma : forall k0 j0 b c us sched ps st, given_client b c -> crun sched [thread [TBuild b us]] (cs_init k0 j0) = (ps, st) ->
  all_sent_with c (cs_log st) /\ made (cs_log st) = [].
Proof.
  intros k0 j0 b c us sched ps st G R.
  destruct (crun_one unit (inv6 c [])) with (sched := sched) (p := thread [TBuild b us]) (st := (cs_init k0 j0)) (ts' := ps) (st' := st) as (p' & _ & _ & O); auto.
  - intros a p s p' s' S I. exact (step_only _ _ _ _ _ _ _ _ S I).
  - split; [|split; [intros ? ? ? []|reflexivity]]. cbn [thread].
    destruct b as [[c'|] sup g gen others|[c'|] sup g f|[c'|] sup g id|[c'|] sup g region f|sup g gen ids|sup g regions f|[c'|] sup g region]; cbn in G; try contradiction; subst c'; cbn [build_p build_supplier].
    + destruct (kms_build g gen others); [|exact Logic.I]. apply uses_only. repeat constructor.
    + apply uses_only. repeat constructor.
    + destruct (mrk_build g id); [|exact Logic.I]. apply uses_only. repeat constructor.
    + destruct sup; [exact Logic.I|]. destruct (mrk_build_discovery g region f); [|exact Logic.I]. apply uses_only. repeat constructor.
    + destruct sup; [exact Logic.I|]. apply uses_only. repeat constructor.
Qed.

Lemma one_key_lemma : forall k0 j0 b us sched ps st, only_key b -> crun sched [thread [TBuild b us]] (cs_init k0 j0) = (ps, st) ->
  cs_log st = [] \/ exists c, all_sent_with c (cs_log st) /\ made (cs_log st) = [c].
Proof.
  intros k0 j0 b us sched ps st G R.
  set (P := fun (p : prog unit) (s : cstate) => (cs_log s = [] /\ (p = Ret tt \/ exists r k, p = New r k /\ forall c, only c (k c))) \/ exists c, inv6 c [c] p s).
  destruct (crun_one unit P) with (sched := sched) (p := thread [TBuild b us]) (st := (cs_init k0 j0)) (ts' := ps) (st' := st) as (p' & _ & [[E _]|(c & _ & E)]); auto.
  - intros a p s p' s' S [[E [->|(r & k & -> & K)]]|(c & I)].
    + destruct s as [m mk nx lg]; cbn in S. injection S as <- <-. left. auto.
    + destruct s as [m mk nx lg]; cbn in E; subst lg. cbn in S. injection S as <- <-. right. exists (mk_client nx r). split; [apply K|]. split; [|reflexivity].
      intros c' rq o [Z|[]]. discriminate.
    + right. exists c. exact (step_only _ _ _ _ _ _ _ _ S I).
  - left. split; [reflexivity|]. cbn [thread].
    destruct b as [[c'|] [sup|] g gen [|o others]|[c'|] sup g f|[c'|] [sup|] g id|[c'|] sup g region f|sup g gen ids|sup g regions f|[c'|] sup g region]; cbn in G; try contradiction; cbn [build_p build_supplier].
    + destruct (kms_build g gen []); [|left; reflexivity]. right. eexists _, _. split; [reflexivity|]. intros c. apply uses_only. repeat constructor.
    + destruct (mrk_build g id); [|left; reflexivity]. right. eexists _, _. split; [reflexivity|]. intros c. apply uses_only. repeat constructor.
  - right. exists c. exact E.
Qed.

(** ** Agreement with KmsModel.v *)
Lemma attempt_yields : forall A (Q : A -> Prop) s r rq (none refused : prog A) ok, yields Q none -> yields Q refused -> (forall x, yields Q (ok x)) -> yields Q (attempt s r rq none refused ok).
Proof.
  intros A Q s r rq none refused ok N R K. destruct s as [[c|]|n|n]; cbn.
  - intros [x|]; cbn; auto.
  - exact N.
  - intros [c|]; cbn; [|intros c]; intros [x|]; cbn; auto.
  - intros [c|] f; [|exact N]. intros [x|]; [|exact R]. destruct f; cbn; auto.
Qed.

Definition agree (i : nat) (cl cl' : nat -> list N -> bool) (ca ca' : nat -> kms_request -> option kms_result) : Prop :=
  forall j, (i <= j)%nat -> (forall r, cl j r = cl' j r) /\ forall q, ca j q = ca' j q.
Lemma agree_S : forall i cl cl' ca ca', agree i cl cl' ca ca' -> agree (S i) cl cl' ca ca'.
Proof. intros i cl cl' ca ca' H j L. apply H. lia. Qed.
(** Answers for attempt [i], then those given. *)
Definition first {B} (i : nat) (x : B) (f : nat -> B) : nat -> B := fun j => if Nat.eqb j i then x else f j.
Lemma first_agree : forall i b o cl ca, agree (S i) (first i (fun _ => b) cl) cl (first i (fun _ => o) ca) ca.
Proof. intros i b o cl ca j L. unfold first. replace (Nat.eqb j i) with false by (symmetry; apply Nat.eqb_neq; lia). auto. Qed.
Lemma first_at : forall B i (x : B) f, first i x f i = x. Proof. intros. unfold first. rewrite Nat.eqb_refl. reflexivity. Qed.

Lemma kms_dec_agree : forall k ev ctx edks i cl cl' ca ca', agree i cl cl' ca ca' ->
  kms_dec_loop k (with_answers ev cl ca) ctx i edks = kms_dec_loop k (with_answers ev cl' ca') ctx i edks.
Proof.
  intros k ev ctx. induction edks as [|e edks IH]; intros i cl cl' ca ca' H; cbn; [reflexivity|].
  rewrite (IH (S i) cl cl' ca ca') by (apply agree_S, H). destruct (kms_select k e) as [r|]; [|reflexivity].
  destruct (H i (le_n i)) as [H1 H2]. rewrite H1, H2. reflexivity.
Qed.
Lemma kms_dec_yields : forall A (Q : A -> Prop) k s ev ctx edks i log fin,
  (forall cl ca l r, kms_dec_loop k (with_answers ev cl ca) ctx i edks = (l, r) -> yields Q (fin (log ++ l) r)) -> yields Q (kms_dec_p k s ctx log edks fin).
Proof.
  intros A Q k s ev ctx. induction edks as [|e edks IH]; intros i log fin F; cbn [kms_dec_p].
  - specialize (F (fun _ _ => true) (fun _ _ => None) [] DcNone eq_refl). rewrite app_nil_r in F. exact F.
  - destruct (kms_select k e) as [r|] eqn:S.
    2:{ apply (IH (Datatypes.S i)). intros cl ca l x E. apply (F cl ca). cbn. rewrite S. exact E. }
    cbv zeta. apply attempt_yields.
    + apply (IH (Datatypes.S i)). intros cl ca l x E. apply (F (first i (fun _ => false) cl) (first i (fun _ => None) ca)). cbn. rewrite S, !first_at. cbn.
      rewrite (kms_dec_agree k ev ctx edks (Datatypes.S i) _ cl _ ca); [exact E|apply first_agree].
    + apply (IH (Datatypes.S i)). intros cl ca l x E. rewrite <- app_assoc. cbn [app]. apply (F (first i (fun _ => true) cl) (first i (fun _ => None) ca)). cbn. rewrite S, !first_at. cbn.
      rewrite (kms_dec_agree k ev ctx edks (Datatypes.S i) _ cl _ ca); [rewrite E; reflexivity|apply first_agree].
    + intros x. apply (F (fun _ _ => true) (fun _ _ => Some x)). cbn. rewrite S. cbn. reflexivity.
Qed.

Lemma kms_decrypt_yields : forall k s ev edks ctx alg a,
  yields (as_modelled ev (fun ev' => kms_on_decrypt k ev' edks ctx alg a)) (kms_on_decrypt_p k s ev edks ctx alg a (fun log r => Ret (log, r))).
Proof.
  intros k s ev edks ctx alg a. unfold kms_on_decrypt_p. apply (kms_dec_yields _ _ k s ev ctx edks 0). intros cl ca l r E. cbn.
  exists cl, ca. unfold kms_on_decrypt. rewrite E. reflexivity.
Qed.

Lemma kms_enc_agree : forall k ev ctx plain ids i edks tr cl cl' ca ca', agree i cl cl' ca ca' ->
  kms_enc_loop k (with_answers ev cl ca) ctx plain i ids edks tr = kms_enc_loop k (with_answers ev cl' ca') ctx plain i ids edks tr.
Proof.
  intros k ev ctx plain. induction ids as [|id ids IH]; intros i edks tr cl cl' ca ca' H; cbn [kms_enc_loop]; [reflexivity|]. cbv zeta. cbn [with_answers kv_client kv_call kv_fail kv_record].
  destruct (H i (le_n i)) as [H1 H2]. rewrite H1, H2. destruct (negb (cl' i (parse_region id))); [reflexivity|]. destruct (ca' i _) as [x|]; [|reflexivity].
  destruct (append_edk _ edks x) as [edks' [e|]]; [reflexivity|].
  rewrite (IH (S i) _ _ cl cl' ca ca') by (apply agree_S, H). reflexivity.
Qed.
Lemma kms_enc_yields : forall A (Q : A -> Prop) k s ev ctx plain ids i log edks tr fin,
  (forall cl ca l e t r, kms_enc_loop k (with_answers ev cl ca) ctx plain i ids edks tr = (l, (e, t, r)) -> yields Q (fin (log ++ l) e t r)) ->
  yields Q (kms_enc_p k s ev ctx plain i log ids edks tr fin).
Proof.
  intros A Q k s ev ctx plain. induction ids as [|id ids IH]; intros i log edks tr fin F; cbn [kms_enc_p].
  - specialize (F (fun _ _ => true) (fun _ _ => None) [] edks tr KrOk eq_refl). rewrite app_nil_r in F. exact F.
  - cbv zeta. apply attempt_yields.
    + specialize (F (fun _ _ => false) (fun _ _ => None) [] edks tr (KrErr E_BAD_STATE) eq_refl). rewrite app_nil_r in F. exact F.
    + apply (F (fun _ _ => true) (fun _ _ => None)). reflexivity.
    + intros x. destruct (append_edk (kv_fail ev (4 + i)) edks x) as [edks' [e|]] eqn:AE.
      * apply (F (fun _ _ => true) (fun _ _ => Some x)). cbn [kms_enc_loop]. cbv zeta. cbn [with_answers kv_client kv_call kv_fail kv_record negb]. rewrite AE. reflexivity.
      * apply (IH (S i)). intros cl ca l e t r E. rewrite <- app_assoc. cbn [app]. apply (F (first i (fun _ => true) cl) (first i (fun _ => Some x) ca)).
        cbn [kms_enc_loop]. cbv zeta. cbn [with_answers kv_client kv_call kv_fail kv_record]. rewrite !first_at. cbn [negb]. rewrite AE.
        change (mk_kms_env (first i (fun _ : list N => true) cl) (first i (fun _ : kms_request => Some x) ca) (kv_fail ev) (kv_edks ev) (kv_trace ev) (kv_record ev) (kv_meta ev))
          with (with_answers ev (first i (fun _ : list N => true) cl) (first i (fun _ : kms_request => Some x) ca)).
        rewrite (kms_enc_agree k ev ctx plain ids (S i) _ _ _ cl _ ca); [rewrite E; reflexivity|apply first_agree].
Qed.

Lemma kms_encrypt_yields : forall k s ev ctx alg a,
  yields (as_modelled ev (fun ev' => kms_on_encrypt k ev' ctx alg a)) (kms_on_encrypt_p k s ev ctx alg a (fun log r => Ret (log, r))).
Proof.
  intros k s ev ctx alg a. unfold kms_on_encrypt_p. set (T := fun (_ : nat) (_ : list N) => true). set (U := fun (_ : nat) (_ : kms_request) => @None kms_result).
  destruct (kk_ids k) as [|gen others] eqn:I; [exists T, U; unfold kms_on_encrypt; rewrite I; reflexivity|].
  destruct (kv_fail ev 0) as [e|] eqn:F0; [exists T, U; unfold kms_on_encrypt; rewrite I; cbn; rewrite F0; reflexivity|].
  destruct (kv_fail ev 1) as [e|] eqn:F1; [exists T, U; unfold kms_on_encrypt; rewrite I; cbn; rewrite F0, F1; reflexivity|].
  destruct (ka_key a) as [b|] eqn:KA.
  - apply kms_enc_yields. intros cl ca l e t r E. exists cl, ca. unfold kms_on_encrypt. rewrite I. cbn [with_answers kv_fail]. rewrite F0, F1, KA. cbn [app].
    change (mk_kms_env cl ca (kv_fail ev) (kv_edks ev) (kv_trace ev) (kv_record ev) (kv_meta ev)) with (with_answers ev cl ca). rewrite E. reflexivity.
  - destruct (alg_lookup alg) as [p|] eqn:AL; [|exists T, U; unfold kms_on_encrypt; rewrite I; cbn; rewrite F0, F1, KA, AL; reflexivity].
    cbv zeta. apply attempt_yields.
    + exists (fun _ _ => false), U. unfold kms_on_encrypt; rewrite I; cbn; rewrite F0, F1, KA, AL. reflexivity.
    + exists T, U. unfold kms_on_encrypt; rewrite I; cbn; rewrite F0, F1, KA, AL. reflexivity.
    + intros x. destruct (append_edk (kv_fail ev 2) [] x) as [edks [e|]] eqn:AE.
      * exists T, (fun _ _ => Some x). unfold kms_on_encrypt; rewrite I. cbn [with_answers kv_fail kv_client kv_call]. rewrite F0, F1, KA, AL. cbn [T negb]. rewrite AE. reflexivity.
      * destruct (kv_fail ev 3) as [e|] eqn:F3.
        -- exists T, (fun _ _ => Some x). unfold kms_on_encrypt; rewrite I. cbn [with_answers kv_fail kv_client kv_call]. rewrite F0, F1, KA, AL. cbn [T negb]. rewrite AE, F3. reflexivity.
        -- apply kms_enc_yields. intros cl ca l e t r E. exists (first 0 (fun _ => true) cl), (first 0 (fun _ => Some x) ca).
           unfold kms_on_encrypt. rewrite I. cbn [with_answers kv_fail kv_client kv_call kv_meta kv_record]. rewrite F0, F1, KA, AL. cbv zeta. rewrite !first_at. cbn [negb]. rewrite AE, F3.
           change (mk_kms_env (first 0 (fun _ : list N => true) cl) (first 0 (fun _ : kms_request => Some x) ca) (kv_fail ev) (kv_edks ev) (kv_trace ev) (kv_record ev) (kv_meta ev))
             with (with_answers ev (first 0 (fun _ : list N => true) cl) (first 0 (fun _ : kms_request => Some x) ca)).
           rewrite (kms_enc_agree k ev ctx _ others 1 _ _ _ cl _ ca) by apply first_agree. rewrite E. reflexivity.
Qed.

Lemma mrk_dec_agree : forall k ev ctx len edks failed i cl cl' ca ca', agree i cl cl' ca ca' ->
  mrk_dec_loop k (with_answers ev cl ca) ctx len failed i edks = mrk_dec_loop k (with_answers ev cl' ca') ctx len failed i edks.
Proof.
  intros k ev ctx len. induction edks as [|e edks IH]; intros failed i cl cl' ca ca' H; cbn [mrk_dec_loop]; [reflexivity|]. cbv zeta. cbn [with_answers kv_client kv_call].
  pose proof (fun b => IH b (S i) cl cl' ca ca' (agree_S _ _ _ _ _ H)) as IH'. unfold with_answers in IH' |- *.
  destruct (mrk_select k e) as [[r key]|]; [|apply IH'].
  destruct (H i (le_n i)) as [H1 H2]. rewrite H1, H2. destruct (negb (cl' i r)); [apply IH'|]. destruct (ca' i _) as [x|]; [|rewrite IH'; reflexivity].
  destruct len; [|reflexivity]. destruct (_ || _)%bool; [rewrite IH'; reflexivity|reflexivity].
Qed.
Lemma mrk_dec_yields : forall A (Q : A -> Prop) k s ev ctx len edks failed i log fin,
  (forall cl ca l r, mrk_dec_loop k (with_answers ev cl ca) ctx len failed i edks = (l, r) -> yields Q (fin (log ++ l) r)) -> yields Q (mrk_dec_p k s ctx len failed log edks fin).
Proof.
  intros A Q k s ev ctx len. induction edks as [|e edks IH]; intros failed i log fin F; cbn [mrk_dec_p].
  - specialize (F (fun _ _ => true) (fun _ _ => None) [] (MkNone failed) eq_refl). rewrite app_nil_r in F. exact F.
  - destruct (mrk_select k e) as [[r key]|] eqn:S.
    2:{ apply (IH failed (Datatypes.S i)). intros cl ca l x E. apply (F cl ca). cbn. rewrite S. exact E. }
    cbv zeta. apply attempt_yields.
    + apply (IH failed (Datatypes.S i)). intros cl ca l x E. apply (F (first i (fun _ => false) cl) (first i (fun _ => None) ca)). cbn. rewrite S, !first_at. cbn.
      rewrite (mrk_dec_agree k ev ctx len edks failed (Datatypes.S i) _ cl _ ca); [exact E|apply first_agree].
    + apply (IH _ (Datatypes.S i)). intros cl ca l x E. rewrite <- app_assoc. cbn [app]. apply (F (first i (fun _ => true) cl) (first i (fun _ => None) ca)). cbn. rewrite S, !first_at. cbn.
      rewrite (mrk_dec_agree k ev ctx len edks _ (Datatypes.S i) _ cl _ ca); [rewrite E; reflexivity|apply first_agree].
    + intros x. destruct len as [n|].
      * destruct (negb (Nlen (kx_plain x) =? n) || negb (bytes_eqb (kx_key x) key))%bool eqn:T.
        -- apply (IH true (Datatypes.S i)). intros cl ca l y E. rewrite <- app_assoc. cbn [app]. apply (F (first i (fun _ => true) cl) (first i (fun _ => Some x) ca)). cbn. rewrite S, !first_at. cbn.
           rewrite T. rewrite (mrk_dec_agree k ev ctx (Some n) edks true (Datatypes.S i) _ cl _ ca); [rewrite E; reflexivity|apply first_agree].
        -- apply (F (fun _ _ => true) (fun _ _ => Some x)). cbn. rewrite S. cbn. rewrite T. reflexivity.
      * apply (F (fun _ _ => true) (fun _ _ => Some x)). cbn. rewrite S. cbn. reflexivity.
Qed.
Lemma mrk_decrypt_yields : forall k s ev edks ctx alg a,
  yields (as_modelled ev (fun ev' => mrk_on_decrypt k ev' edks ctx alg a)) (mrk_on_decrypt_p k s ev edks ctx alg a (fun log r => Ret (log, r))).
Proof.
  intros k s ev edks ctx alg a. unfold mrk_on_decrypt_p, mrk_on_decrypt. destruct (negb _); [exists (fun _ _ => true), (fun _ _ => None); reflexivity|].
  cbv zeta. apply (mrk_dec_yields _ _ k s ev ctx _ edks false 0). intros cl ca l r E. cbn.
  exists cl, ca. rewrite E. reflexivity.
Qed.
Lemma mrk_encrypt_yields : forall k s ev ctx alg a,
  yields (as_modelled ev (fun ev' => mrk_on_encrypt k ev' ctx alg a)) (mrk_on_encrypt_p k s ev ctx alg a (fun log r => Ret (log, r))).
Proof.
  intros k s ev ctx alg a. unfold mrk_on_encrypt_p, mrk_on_encrypt. set (T := fun (_ : nat) (_ : list N) => true). set (U := fun (_ : nat) (_ : kms_request) => @None kms_result).
  destruct (is_empty _); [exists T, U; reflexivity|].
  destruct (kv_fail ev 0) as [e|] eqn:F0; [exists T, U; cbn; rewrite F0; reflexivity|].
  destruct (kv_fail ev 1) as [e|] eqn:F1; [exists T, U; cbn; rewrite F0, F1; reflexivity|].
  cbv zeta. destruct (ka_key a) as [b|] eqn:KA.
  - apply attempt_yields.
    + exists (fun _ _ => false), U. cbn. rewrite F0, F1. reflexivity.
    + exists T, U. cbn. rewrite F0, F1. reflexivity.
    + intros x. exists T, (fun _ _ => Some x). cbn [with_answers kv_fail kv_client kv_call kv_record kv_meta]. rewrite F0, F1. cbn [T negb]. destruct (negb _); [reflexivity|].
      destruct (append_edk _ _ _) as [edks [e|]]; reflexivity.
  - destruct (alg_lookup alg) as [p|] eqn:AL; [|exists T, U; cbn; rewrite F0, F1; reflexivity]. apply attempt_yields.
    + exists (fun _ _ => false), U. cbn. rewrite F0, F1. reflexivity.
    + exists T, U. cbn. rewrite F0, F1. reflexivity.
    + intros x. exists T, (fun _ _ => Some x). cbn [with_answers kv_fail kv_client kv_call kv_record kv_meta]. rewrite F0, F1. cbn [T negb].
      destruct (negb (_ =? _)); [reflexivity|]. destruct (negb _); [reflexivity|].
      destruct (append_edk _ _ _) as [edks [e|]]; [reflexivity|]. destruct (kv_fail ev 3); reflexivity.
Qed.
