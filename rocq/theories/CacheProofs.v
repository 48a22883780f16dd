(** Invariants of the local cache. *)
From Coq Require Import Permutation ZArith ZifyBool ZifyNat ZifyN.
From Verif Require Import Base EncCtxModel HdrModel CryptoModel SessionModel CacheModel CacheSpec
  BaseProofs.
Open Scope N_scope.

(** * Lists *)

Definition memb (D : list nat) (p : nat) : bool := existsb (Nat.eqb p) D.
Lemma memb_spec : forall D p, memb D p = true <-> In p D.
Proof.
  unfold memb. intros. rewrite existsb_exists. split.
  - intros (x & H & E). apply Nat.eqb_eq in E. now subst.
  - intros H. exists p. split; auto. apply Nat.eqb_refl.
Qed.
Lemma memb_false : forall D p, memb D p = false <-> ~ In p D.
Proof.
  intros. rewrite <- memb_spec. destruct (memb D p); split; congruence.
Qed.
Lemma memb_app : forall A B p, memb (A ++ B) p = memb A p || memb B p.
Proof. intros. unfold memb. apply existsb_app. Qed.

(** The elements of [l] that are not in [D]. *)
Definition minus (l D : list nat) : list nat := filter (fun p => negb (memb D p)) l.
Definition minus_snd (m : list (list N * nat)) (D : list nat) : list (list N * nat) :=
  filter (fun x => negb (memb D (snd x))) m.

Lemma in_minus : forall l D p, In p (minus l D) <-> In p l /\ ~ In p D.
Proof.
  intros. unfold minus. rewrite filter_In, negb_true_iff, memb_false. tauto.
Qed.
Lemma in_minus_snd : forall m D x, In x (minus_snd m D) <-> In x m /\ ~ In (snd x) D.
Proof.
  intros. unfold minus_snd. rewrite filter_In, negb_true_iff, memb_false. tauto.
Qed.
Lemma filter_filter : forall {A} (f g : A -> bool) l,
  filter f (filter g l) = filter (fun x => g x && f x) l.
Proof.
  induction l as [|x l IH]; cbn [filter]; auto.
  destruct (g x); cbn [andb filter]; destruct (f x); now rewrite ?IH.
Qed.
Lemma minus_minus : forall l A B, minus (minus l A) B = minus l (A ++ B).
Proof.
  intros. unfold minus. rewrite filter_filter. apply filter_ext. intros.
  rewrite memb_app, negb_orb. reflexivity.
Qed.
Lemma minus_snd_minus_snd : forall l A B, minus_snd (minus_snd l A) B = minus_snd l (A ++ B).
Proof.
  intros. unfold minus_snd. rewrite filter_filter. apply filter_ext. intros.
  rewrite memb_app, negb_orb. reflexivity.
Qed.
Lemma minus_nil : forall l, minus l [] = l.
Proof. induction l as [|x l IH]; auto. unfold minus in *. cbn [filter memb existsb negb]. f_equal. exact IH. Qed.
Lemma minus_snd_nil : forall l, minus_snd l [] = l.
Proof. induction l as [|x l IH]; auto. unfold minus_snd in *. cbn [filter memb existsb negb]. f_equal. exact IH. Qed.
Lemma minus_id : forall l D, (forall p, In p l -> ~ In p D) -> minus l D = l.
Proof.
  intros l D H. unfold minus. induction l as [|x l IH]; auto. cbn [filter].
  assert (E : memb D x = false) by (apply memb_false, H; now left). rewrite E. cbn [negb].
  rewrite IH; auto. intros. apply H. now right.
Qed.
Lemma minus_snd_map : forall m D, map snd (minus_snd m D) = minus (map snd m) D.
Proof.
  induction m as [|x m IH]; intros; auto. cbn [minus_snd minus filter map].
  unfold minus_snd, minus in *. cbn [filter map]. destruct (memb D (snd x)); cbn [negb map]; now rewrite IH.
Qed.
Lemma without_minus : forall p l, without p l = minus l [p].
Proof.
  intros. unfold without, minus. apply filter_ext. intros. unfold memb. cbn [existsb].
  now rewrite orb_false_r.
Qed.
Lemma NoDup_filter : forall {A} (f : A -> bool) l, NoDup l -> NoDup (filter f l).
Proof.
  induction 1; cbn [filter]; [constructor|]. destruct (f x); auto. constructor; auto.
  rewrite filter_In. tauto.
Qed.
Lemma NoDup_map_filter : forall {A B} (g : A -> B) (f : A -> bool) l,
  NoDup (map g l) -> NoDup (map g (filter f l)).
Proof.
  induction l as [|x l IH]; intros H; cbn [filter map] in *; auto. inversion H as [|? ? H1 H2]; subst.
  destruct (f x); auto. cbn [map]. constructor; auto.
  rewrite in_map_iff in *. intros (y & E & I). apply H1. exists y. rewrite filter_In in I. tauto.
Qed.

(** * The invariant *)

Definition ptrs (c : cache) : list nat := map snd (c_map c).

(** [n p] is the number of handles outstanding for [p]; [x] is an entry being built: allocated but
    not yet in the cache. *)
Record cinv (c : cache) (n : nat -> nat) (x : option nat) : Prop := mk_cinv {
  i_ids : NoDup (map fst (c_map c));
  i_map : forall id p, In (id, p) (c_map c) ->
      exists e, c_store c p = Some e /\ ce_id e = id /\ ce_zombie e = false;
  i_lru_nd : NoDup (c_lru c);
  i_lru : forall p, In p (c_lru c) <-> In p (ptrs c);
  i_heap_nd : NoDup (c_heap c);
  i_heap : forall p, In p (c_heap c) <->
      exists e, c_store c p = Some e /\ ce_zombie e = false /\ ce_expiry e <> NO_EXPIRY;
  i_refs : forall p e, c_store c p = Some e ->
      ce_refs e = ((if ce_zombie e then 0 else 1) + n p)%nat /\ ce_refs e <> 0%nat;
  i_live : forall p e, c_store c p = Some e -> ce_zombie e = false -> x <> Some p ->
      In (ce_id e, p) (c_map c);
  i_none : forall p, c_store c p = None -> n p = 0%nat;
  i_next : forall p, (c_next c <= p)%nat -> c_store c p = None;
  i_freed_nd : NoDup (c_freed c);
  i_freed : forall p, In p (c_freed c) <-> (p < c_next c)%nat /\ c_store c p = None;
  i_pend : forall p, x = Some p -> exists e, c_store c p = Some e /\ ce_zombie e = false
      /\ ce_expiry e = NO_EXPIRY /\ ~ In p (ptrs c) /\ n p = 0%nat;
}.

Lemma in_ptrs : forall c p, In p (ptrs c) <-> exists id, In (id, p) (c_map c).
Proof.
  intros. unfold ptrs. rewrite in_map_iff. split.
  - intros ((id & q) & E & I). cbn in E. subst. eauto.
  - intros (id & I). exists (id, p). auto.
Qed.

Lemma ptrs_nd : forall c n x, cinv c n x -> NoDup (ptrs c).
Proof.
  intros c n x I. unfold ptrs. pose proof (i_ids _ _ _ I) as ND. pose proof (i_map _ _ _ I) as M.
  induction (c_map c) as [|(id & p) m IH]; cbn [map fst snd] in *; [constructor|].
  inversion ND as [|? ? A B]; subst. constructor.
  - intros J. apply in_map_iff in J. destruct J as ((id' & p') & E & J). cbn in E. subst p'.
    destruct (M id p (or_introl eq_refl)) as (e & S1 & E1 & _).
    destruct (M id' p (or_intror J)) as (e' & S2 & E2 & _).
    apply A. apply in_map_iff. exists (id', p). cbn. split; [congruence|auto].
  - apply IH; auto. intros; apply M; now right.
Qed.

Lemma map_find_in : forall id m p, map_find id m = Some p -> In (id, p) m.
Proof.
  induction m as [|(i & q) m IH]; intros p H; cbn [map_find] in H; [discriminate|].
  destruct (bytes_eqb id i) eqn:E.
  - apply bytes_eqb_spec in E. left. congruence.
  - right. auto.
Qed.
Lemma map_find_none : forall id m, map_find id m = None -> forall p, ~ In (id, p) m.
Proof.
  induction m as [|(i & q) m IH]; intros H p I; cbn [map_find] in H; [inversion I|].
  destruct (bytes_eqb id i) eqn:E; [discriminate|]. apply bytes_eqb_false in E.
  destruct I as [I|I]; [congruence|]. eapply IH; eauto.
Qed.

(** * Dropping entries *)

(** [c'] is [c] with the entries [D] invalidated. *)
Record dropped (D : list nat) (c c' : cache) : Prop := mk_dropped {
  d_cap : c_cap c' = c_cap c;
  d_next : c_next c' = c_next c;
  d_map : c_map c' = minus_snd (c_map c) D;
  d_lru : c_lru c' = minus (c_lru c) D;
  d_heap : c_heap c' = minus (c_heap c) D;
  d_same : forall q, ~ In q D -> c_store c' q = c_store c q;
  d_gone : forall q, In q D -> exists e, c_store c q = Some e /\ ce_zombie e = false
      /\ In (ce_id e, q) (c_map c)
      /\ (c_store c' q = None \/ c_store c' q = Some (with_refs (pred (ce_refs e)) (with_zombie e)));
  d_live : incl D (ptrs c);
}.

Lemma dropped_refl : forall c, dropped [] c c.
Proof.
  intros. constructor; auto; try now rewrite ?minus_nil, ?minus_snd_nil.
Qed.

Lemma dropped_trans : forall D1 D2 c c1 c2,
  dropped D1 c c1 -> dropped D2 c1 c2 -> dropped (D1 ++ D2) c c2.
Proof.
  intros D1 D2 c c1 c2 A B. destruct A, B.
  assert (DJ : forall q, In q D2 -> ~ In q D1).
  { intros q I J. apply d_live1 in I. unfold ptrs in I. rewrite d_map0, minus_snd_map in I.
    apply in_minus in I. tauto. }
  constructor; try congruence.
  - now rewrite d_map1, d_map0, minus_snd_minus_snd.
  - now rewrite d_lru1, d_lru0, minus_minus.
  - now rewrite d_heap1, d_heap0, minus_minus.
  - intros q H. rewrite in_app_iff in H. rewrite d_same1, d_same0 by tauto. reflexivity.
  - intros q H. apply in_app_iff in H. destruct H as [H|H].
    + assert (N2 : ~ In q D2) by (intros K; now apply (DJ q)).
      rewrite d_same1 by exact N2. auto.
    + assert (N1 : ~ In q D1) by now apply DJ.
      destruct (d_gone1 q H) as (e & S & Z & L & R). rewrite d_same0 in S by exact N1.
      exists e. rewrite d_map0 in L. apply in_minus_snd in L. tauto.
  - intros q H. apply in_app_iff in H. destruct H as [H|H]; auto.
    apply d_live1 in H. unfold ptrs in *. rewrite d_map0, minus_snd_map in H.
    apply in_minus in H. tauto.
Qed.

Lemma upd_same : forall {A} (f : nat -> A) p x, upd f p x p = x.
Proof. intros. unfold upd. now rewrite Nat.eqb_refl. Qed.
Lemma upd_other : forall {A} (f : nat -> A) p q x, q <> p -> upd f p x q = f q.
Proof. intros. unfold upd. destruct (Nat.eqb_spec q p); [contradiction|reflexivity]. Qed.

Lemma map_remove_live : forall c n x id p, cinv c n x -> In (id, p) (c_map c) ->
  map_remove id (c_map c) = minus_snd (c_map c) [p].
Proof.
  intros c n x id p I L. unfold map_remove, minus_snd. apply filter_ext_in. intros (i & q) J.
  cbn [fst snd memb existsb]. rewrite orb_false_r. f_equal.
  destruct (bytes_eqb id i) eqn:E.
  - apply bytes_eqb_spec in E. subst i.
    destruct (Nat.eqb_spec q p); auto. exfalso.
    pose proof (i_ids _ _ _ I) as ND. revert ND L J n0. clear.
    induction (c_map c) as [|(a & b) m IH]; intros ND L J Q; [inversion L|].
    cbn [map fst] in ND. inversion ND as [|? ? A B]; subst.
    destruct L as [L|L], J as [J|J]; try congruence; try (apply IH; assumption).
    + apply A. apply in_map_iff. exists (id, q). split; [cbn [fst]; congruence|auto].
    + apply A. apply in_map_iff. exists (id, p). split; [cbn [fst]; congruence|auto].
  - apply bytes_eqb_false in E. destruct (Nat.eqb_spec q p); auto. subst q. exfalso.
    destruct (i_map _ _ _ I _ _ L) as (e & S1 & E1 & _).
    destruct (i_map _ _ _ I _ _ J) as (e' & S2 & E2 & _). congruence.
Qed.

(** invalidate with or without removing the table slot *)
Lemma invalidate_skip : forall p c e, c_store c p = Some e -> ce_zombie e = false ->
  invalidate p false c =
  match invalidate p true c with
  | None => None
  | Some c' => Some (set_map (map_remove (ce_id e) (c_map c')) c')
  end.
Proof.
  intros p c e S Z. unfold invalidate. rewrite S, Z. unfold drop_ref.
  destruct (ce_expiry e =? NO_EXPIRY); cbn [c_store put_at set_store set_lru set_heap set_map c_map];
    rewrite !upd_same; cbn [ce_refs with_zombie ce_zombie];
    destruct (ce_refs e) as [|[|k]]; reflexivity.
Qed.

Lemma invalidate_ok : forall c n x p e,
  cinv c n x -> c_store c p = Some e -> ce_zombie e = false -> x <> Some p ->
  exists c', invalidate p false c = Some c' /\ dropped [p] c c' /\ cinv c' n x.
Proof.
  intros c n x p e I S Z X.
  assert (L : In (ce_id e, p) (c_map c)) by (eapply i_live; eauto).
  pose proof (map_remove_live _ _ _ _ _ I L) as MR.
  pose proof (i_refs _ _ _ I _ _ S) as (R & R0). rewrite Z in R.
  unfold invalidate. rewrite S, Z.
  set (hp := minus (c_heap c) [p]).
  assert (HP : (if ce_expiry e =? NO_EXPIRY then c else set_heap (without p (c_heap c)) c)
               = set_heap hp c).
  { destruct (N.eqb_spec (ce_expiry e) NO_EXPIRY) as [E|E].
    - unfold hp. rewrite minus_id; [now destruct c|]. intros q Q [<-|[]].
      apply (i_heap _ _ _ I) in Q. destruct Q as (e' & S' & _ & E'). congruence.
    - unfold hp. now rewrite without_minus. }
  rewrite HP. cbn [c_map set_heap]. rewrite MR, without_minus.
  cbn [c_lru set_map set_heap]. unfold drop_ref.
  cbn [c_store put_at set_store set_lru set_heap set_map]. rewrite upd_same.
  cbn [ce_refs with_zombie ce_zombie].
  set (res := fun o => mk_cache (c_cap c) (minus_snd (c_map c) [p]) (minus (c_lru c) [p]) hp
                                (upd (upd (c_store c) p (Some (with_zombie e))) p o) (c_next c)).
  assert (G : exists c', match ce_refs e with
     | O => None | S O => Some (res None (p :: c_freed c))
     | S n0 => Some (res (Some (with_refs n0 (with_zombie e))) (c_freed c)) end = Some c'
     /\ c' = (if Nat.eqb (n p) 0 then res None (p :: c_freed c)
             else res (Some (with_refs (n p) (with_zombie e))) (c_freed c))).
  { rewrite R. cbn [Nat.add]. destruct (n p) as [|k] eqn:E; eexists; split; reflexivity. }
  destruct G as (c' & G & EQ).
  exists c'. split; [exact G|].
  assert (ST : forall q, q <> p -> c_store c' q = c_store c q).
  { intros q Q. subst c'. destruct (Nat.eqb (n p) 0); cbn [res c_store];
      rewrite !upd_other by auto; reflexivity. }
  assert (SP : c_store c' p = if Nat.eqb (n p) 0 then None else Some (with_refs (n p) (with_zombie e))).
  { subst c'. destruct (Nat.eqb (n p) 0); cbn [res c_store]; now rewrite upd_same. }
  assert (M : c_map c' = minus_snd (c_map c) [p]) by (subst c'; now destruct (Nat.eqb (n p) 0)).
  assert (LR : c_lru c' = minus (c_lru c) [p]) by (subst c'; now destruct (Nat.eqb (n p) 0)).
  assert (H : c_heap c' = minus (c_heap c) [p]) by (subst c'; now destruct (Nat.eqb (n p) 0)).
  assert (NX : c_next c' = c_next c) by (subst c'; now destruct (Nat.eqb (n p) 0)).
  assert (FR : c_freed c' = if Nat.eqb (n p) 0 then p :: c_freed c else c_freed c)
    by (subst c'; now destruct (Nat.eqb (n p) 0)).
  assert (CP : c_cap c' = c_cap c) by (subst c'; now destruct (Nat.eqb (n p) 0)).
  assert (LT : (p < c_next c)%nat).
  { destruct (Nat.lt_ge_cases p (c_next c)); auto. rewrite (i_next _ _ _ I) in S; [discriminate|auto]. }
  clear EQ G res HP hp.
  assert (D : dropped [p] c c').
  { constructor; auto.
    - intros q Q. apply ST. intros ->. apply Q. now left.
    - intros q [<-|[]]. exists e. repeat (split; auto). rewrite SP.
      destruct (Nat.eqb_spec (n p) 0); auto. right. rewrite R. reflexivity.
    - intros q [<-|[]]. apply in_ptrs. eauto. }
  split; [exact D|]. destruct I.
  assert (PT : forall q, In q (ptrs c') <-> In q (ptrs c) /\ q <> p).
  { intros. unfold ptrs. rewrite M, minus_snd_map, in_minus. cbn [In]. split; intros (A & B); split; auto.
    intros [E|[]]; auto. }
  constructor.
  - rewrite M. now apply NoDup_map_filter.
  - intros id q J. rewrite M in J. apply in_minus_snd in J. destruct J as (J & Q). cbn in Q.
    destruct (i_map0 _ _ J) as (e' & S' & E' & Z'). exists e'. rewrite ST; [auto|]. intros ->. tauto.
  - rewrite LR. now apply NoDup_filter.
  - intros q. rewrite LR, in_minus, PT, i_lru0. cbn [In]. split; intros (A & B); split; auto.
    intros [E|[]]; auto.
  - rewrite H. now apply NoDup_filter.
  - intros q. rewrite H, in_minus, i_heap0. split.
    + intros ((e' & S' & Z' & E') & Q). exists e'. rewrite ST; [auto|]. intros ->. apply Q. now left.
    + intros (e' & S' & Z' & E'). destruct (Nat.eq_dec q p) as [->|Q].
      * rewrite SP in S'. destruct (Nat.eqb (n p) 0); [discriminate|]. injection S' as <-. discriminate Z'.
      * rewrite ST in S' by auto. split; [eauto|]. intros [E|[]]; auto.
  - intros q e' S'. destruct (Nat.eq_dec q p) as [->|Q].
    + rewrite SP in S'. destruct (Nat.eqb_spec (n p) 0) as [E|E]; [discriminate|]. injection S' as <-.
      cbn [ce_refs with_refs ce_zombie with_zombie]. split; [reflexivity|auto].
    + rewrite ST in S' by auto. now apply i_refs0.
  - intros q e' S' Z' X'. rewrite M. apply in_minus_snd. destruct (Nat.eq_dec q p) as [->|Q].
    + rewrite SP in S'. destruct (Nat.eqb (n p) 0); [discriminate|]. injection S' as <-. discriminate Z'.
    + rewrite ST in S' by auto. split; [now apply i_live0|]. cbn. intros [E|[]]; auto.
  - intros q S'. destruct (Nat.eq_dec q p) as [->|Q].
    + rewrite SP in S'. destruct (Nat.eqb_spec (n p) 0) as [E|E]; [auto|discriminate].
    + rewrite ST in S' by auto. now apply i_none0.
  - intros q Q. rewrite NX in Q. rewrite ST; [auto|]. lia.
  - rewrite FR. destruct (Nat.eqb (n p) 0); auto. constructor; auto. rewrite i_freed0.
    intros (_ & S'). congruence.
  - intros q. rewrite FR, NX. destruct (Nat.eq_dec q p) as [->|Q].
    + rewrite SP. destruct (Nat.eqb (n p) 0).
      * split; [auto|]. intros _. now left.
      * rewrite i_freed0. split; [intros (_ & S')|intros (_ & S')]; congruence.
    + rewrite ST by auto. rewrite <- i_freed0. destruct (Nat.eqb (n p) 0); [|tauto].
      cbn [In]. split; [intros [E|E]; auto; congruence|auto].
  - intros q X'. destruct (i_pend0 _ X') as (e' & S' & A & B & C & E). exists e'.
    rewrite ST by congruence. rewrite PT. tauto.
Qed.

(** * Expiry *)

Lemma heap_top_spec : forall c l,
  match heap_top c l with
  | None => l = []
  | Some p => In p l /\ forall q, In q l -> expiry_of c p <= expiry_of c q
  end.
Proof.
  induction l as [|p l IH]; cbn [heap_top]; auto.
  destruct (heap_top c l) as [q|].
  - destruct IH as (A & B). unfold sooner.
    destruct (N.ltb_spec (expiry_of c p) (expiry_of c q)) as [L|L]; cbn [orb].
    + split; [now left|]. intros r [<-|R]; [lia|]. specialize (B r R). lia.
    + destruct (N.eqb_spec (expiry_of c p) (expiry_of c q)) as [E|E]; cbn [andb].
      * destruct (Nat.leb p q).
        -- split; [now left|]. intros r [<-|R]; [lia|]. specialize (B r R). lia.
        -- split; [now right|]. intros r [<-|R]; [lia|]. auto.
      * split; [now right|]. intros r [<-|R]; [lia|]. auto.
  - subst l. split; [now left|]. intros r [<-|[]]. lia.
Qed.

Lemma dropped_expiry : forall D c c' q, dropped D c c' -> ~ In q D ->
  expiry_of c' q = expiry_of c q.
Proof. intros. unfold expiry_of. erewrite d_same; eauto. Qed.

Lemma expire_loop_ok : forall k now c n x, cinv c n x ->
  exists D c', expire_loop k now c = Some c' /\ dropped D c c' /\ cinv c' n x
    /\ NoDup D /\ (length D <= k)%nat /\ (forall q, In q D -> In q (c_heap c) /\ expiry_of c q <= now)
    /\ (length D = k \/ forall q, In q (c_heap c') -> now < expiry_of c' q).
Proof.
  induction k as [|k IH]; intros now c n x I; cbn [expire_loop].
  { exists [], c. split; [reflexivity|]. split; [apply dropped_refl|]. split; [exact I|].
    split; [constructor|]. split; [auto|]. split; [intros q []|]. now left. }
  pose proof (heap_top_spec c (c_heap c)) as T. destruct (heap_top c (c_heap c)) as [p|].
  - destruct T as (IN & MIN). pose proof IN as IN'.
    apply (i_heap _ _ _ I) in IN. destruct IN as (e & S & Z & E). rewrite S.
    destruct (N.leb_spec (ce_expiry e) now) as [L|L].
    + assert (X : x <> Some p).
      { intros ->. destruct (i_pend _ _ _ I p eq_refl) as (e' & S' & _ & E' & _). congruence. }
      destruct (invalidate_ok _ _ _ _ _ I S Z X) as (c1 & EV & D1 & I1). rewrite EV.
      destruct (IH now c1 n x I1) as (D & c2 & EX & D2 & I2 & ND & LEN & OLD & FIN).
      assert (NP : ~ In p D).
      { intros J. apply OLD in J. destruct J as (J & _). rewrite (d_heap _ _ _ D1) in J.
        apply in_minus in J. cbn in J. tauto. }
      exists (p :: D), c2. split; [exact EX|].
      split; [exact (dropped_trans [p] D _ _ _ D1 D2)|]. split; [exact I2|].
      split; [now constructor|]. split; [cbn; lia|].
      split.
      * intros q [<-|Q]; [split; [auto|unfold expiry_of; now rewrite S]|]. destruct (OLD q Q) as (A & B).
        rewrite (d_heap _ _ _ D1) in A. apply in_minus in A. split; [tauto|].
        rewrite <- (dropped_expiry _ _ _ _ D1); tauto.
      * destruct FIN as [F|F]; [left; cbn; lia|now right].
    + exists [], c. split; [reflexivity|]. split; [apply dropped_refl|]. split; [exact I|].
      split; [constructor|]. split; [cbn; lia|]. split; [intros q []|]. right. intros q Q. specialize (MIN q Q).
      unfold expiry_of in MIN at 1. rewrite S in MIN. lia.
  - exists [], c. split; [reflexivity|]. split; [apply dropped_refl|]. split; [exact I|].
    split; [constructor|]. split; [cbn; lia|]. split; [intros q []|]. right. rewrite T. intros q [].
Qed.

(** What locked_process_ttls does. *)
Definition ttl_done (clock : option N) (D : list nat) (c c' : cache) : Prop :=
  match clock with
  | None => D = []
  | Some now => NoDup D /\ (length D <= TTL_BATCH)%nat
      /\ (forall q, In q D -> In q (c_heap c) /\ expiry_of c q <= now)
      /\ (length D = TTL_BATCH \/ forall q, In q (c_heap c') -> now < expiry_of c' q)
  end.

Lemma process_ttls_ok : forall clock c n x, cinv c n x ->
  exists D c', process_ttls clock c = Some c' /\ dropped D c c' /\ cinv c' n x
    /\ ttl_done clock D c c'.
Proof.
  intros [now|] c n x I; cbn [process_ttls ttl_done].
  - destruct (expire_loop_ok TTL_BATCH now c n x I) as (D & c' & A & B & C & E). eauto 10.
  - exists [], c. split; [reflexivity|]. split; [apply dropped_refl|]. split; [exact I|reflexivity].
Qed.

(** * Eviction *)

Lemma lru_len : forall c n x, cinv c n x -> length (c_lru c) = length (c_map c).
Proof.
  intros c n x I. rewrite <- (map_length snd (c_map c)). apply Permutation_length.
  apply NoDup_Permutation; [apply (i_lru_nd _ _ _ I)|eapply ptrs_nd; eauto|].
  apply (i_lru _ _ _ I).
Qed.

Lemma minus_last : forall l q, NoDup (l ++ [q]) -> minus (l ++ [q]) [q] = l.
Proof.
  intros l q ND. unfold minus. rewrite filter_app. cbn [filter memb existsb].
  rewrite Nat.eqb_refl. cbn [orb negb]. rewrite app_nil_r.
  change (minus l [q] = l). apply minus_id. intros p P [<-|[]].
  apply NoDup_remove_2 in ND. rewrite app_nil_r in ND. contradiction.
Qed.

Lemma evict_loop_ok : forall k p c n, cinv c n None -> (length (c_map c) <= k)%nat -> 1 <= c_cap c ->
  (exists l, c_lru c = p :: l) ->
  exists t c', evict_loop k p c = Some c' /\ dropped (rev t) c c' /\ cinv c' n None
    /\ c_lru c = c_lru c' ++ t /\ (exists l, c_lru c' = p :: l)
    /\ Nlen (c_map c') <= c_cap c /\ (t <> [] -> Nlen (c_map c') = c_cap c).
Proof.
  induction k as [|k IH]; intros p c n I LEN CAP (l & HD); cbn [evict_loop].
  - pose proof (lru_len _ _ _ I) as LL. rewrite HD in LL. cbn in LL. lia.
  - destruct (N.leb_spec (Nlen (c_map c)) (c_cap c)) as [L|L].
    + exists [], c. cbn [rev]. split; [reflexivity|]. split; [apply dropped_refl|]. split; [exact I|].
      split; [now rewrite app_nil_r|]. split; [eauto|]. split; [auto|]. congruence.
    + pose proof (lru_len _ _ _ I) as LL. unfold Nlen in L.
      destruct l as [|z l0] using rev_ind.
      { rewrite HD in LL. cbn [length] in LL. rewrite <- LL in L. lia. }
      clear IHl0. set (q := z). rewrite HD. rewrite app_comm_cons, rev_app_distr. cbn [rev app].
      pose proof (i_lru_nd _ _ _ I) as ND. rewrite HD in ND.
      assert (QP : q <> p).
      { intros E. inversion ND as [|? ? A B]; subst. apply A. apply in_app_iff. right. now left. }
      fold q. destruct (Nat.eqb_spec q p) as [E|_]; [contradiction|].
      assert (QL : In q (ptrs c)).
      { apply (i_lru _ _ _ I). rewrite HD. right. apply in_app_iff. right. now left. }
      apply in_ptrs in QL. destruct QL as (id & QL).
      destruct (i_map _ _ _ I _ _ QL) as (e & S & _ & Z).
      destruct (invalidate_ok c n None q e I S Z) as (c1 & EV & D1 & I1); [discriminate|].
      rewrite EV.
      assert (L1 : c_lru c1 = p :: l0).
      { rewrite (d_lru _ _ _ D1), HD. rewrite app_comm_cons in *. now apply minus_last. }
      assert (M1 : (length (c_map c1) = length l0 + 1)%nat).
      { rewrite <- (lru_len _ _ _ I1), L1. cbn. lia. }
      assert (M0 : (length (c_map c) = length l0 + 2)%nat).
      { rewrite <- LL, HD. cbn [length]. rewrite app_length. cbn. lia. }
      destruct (IH p c1 n I1) as (t & c2 & E2 & D2 & I2 & LR & H2 & C2 & F2).
      { lia. }
      { now rewrite (d_cap _ _ _ D1). }
      { eauto. }
      exists (t ++ [q]), c2. split; [exact E2|].
      split. { rewrite rev_app_distr. cbn [rev app]. exact (dropped_trans [q] _ _ _ _ D1 D2). }
      split; [exact I2|].
      split. { rewrite app_comm_cons, app_assoc. rewrite <- LR, L1. reflexivity. }
      split; [exact H2|]. rewrite (d_cap _ _ _ D1) in *. split; [exact C2|].
      intros _. destruct t as [|a t]; [|apply F2; discriminate].
      rewrite app_nil_r in LR. rewrite LR in L1.
      assert ((length (c_map c2) = length l0 + 1)%nat).
      { rewrite <- (lru_len _ _ _ I2), L1. cbn. lia. }
      unfold Nlen in *. lia.
Qed.

(** * Single entries *)

Lemma lt_next : forall c n x p e, cinv c n x -> c_store c p = Some e -> (p < c_next c)%nat.
Proof.
  intros c n x p e I S. destruct (Nat.lt_ge_cases p (c_next c)); auto.
  rewrite (i_next _ _ _ I) in S; [discriminate|auto].
Qed.

(** Changing one entry in place, keeping its identity. *)
Lemma cinv_update : forall c n n' x p e e',
  cinv c n x -> c_store c p = Some e -> ce_id e' = ce_id e -> ce_zombie e' = ce_zombie e ->
  ce_expiry e' = ce_expiry e ->
  ce_refs e' = ((if ce_zombie e then 0 else 1) + n' p)%nat -> ce_refs e' <> 0%nat ->
  (forall q, q <> p -> n' q = n q) -> x <> Some p ->
  cinv (put_at p e' c) n' x.
Proof.
  intros c n n' x p e e' I S ID Z EX R R0 N X.
  pose proof (lt_next _ _ _ _ _ I S) as LT. destruct I.
  assert (ST : forall q, q <> p -> c_store (put_at p e' c) q = c_store c q)
    by (intros; cbn; now apply upd_other).
  assert (SP : c_store (put_at p e' c) p = Some e') by (cbn; now apply upd_same).
  constructor; try assumption.
  - intros id q J. cbn [put_at set_store c_map] in J. destruct (i_map0 _ _ J) as (e0 & S0 & E0 & Z0).
    destruct (Nat.eq_dec q p) as [->|Q].
    + exists e'. rewrite SP. split; [auto|]. split; congruence.
    + rewrite ST by auto. eauto.
  - intros q. cbn [put_at set_store c_heap]. rewrite i_heap0. destruct (Nat.eq_dec q p) as [->|Q].
    + rewrite SP. split.
      * intros (e0 & S0 & Z0 & E0). exists e'. split; [auto|]. split; congruence.
      * intros (e0 & S0 & Z0 & E0). exists e. split; [auto|]. split; congruence.
    + now rewrite ST.
  - intros q e0 S0. destruct (Nat.eq_dec q p) as [->|Q].
    + rewrite SP in S0. assert (e0 = e') by congruence. subst e0. rewrite Z. auto.
    + rewrite ST in S0 by auto. rewrite N by auto. auto.
  - intros q e0 S0 Z0 X0. cbn [put_at set_store c_map]. destruct (Nat.eq_dec q p) as [->|Q].
    + rewrite SP in S0. assert (e0 = e') by congruence. subst e0. rewrite ID. apply i_live0; auto; congruence.
    + rewrite ST in S0 by auto. auto.
  - intros q S0. destruct (Nat.eq_dec q p) as [->|Q]; [congruence|].
    rewrite ST in S0 by auto. rewrite N by auto. auto.
  - intros q Q. cbn [put_at set_store c_next] in Q. rewrite ST by lia. auto.
  - intros q. cbn [put_at set_store c_freed c_next]. rewrite i_freed0.
    destruct (Nat.eq_dec q p) as [->|Q].
    + rewrite SP. split; intros (A & B); congruence.
    + now rewrite ST.
  - intros q Xq. assert (Q : q <> p) by congruence. destruct (i_pend0 _ Xq) as (e0 & A).
    exists e0. rewrite ST by auto. rewrite N by auto. exact A.
Qed.

(** Reordering the LRU list. *)
Lemma cinv_set_lru : forall c n x l, cinv c n x -> NoDup l -> (forall p, In p l <-> In p (c_lru c)) ->
  cinv (set_lru l c) n x.
Proof.
  intros c n x l I ND M. destruct I. constructor; try assumption.
  intros p. cbn [set_lru c_lru]. rewrite M. apply i_lru0.
Qed.

Lemma in_dec_nat : forall (p : nat) l, In p l \/ ~ In p l.
Proof. intros. destruct (in_dec Nat.eq_dec p l); auto. Qed.

Lemma touch_spec : forall p l, In p l -> NoDup l ->
  NoDup (p :: without p l) /\ forall q, In q (p :: without p l) <-> In q l.
Proof.
  intros p l IN ND. rewrite without_minus. split.
  - constructor; [|now apply NoDup_filter]. rewrite in_minus. cbn. tauto.
  - intros q. cbn [In]. rewrite in_minus. cbn [In]. split.
    + intros [<-|(A & _)]; auto.
    + intros A. destruct (Nat.eq_dec p q); auto. right. split; auto. intros [E|[]]. auto.
Qed.

(** Allocation of a fresh entry. *)
Definition fresh_entry (id : list N) (now : N) (m : cached) (ub um : N) : centry :=
  mk_centry id now NO_EXPIRY m ub um 1 false.
Definition alloc_entry (e : centry) (c : cache) : cache :=
  mk_cache (c_cap c) (c_map c) (c_lru c) (c_heap c) (upd (c_store c) (c_next c) (Some e))
           (S (c_next c)) (c_freed c).

Lemma alloc_ok : forall c n id now m ub um, cinv c n None ->
  cinv (alloc_entry (fresh_entry id now m ub um) c) n (Some (c_next c)).
Proof.
  intros c n id now m ub um I. set (e := fresh_entry id now m ub um). set (p := c_next c).
  assert (SN : c_store c p = None) by (apply (i_next _ _ _ I); unfold p; lia).
  assert (NP : n p = 0%nat) by (now apply (i_none _ _ _ I)).
  assert (NL : ~ In p (ptrs c)).
  { intros L. apply in_ptrs in L. destruct L as (i & L). destruct (i_map _ _ _ I _ _ L) as (e0 & S0 & _).
    congruence. }
  destruct I.
  assert (ST : forall q, q <> p -> c_store (alloc_entry e c) q = c_store c q)
    by (intros; cbn; now apply upd_other).
  assert (SP : c_store (alloc_entry e c) p = Some e) by (cbn; now apply upd_same).
  constructor; try assumption.
  - intros i q J. cbn [alloc_entry c_map] in J. destruct (i_map0 _ _ J) as (e0 & S0 & E0 & Z0).
    assert (q <> p) by congruence. rewrite ST by auto. eauto.
  - intros q. cbn [alloc_entry c_heap]. rewrite i_heap0. destruct (Nat.eq_dec q p) as [->|Q].
    + rewrite SP, SN. split; intros (e0 & S0 & Z0 & E0); [discriminate|].
      assert (e0 = e) by congruence. subst e0. exfalso. apply E0. reflexivity.
    + now rewrite ST.
  - intros q e0 S0. destruct (Nat.eq_dec q p) as [->|Q].
    + rewrite SP in S0. assert (e0 = e) by congruence. subst e0. rewrite NP. cbn. auto.
    + rewrite ST in S0 by auto. auto.
  - intros q e0 S0 Z0 X0. cbn [alloc_entry c_map]. assert (Q : q <> p) by congruence.
    rewrite ST in S0 by auto. apply i_live0; auto. discriminate.
  - intros q S0. destruct (Nat.eq_dec q p) as [->|Q]; [congruence|]. rewrite ST in S0 by auto. auto.
  - intros q Q. cbn [alloc_entry c_next] in Q. fold p in Q. rewrite ST by lia. apply i_next0. unfold p in Q. lia.
  - intros q. cbn [alloc_entry c_freed c_next]. rewrite i_freed0. fold p. destruct (Nat.eq_dec q p) as [->|Q].
    + rewrite SP. split; intros (A & B); [lia|congruence].
    + rewrite ST by auto. split; intros (A & B); split; auto; lia.
  - intros q Xq. assert (q = p) by congruence. subst q. exists e. rewrite SP.
    split; [auto|]. split; [auto|]. split; [auto|]. split; auto.
Qed.

(** Destroying the pending entry. *)
Lemma destroy_ok : forall c n p, cinv c n (Some p) -> cinv (destroy_entry p c) n None.
Proof.
  intros c n p I. destruct (i_pend _ _ _ I p eq_refl) as (e & S & Z & EX & NL & NP).
  pose proof (lt_next _ _ _ _ _ I S) as LT. destruct I.
  assert (ST : forall q, q <> p -> c_store (destroy_entry p c) q = c_store c q)
    by (intros; cbn; now apply upd_other).
  assert (SP : c_store (destroy_entry p c) p = None) by (cbn; now apply upd_same).
  constructor; try assumption.
  - intros i q J. cbn [destroy_entry c_map] in J.
    assert (q <> p) by (intros ->; apply NL, in_ptrs; eauto). rewrite ST by auto. auto.
  - intros q. cbn [destroy_entry c_heap]. rewrite i_heap0. destruct (Nat.eq_dec q p) as [->|Q].
    + rewrite SP. split; intros (e0 & S0 & Z0 & E0); congruence.
    + now rewrite ST.
  - intros q e0 S0. assert (q <> p) by congruence. rewrite ST in S0 by auto. auto.
  - intros q e0 S0 Z0 X0. assert (q <> p) by congruence. rewrite ST in S0 by auto.
    cbn [destroy_entry c_map]. apply i_live0; auto. congruence.
  - intros q S0. destruct (Nat.eq_dec q p) as [->|Q]; auto. rewrite ST in S0 by auto. auto.
  - intros q Q. cbn [destroy_entry c_next] in Q. rewrite ST by lia. auto.
  - cbn [destroy_entry c_freed]. constructor; auto. rewrite i_freed0. intros (_ & A). congruence.
  - intros q. cbn [destroy_entry c_freed c_next]. cbn [In]. rewrite i_freed0.
    destruct (Nat.eq_dec q p) as [->|Q].
    + split; [auto|]. intros _. now left.
    + rewrite ST by auto. split; [intros [A|A]; [congruence|auto]|auto].
  - intros q Xq. discriminate.
Qed.

(** Entering the pending entry into table and list. *)
Lemma enter_ok : forall c n p id e, cinv c n (Some p) -> c_store c p = Some e -> ce_id e = id ->
  (forall q, ~ In (id, q) (c_map c)) ->
  cinv (set_lru (p :: c_lru c) (set_map ((id, p) :: c_map c) c)) n None.
Proof.
  intros c n p id e I S ID FR. destruct (i_pend _ _ _ I p eq_refl) as (e0 & S0 & Z & EX & NL & NP).
  assert (e0 = e) by congruence. subst e0. destruct I. constructor; try assumption.
  - cbn [set_lru set_map c_map map fst]. constructor; auto. intros J. apply in_map_iff in J.
    destruct J as ((i & q) & E & J). cbn [fst] in E. subst i. eapply FR; eauto.
  - intros i q [J|J]; cbn [set_lru set_map c_store] in *; auto.
    assert (q = p) by congruence. subst q. exists e. split; [auto|]. split; congruence.
  - cbn [set_lru c_lru]. constructor; auto. rewrite i_lru0. exact NL.
  - intros q. unfold ptrs. cbn [set_lru set_map c_lru c_map map snd In]. rewrite i_lru0. reflexivity.
  - intros q e1 S1 Z1 X1. cbn [set_lru set_map c_map c_store] in *. destruct (Nat.eq_dec q p) as [->|Q].
    + left. congruence.
    + right. apply i_live0; auto. congruence.
  - intros q Xq. discriminate.
Qed.

(** * Operations *)

Definition strip (e : centry) : centry := with_refs 0 (with_zombie e).
(** Old entries keep their contents; they may only become zombies or be freed. *)
Definition keeps (c c' : cache) : Prop :=
  c_cap c' = c_cap c /\ (c_next c <= c_next c')%nat /\
  forall p e', (p < c_next c)%nat -> c_store c' p = Some e' ->
    exists e, c_store c p = Some e /\ strip e' = strip e /\ (ce_zombie e = true -> ce_zombie e' = true).

Lemma keeps_refl : forall c, keeps c c.
Proof. intros. split; [auto|]. split; [auto|]. intros. eauto. Qed.

Lemma keeps_trans : forall a b c, keeps a b -> keeps b c -> keeps a c.
Proof.
  intros a b c (A1 & A2 & A3) (B1 & B2 & B3). split; [congruence|]. split; [lia|].
  intros p e L S. destruct (B3 p e) as (e1 & S1 & E1 & Z1); [lia|auto|].
  destruct (A3 p e1 L S1) as (e0 & S0 & E0 & Z0). exists e0. split; [auto|]. split; [congruence|auto].
Qed.

Lemma dropped_keeps : forall D c c', dropped D c c' -> keeps c c'.
Proof.
  intros D c c' H. destruct H. split; [auto|]. split; [lia|]. intros p e' L S.
  destruct (in_dec_nat p D) as [I|I].
  - destruct (d_gone0 p I) as (e & S0 & Z & _ & [R|R]); [congruence|].
    exists e. assert (e' = with_refs (pred (ce_refs e)) (with_zombie e)) by congruence. subst e'.
    split; [auto|]. split; [reflexivity|]. reflexivity.
  - rewrite d_same0 in S by auto. eauto.
Qed.

Lemma put_at_keeps : forall p e e' c, c_store c p = Some e -> strip e' = strip e ->
  (ce_zombie e = true -> ce_zombie e' = true) -> keeps c (put_at p e' c).
Proof.
  intros p e e' c S E Z. split; [reflexivity|]. split; [cbn; lia|]. intros q e1 L S1.
  cbn [put_at set_store c_store] in S1. destruct (Nat.eq_dec q p) as [->|Q].
  - rewrite upd_same in S1. exists e. assert (e1 = e') by congruence. subst. auto.
  - rewrite upd_other in S1 by auto. eauto.
Qed.

Definition cap_ok (c : cache) : Prop := 2 <= c_cap c /\ Nlen (c_map c) <= c_cap c.

Lemma len_filter : forall {A} (f : A -> bool) l, (length (filter f l) <= length l)%nat.
Proof. induction l as [|x l IH]; cbn [filter length]; auto. destruct (f x); cbn [length]; lia. Qed.

Lemma dropped_cap : forall D c c', dropped D c c' -> cap_ok c -> cap_ok c'.
Proof.
  intros D c c' H (A & B). unfold cap_ok. rewrite (d_cap _ _ _ H), (d_map _ _ _ H).
  split; [auto|]. unfold Nlen, minus_snd in *.
  pose proof (len_filter (fun x => negb (memb D (snd x))) (c_map c)). lia.
Qed.

Definition bump (p : nat) (n : nat -> nat) : nat -> nat :=
  fun q => if Nat.eqb q p then S (n q) else n q.
Lemma bump_same : forall p n, bump p n p = S (n p).
Proof. intros. unfold bump. now rewrite Nat.eqb_refl. Qed.
Lemma bump_other : forall p n q, q <> p -> bump p n q = n q.
Proof. intros. unfold bump. destruct (Nat.eqb_spec q p); [contradiction|reflexivity]. Qed.

(** What a successful put does: entries [D] expired, [R] had the same id, [T] were evicted. *)
Record put_done (h : choice) (mat : option cached) (ub um : N) (id : list N) (p : nat) (c c' : cache)
  (D R T : list nat) : Prop := mk_put_done {
  pd_entry : exists now m, ch_clock h = Some now /\ mat = Some m
      /\ c_store c' p = Some (with_refs 2 (fresh_entry id now m ub um));
  pd_lru : p :: minus (c_lru c) (D ++ R) = c_lru c' ++ T;
  pd_map : c_map c' = minus_snd ((id, p) :: minus_snd (c_map c) (D ++ R)) (rev T);
  pd_repl : forall q, In q R -> In (id, q) (c_map c);
  pd_old : forall q, In q D -> exists t, ch_clock2 h = Some t /\ expiry_of c q <= t;
  pd_full : T <> [] -> Nlen (c_map c') = c_cap c;
  pd_head : exists l, c_lru c' = p :: l;
  pd_next : c_next c' = S p;
}.

Lemma put_entry_ok : forall h mat ub um id c n, cinv c n None -> cap_ok c ->
  exists c' r, put_entry h mat ub um id c = Some (c', r) /\ keeps c c' /\ cap_ok c' /\
  match r with
  | None => cinv c' n None /\ exists D, c_lru c' = minus (c_lru c) D /\ c_map c' = minus_snd (c_map c) D
  | Some p => p = c_next c /\ cinv c' (bump p n) None /\ exists D R T, put_done h mat ub um id p c c' D R T
  end.
Proof.
  intros h mat ub um id c n I CAP. unfold put_entry.
  assert (TRIV : exists c' r, Some (c, @None nat) = Some (c', r) /\ keeps c c' /\ cap_ok c' /\
    match r with
    | None => cinv c' n None /\ exists D, c_lru c' = minus (c_lru c) D /\ c_map c' = minus_snd (c_map c) D
    | Some p => p = c_next c /\ cinv c' (bump p n) None /\ exists D R T, put_done h mat ub um id p c c' D R T
    end).
  { exists c, None. split; [auto|]. split; [apply keeps_refl|]. split; [auto|]. split; [auto|].
    exists []. now rewrite minus_nil, minus_snd_nil. }
  destruct (ch_lock h); cbn [negb]; [|exact TRIV].
  destruct (ch_clock h) as [now|] eqn:CK; [|exact TRIV].
  destruct mat as [m|]; [|exact TRIV]. destruct (ch_mem h); [|exact TRIV]. clear TRIV.
  cbv zeta.
  change (mk_cache (c_cap c) (c_map c) (c_lru c) (c_heap c)
    (upd (c_store c) (c_next c) (Some (mk_centry id now NO_EXPIRY m ub um 1 false))) (S (c_next c)) (c_freed c))
    with (alloc_entry (fresh_entry id now m ub um) c).
  set (p := c_next c). set (e := fresh_entry id now m ub um).
  pose proof (alloc_ok c n id now m ub um I) as I0. fold e in I0. fold p in I0.
  set (c0 := alloc_entry e c) in *.
  assert (K0 : keeps c c0).
  { split; [auto|]. split; [cbn; lia|]. intros q e' L S. cbn [c0 alloc_entry c_store] in S.
    rewrite upd_other in S by lia. eauto. }
  assert (S0 : c_store c0 p = Some e) by (cbn; apply upd_same).
  assert (NPT : ~ In p (ptrs c)).
  { destruct (i_pend _ _ _ I0 p eq_refl) as (? & _ & _ & _ & A & _). exact A. }
  assert (X0 : forall q, q <> p -> expiry_of c0 q = expiry_of c q).
  { intros q Q. unfold expiry_of, c0, alloc_entry. cbn [c_store]. now rewrite upd_other. }
  unfold insert_entry.
  destruct (process_ttls_ok (ch_clock2 h) c0 n (Some p) I0) as (D & c1 & E1 & D1 & I1 & TTL).
  rewrite E1.
  assert (ND : ~ In p D).
  { intros J. apply (d_live _ _ _ D1) in J. contradiction. }
  assert (S1 : c_store c1 p = Some e) by (rewrite (d_same _ _ _ D1); auto).
  assert (CAP1 : cap_ok c1) by (eapply dropped_cap; eauto).
  destruct (ch_insert h); cbn [negb].
  2:{ exists (destroy_entry p c1), None. split; [reflexivity|].
      split. { eapply keeps_trans; [exact K0|]. eapply keeps_trans; [eapply dropped_keeps; exact D1|].
        split; [reflexivity|]. split; [cbn; lia|]. intros q e' L S.
        cbn [destroy_entry c_store] in S. destruct (Nat.eq_dec q p) as [->|Q].
        - rewrite upd_same in S. discriminate.
        - rewrite upd_other in S by auto. eauto. }
      split; [exact CAP1|]. split; [now apply destroy_ok|]. exists D. cbn [destroy_entry c_lru c_map].
      split; [apply (d_lru _ _ _ D1)|apply (d_map _ _ _ D1)]. }
  (* replacement *)
  assert (RP : exists R c2, match map_find id (c_map c1) with
                             | None => Some c1 | Some old => invalidate old true c1 end = Some c2
      /\ exists c2', set_map (map_remove id (c_map c2)) c2 = c2' /\ dropped R c1 c2'
      /\ cinv c2' n (Some p) /\ (forall q, In q R -> In (id, q) (c_map c1))
      /\ forall q, ~ In (id, q) (c_map c2')).
  { destruct (map_find id (c_map c1)) as [old|] eqn:F.
    - pose proof (map_find_in _ _ _ F) as L. destruct (i_map _ _ _ I1 _ _ L) as (eo & So & Eo & Zo).
      assert (OP : Some p <> Some old).
      { intros E. assert (old = p) by congruence. subst old.
        destruct (i_pend _ _ _ I1 p eq_refl) as (? & _ & _ & _ & A & _). apply A, in_ptrs. eauto. }
      destruct (invalidate_ok _ _ _ _ _ I1 So Zo OP) as (c2' & EV & D2 & I2).
      rewrite (invalidate_skip _ _ _ So Zo) in EV.
      destruct (invalidate old true c1) as [c2|] eqn:EV'; [|discriminate].
      exists [old], c2. split; [reflexivity|]. exists c2'.
      split; [rewrite <- Eo; congruence|]. split; [exact D2|]. split; [exact I2|].
      split; [intros q [<-|[]]; exact L|].
      intros q J. rewrite (d_map _ _ _ D2) in J. apply in_minus_snd in J. destruct J as (J & Q).
      apply Q. left. cbn [snd].
      pose proof (i_ids _ _ _ I1) as NDI. clear -NDI L J. revert NDI L J.
      induction (c_map c1) as [|(a & b) l IH]; intros NDI L J; [inversion L|].
      cbn [map fst] in NDI. inversion NDI as [|? ? A B]; subst.
      destruct L as [L|L], J as [J|J]; try congruence; try (apply IH; assumption).
      + exfalso. apply A. apply in_map_iff. exists (id, q). split; [cbn [fst]; congruence|auto].
      + exfalso. apply A. apply in_map_iff. exists (id, old). split; [cbn [fst]; congruence|auto].
    - exists [], c1. split; [reflexivity|]. exists c1.
      pose proof (map_find_none _ _ F) as NF.
      split. {
        assert (Q : map_remove id (c_map c1) = c_map c1).
        { unfold map_remove. clear -NF. induction (c_map c1) as [|(a & b) l IH]; auto. cbn [filter fst].
          destruct (bytes_eqb id a) eqn:E.
          - apply bytes_eqb_spec in E. subst a. exfalso. apply (NF b). now left.
          - cbn [negb]. f_equal. apply IH. intros q J. apply (NF q). now right. }
        rewrite Q. now destruct c1. }
      split; [apply dropped_refl|]. split; [exact I1|]. split; [intros q []|exact NF]. }
  destruct RP as (R & c2 & EV2 & c2' & C2' & D2 & I2 & RI & FRESH).
  rewrite EV2.
  assert (NR : ~ In p R).
  { intros J. apply (d_live _ _ _ D2) in J.
    destruct (i_pend _ _ _ I1 p eq_refl) as (? & _ & _ & _ & A & _). contradiction. }
  assert (S2 : c_store c2' p = Some e) by (rewrite (d_same _ _ _ D2); auto).
  set (c4 := set_lru (p :: c_lru c2') (set_map ((id, p) :: c_map c2') c2')).
  assert (C4 : set_lru (p :: c_lru (set_map ((id, p) :: map_remove id (c_map c2)) c2))
                 (set_map ((id, p) :: map_remove id (c_map c2)) c2) = c4).
  { unfold c4. subst c2'. reflexivity. }
  cbv zeta. rewrite C4.
  assert (I4 : cinv c4 n None) by (eapply enter_ok; eauto).
  destruct (evict_loop_ok (length (c_map c4)) p c4 n I4) as (T & c5 & E5 & D5 & I5 & LR5 & HD5 & CAP5 & FULL5).
  { lia. }
  { cbn [c4 set_lru set_map c_cap]. rewrite (d_cap _ _ _ D2), (d_cap _ _ _ D1). cbn [c0 alloc_entry c_cap].
    destruct CAP. lia. }
  { unfold c4. cbn [set_lru c_lru]. eauto. }
  rewrite E5.
  assert (NT : ~ In p (rev T)).
  { rewrite <- in_rev. intros J. pose proof (i_lru_nd _ _ _ I4) as NDL. rewrite LR5 in NDL.
    destruct HD5 as (l5 & HD5). rewrite HD5 in NDL. cbn [app] in NDL. inversion NDL as [|? ? A B].
    apply A. apply in_app_iff. now right. }
  assert (S5 : c_store c5 p = Some e) by (rewrite (d_same _ _ _ D5) by auto; exact S2).
  rewrite S5. change (ce_refs e) with 1%nat.
  assert (K5 : keeps c c5).
  { eapply keeps_trans; [exact K0|]. eapply keeps_trans; [eapply dropped_keeps; exact D1|].
    eapply keeps_trans; [eapply dropped_keeps; exact D2|].
    eapply keeps_trans; [|eapply dropped_keeps; exact D5].
    split; [reflexivity|]. split; [cbn; lia|]. intros q e' L S. eauto. }
  eexists. exists (Some p). split; [reflexivity|].
  split. { eapply keeps_trans; [exact K5|]. eapply put_at_keeps; eauto. }
  split. { split; cbn [put_at set_store c_cap c_map].
    - destruct K5 as (-> & _). now destruct CAP.
    - rewrite (d_cap _ _ _ D5). exact CAP5. }
  split; [reflexivity|].
  split. { eapply cinv_update; eauto; try reflexivity.
    - cbn [with_refs ce_refs e fresh_entry ce_zombie]. rewrite bump_same.
      destruct (i_pend _ _ _ I2 p eq_refl) as (? & _ & _ & _ & _ & ->). reflexivity.
    - discriminate.
    - intros. now apply bump_other.
    - discriminate. }
  exists D, R, T. constructor.
  - exists now, m. split; [auto|]. split; [auto|]. cbn [put_at set_store c_store]. apply upd_same.
  - cbn [put_at set_store c_lru]. rewrite <- LR5. unfold c4. cbn [set_lru c_lru].
    rewrite (d_lru _ _ _ D2), (d_lru _ _ _ D1), minus_minus. reflexivity.
  - cbn [put_at set_store c_map]. rewrite (d_map _ _ _ D5). unfold c4. cbn [set_lru set_map c_map].
    rewrite (d_map _ _ _ D2), (d_map _ _ _ D1), minus_snd_minus_snd. reflexivity.
  - intros q Q. apply RI in Q. rewrite (d_map _ _ _ D1) in Q. apply in_minus_snd in Q. tauto.
  - intros q Q. unfold ttl_done in TTL. destruct (ch_clock2 h) as [t|]; [|subst D; inversion Q].
    exists t. split; [auto|]. destruct TTL as (_ & _ & A & _). destruct (A q Q) as (_ & B).
    rewrite X0 in B; auto. intros ->. contradiction.
  - cbn [put_at set_store c_map]. intros NE. rewrite (FULL5 NE). unfold c4. cbn [set_lru set_map c_cap].
    now rewrite (d_cap _ _ _ D2), (d_cap _ _ _ D1).
  - exact HD5.
  - cbn [put_at set_store c_next]. rewrite (d_next _ _ _ D5). unfold c4. cbn [set_lru set_map c_next].
    rewrite (d_next _ _ _ D2), (d_next _ _ _ D1). reflexivity.
Qed.

Definition down (p : nat) (n : nat -> nat) : nat -> nat :=
  fun q => if Nat.eqb q p then pred (n q) else n q.
Lemma down_same : forall p n, down p n p = pred (n p).
Proof. intros. unfold down. now rewrite Nat.eqb_refl. Qed.
Lemma down_other : forall p n q, q <> p -> down p n q = n q.
Proof. intros. unfold down. destruct (Nat.eqb_spec q p); [contradiction|reflexivity]. Qed.

Lemma destroy_zombie_ok : forall c n p e, cinv c n None -> c_store c p = Some e -> ce_zombie e = true ->
  n p = 1%nat -> cinv (destroy_entry p c) (down p n) None.
Proof.
  intros c n p e I S Z NP. pose proof (lt_next _ _ _ _ _ I S) as LT. destruct I.
  assert (ST : forall q, q <> p -> c_store (destroy_entry p c) q = c_store c q)
    by (intros; cbn; now apply upd_other).
  assert (SP : c_store (destroy_entry p c) p = None) by (cbn; now apply upd_same).
  constructor; try assumption.
  - intros i q J. cbn [destroy_entry c_map] in J. destruct (i_map0 _ _ J) as (e0 & S0 & E0 & Z0).
    assert (q <> p) by congruence. rewrite ST by auto. eauto.
  - intros q. cbn [destroy_entry c_heap]. rewrite i_heap0. destruct (Nat.eq_dec q p) as [->|Q].
    + rewrite SP. split; intros (e0 & S0 & Z0 & E0); congruence.
    + now rewrite ST.
  - intros q e0 S0. assert (q <> p) by congruence. rewrite ST in S0 by auto. rewrite down_other by auto. auto.
  - intros q e0 S0 Z0 X0. assert (q <> p) by congruence. rewrite ST in S0 by auto.
    cbn [destroy_entry c_map]. auto.
  - intros q S0. destruct (Nat.eq_dec q p) as [->|Q]; [rewrite down_same, NP; auto|].
    rewrite ST in S0 by auto. rewrite down_other by auto. auto.
  - intros q Q. cbn [destroy_entry c_next] in Q. rewrite ST by lia. auto.
  - cbn [destroy_entry c_freed]. constructor; auto. rewrite i_freed0. intros (_ & A). congruence.
  - intros q. cbn [destroy_entry c_freed c_next]. cbn [In]. rewrite i_freed0.
    destruct (Nat.eq_dec q p) as [->|Q].
    + split; [auto|]. intros _. now left.
    + rewrite ST by auto. split; [intros [A|A]; [congruence|auto]|auto].
  - intros q Xq. discriminate.
Qed.

Lemma destroy_keeps : forall p c, keeps c (destroy_entry p c).
Proof.
  intros. split; [reflexivity|]. split; [cbn; lia|]. intros q e' L S.
  cbn [destroy_entry c_store] in S. destruct (Nat.eq_dec q p) as [->|Q].
  - rewrite upd_same in S. discriminate.
  - rewrite upd_other in S by auto. eauto.
Qed.

Lemma drop_ref_ok : forall c n p e, cinv c n None -> c_store c p = Some e -> n p <> 0%nat ->
  exists c', drop_ref p c = Some c' /\ cinv c' (down p n) None /\ keeps c c' /\
    c_map c' = c_map c /\ c_lru c' = c_lru c /\ c_heap c' = c_heap c /\
    (forall q, q <> p -> c_store c' q = c_store c q) /\
    (ce_zombie e = false -> exists e', c_store c' p = Some e' /\ ce_zombie e' = false).
Proof.
  intros c n p e I S NP. pose proof (i_refs _ _ _ I _ _ S) as (R & R0). unfold drop_ref. rewrite S.
  destruct (ce_refs e) as [|[|k]] eqn:RE; [congruence| |].
  - destruct (ce_zombie e) eqn:Z; [|lia].
    exists (destroy_entry p c). split; [reflexivity|]. split; [eapply destroy_zombie_ok; eauto; lia|].
    split; [apply destroy_keeps|]. split; [reflexivity|]. split; [reflexivity|]. split; [reflexivity|].
    split; [intros; cbn; now apply upd_other|]. discriminate.
  - exists (put_at p (with_refs (Datatypes.S k) e) c). split; [reflexivity|].
    split. { eapply cinv_update; eauto; try reflexivity.
      - rewrite down_same. cbn [with_refs ce_refs]. destruct (ce_zombie e); lia.
      - discriminate.
      - intros. now apply down_other.
      - discriminate. }
    split; [eapply put_at_keeps; eauto|]. split; [reflexivity|]. split; [reflexivity|]. split; [reflexivity|].
    split; [intros; cbn; now apply upd_other|]. intros Z. eexists. split; [cbn; apply upd_same|exact Z].
Qed.

Lemma cinv_ext : forall c n n' x, cinv c n x -> (forall p, n' p = n p) -> cinv c n' x.
Proof.
  intros c n n' x I E. destruct I. constructor; auto.
  - intros p e S. rewrite E. auto.
  - intros p S. rewrite E. auto.
  - intros p X. destruct (i_pend0 p X) as (e & A). exists e. rewrite E. exact A.
Qed.

Lemma invalidate_set_map : forall p m c, invalidate p true (set_map m c) =
  match invalidate p true c with None => None | Some c' => Some (set_map m c') end.
Proof.
  intros. unfold invalidate. cbn [set_map c_store]. destruct (c_store c p) as [e|]; auto.
  destruct (ce_zombie e); auto. unfold drop_ref.
  destruct (ce_expiry e =? NO_EXPIRY); cbn [c_store put_at set_store set_lru set_heap set_map];
    rewrite !upd_same; cbn [ce_refs with_zombie ce_zombie]; destruct (ce_refs e) as [|[|k]]; reflexivity.
Qed.

Lemma clear_loop_ok : forall ps c n, cinv (set_map ps c) n None ->
  exists c', clear_loop ps c = Some c' /\ dropped (map snd ps) (set_map ps c) c' /\ cinv c' n None
    /\ c_map c' = [].
Proof.
  induction ps as [|(id & p) ps IH]; intros c n I; cbn [clear_loop].
  - exists (set_map [] c). split; [reflexivity|]. split; [apply dropped_refl|]. split; [exact I|reflexivity].
  - destruct (i_map _ _ _ I id p (or_introl eq_refl)) as (e & S & ID & Z).
    destruct (invalidate_ok _ _ _ _ _ I S Z) as (c1 & EV & D1 & I1); [discriminate|].
    rewrite (invalidate_skip _ _ _ S Z), invalidate_set_map in EV.
    destruct (invalidate p true c) as [c2|] eqn:E2; [|discriminate].
    assert (C1 : c1 = set_map ps c2).
    { assert (Q : map_remove (ce_id e) ((id, p) :: ps) = ps).
      { rewrite ID. unfold map_remove. cbn [filter fst]. rewrite bytes_eqb_refl. cbn [negb].
        pose proof (i_ids _ _ _ I) as ND. cbn [set_map c_map map fst] in ND. inversion ND as [|? ? A B]; subst.
        clear -A. induction ps as [|(a & b) l IHl]; auto. cbn [filter fst].
        destruct (bytes_eqb (ce_id e) a) eqn:E.
        - apply bytes_eqb_spec in E. exfalso. apply A. left. now cbn.
        - cbn [negb]. f_equal. apply IHl. intros J. apply A. now right. }
      cbn [set_map c_map] in EV. rewrite Q in EV. symmetry. injection EV as EV. exact EV. }
    subst c1. destruct (IH c2 n I1) as (c3 & E3 & D3 & I3 & M3). exists c3.
    split; [exact E3|]. split; [exact (dropped_trans [p] _ _ _ _ D1 D3)|]. auto.
Qed.

Lemma locked_release_ok : forall c n p e, cinv c n None -> cap_ok c -> c_store c p = Some e -> n p <> 0%nat ->
  ce_zombie e = false ->
  exists c', locked_release p true c = Some c' /\ cinv c' (down p n) None /\ keeps c c' /\ cap_ok c' /\
    c_lru c' = minus (c_lru c) [p] /\ c_map c' = minus_snd (c_map c) [p].
Proof.
  intros c n p e I CAP S NP Z. unfold locked_release.
  destruct (drop_ref_ok _ _ _ _ I S NP) as (c1 & E1 & I1 & K1 & M1 & L1 & H1 & O1 & Z1). rewrite E1.
  destruct (Z1 Z) as (e1 & S1 & ZZ). rewrite S1, ZZ. cbn [andb negb].
  destruct (invalidate_ok _ _ _ _ _ I1 S1 ZZ) as (c2 & E2 & D2 & I2); [discriminate|].
  exists c2. split; [exact E2|]. split; [exact I2|].
  split; [eapply keeps_trans; [exact K1|eapply dropped_keeps; exact D2]|].
  split. { eapply dropped_cap; [exact D2|]. destruct K1 as (C1 & _). unfold cap_ok. now rewrite C1, M1. }
  rewrite (d_lru _ _ _ D2), (d_map _ _ _ D2), M1, L1. auto.
Qed.

Lemma hint_ok : forall h c n p e t, cinv c n None -> c_store c p = Some e -> ce_zombie e = false ->
  t < ce_expiry e ->
  let c1 := if ce_expiry e <? NO_EXPIRY then set_heap (without p (c_heap c)) c else c in
  let c' := if ch_push h then set_heap (p :: c_heap c1) (put_at p (with_expiry t e) c1)
            else put_at p (with_expiry NO_EXPIRY e) c1 in
  ce_expiry e <= NO_EXPIRY -> cinv c' n None.
Proof.
  intros h c n p e t I S Z LT c1 c' MAX.
  pose proof (lt_next _ _ _ _ _ I S) as LN.
  assert (C1 : c1 = set_heap (minus (c_heap c) [p]) c).
  { unfold c1. destruct (N.ltb_spec (ce_expiry e) NO_EXPIRY) as [L|L].
    - now rewrite without_minus.
    - rewrite minus_id; [now destruct c|]. intros q Q [<-|[]].
      apply (i_heap _ _ _ I) in Q. destruct Q as (e' & S' & _ & E'). assert (e' = e) by congruence. subst e'.
      apply E'. lia. }
  set (hp := if ch_push h then p :: minus (c_heap c) [p] else minus (c_heap c) [p]).
  set (e' := if ch_push h then with_expiry t e else with_expiry NO_EXPIRY e).
  assert (C' : c' = mk_cache (c_cap c) (c_map c) (c_lru c) hp (upd (c_store c) p (Some e')) (c_next c) (c_freed c)).
  { unfold c', hp, e'. rewrite C1. destruct (ch_push h); reflexivity. }
  rewrite C'. clear C' c' C1 c1. pose proof (i_live _ _ _ I _ _ S Z) as LV. destruct I.
  assert (ID : ce_id e' = ce_id e /\ ce_zombie e' = false /\ ce_refs e' = ce_refs e)
    by (unfold e'; destruct (ch_push h); auto).
  destruct ID as (ID & Z' & RF).
  assert (ST : forall q, q <> p -> upd (c_store c) p (Some e') q = c_store c q)
    by (intros; now apply upd_other).
  assert (SP : upd (c_store c) p (Some e') p = Some e') by (now apply upd_same).
  constructor; cbn [c_map c_lru c_heap c_store c_next c_freed c_cap]; try assumption.
  - intros i q J. destruct (i_map0 _ _ J) as (e0 & S0 & E0 & Z0).
    destruct (Nat.eq_dec q p) as [->|Q].
    + exists e'. rewrite SP. split; [auto|]. split; congruence.
    + rewrite ST by auto. eauto.
  - unfold hp. destruct (ch_push h); [|now apply NoDup_filter].
    constructor; [|now apply NoDup_filter]. rewrite in_minus. cbn. tauto.
  - intros q. destruct (Nat.eq_dec q p) as [->|Q].
    + rewrite SP. unfold hp, e'. destruct (ch_push h).
      * split; [|intros _; now left]. intros _. exists (with_expiry t e). split; [auto|]. split; [exact Z|].
        cbn [with_expiry ce_expiry]. lia.
      * rewrite in_minus. split; [intros (_ & A); cbn in A; tauto|]. intros (e0 & A & _ & B).
        assert (e0 = with_expiry NO_EXPIRY e) by congruence. subst e0. exfalso. now apply B.
    + rewrite ST by auto. rewrite <- i_heap0.
      assert (A : In q hp <-> In q (minus (c_heap c) [p])).
      { unfold hp. destruct (ch_push h); [|tauto]. cbn [In]. split; [intros [X|X]; [congruence|auto]|auto]. }
      rewrite A, in_minus. cbn. split; [tauto|]. intros B. split; auto. intros [C|[]]. auto.
  - intros q e0 S0. destruct (Nat.eq_dec q p) as [->|Q].
    + rewrite SP in S0. assert (e0 = e') by congruence. subst e0. rewrite RF, Z'.
      destruct (i_refs0 _ _ S) as (A & B). rewrite Z in A. auto.
    + rewrite ST in S0 by auto. auto.
  - intros q e0 S0 Z0 X0. destruct (Nat.eq_dec q p) as [->|Q].
    + rewrite SP in S0. assert (e0 = e') by congruence. subst e0. rewrite ID. apply LV. discriminate.
    + rewrite ST in S0 by auto. auto.
  - intros q S0. destruct (Nat.eq_dec q p) as [->|Q]; [congruence|]. rewrite ST in S0 by auto. auto.
  - intros q Q. rewrite ST by lia. auto.
  - intros q. rewrite i_freed0. destruct (Nat.eq_dec q p) as [->|Q].
    + rewrite SP. split; intros (A & B); congruence.
    + now rewrite ST.
  - discriminate.
Qed.

(** * One operation *)

Definition account (n : nat -> nat) (x : cop * resp) : nat -> nat :=
  match hands_out x, gives_back x with
  | Some p, _ => bump p n
  | None, Some p => down p n
  | None, None => n
  end.

Definition exp_ok (c : cache) : Prop := forall p e, c_store c p = Some e -> ce_expiry e <= NO_EXPIRY.
Definition cok (c : cache) (n : nat -> nat) : Prop := cinv c n None /\ cap_ok c /\ exp_ok c.

Definition evolved (o : cop) (p : nat) (e e' : centry) : Prop :=
  ce_id e' = ce_id e /\ ce_created e' = ce_created e /\ ce_mat e' = ce_mat e
  /\ (ce_zombie e = true -> ce_zombie e' = true)
  /\ ce_bytes e' = (match o with
                    | KAddBytes q k => if Nat.eqb q p then add64 (ce_bytes e) k else ce_bytes e
                    | _ => ce_bytes e
                    end)
  /\ ce_msgs e' = (match o with
                   | KAddMsgs q k => if Nat.eqb q p then add64 (ce_msgs e) k else ce_msgs e
                   | _ => ce_msgs e
                   end)
  /\ (ce_expiry e' = ce_expiry e
      \/ exists t, o = KHint p t /\ t < ce_expiry e /\ (ce_expiry e' = t \/ ce_expiry e' = NO_EXPIRY)).

(** The contents of a freshly put entry. *)
Definition put_content (io : sigio) (o : cop) (e : centry) : Prop :=
  ce_zombie e = false /\ ce_expiry e = NO_EXPIRY /\
  match o with
  | KPutEnc m ub um ctx id => ce_id e = id /\ cache_enc io m ctx = Some (ce_mat e)
                              /\ ce_bytes e = ub /\ ce_msgs e = um
  | KPutDec m id => ce_id e = id /\ cache_dec io m = Some (ce_mat e) /\ ce_bytes e = 0 /\ ce_msgs e = 0
  | _ => False
  end.

Record step_facts (io : sigio) (o : cop) (r : resp) (c c' : cache) : Prop := mk_step_facts {
  sf_cap : c_cap c' = c_cap c;
  sf_next : (c_next c <= c_next c')%nat;
  sf_old : forall p e', (p < c_next c)%nat -> c_store c' p = Some e' ->
      exists e, c_store c p = Some e /\ evolved o p e e';
  sf_new : forall p e', (c_next c <= p)%nat -> c_store c' p = Some e' ->
      p = c_next c /\ r = RPut (Some p) /\ put_content io o e';
  sf_lru : match hands_out (o, r) with
           | None => exists D, c_lru c' = minus (c_lru c) D
           | Some p => exists l T D, c_lru c' = p :: l /\ l ++ T = minus (c_lru c) D /\ ~ In p (l ++ T)
           end;
  sf_found : forall p b, r = RFound (Some (p, b)) -> exists id e,
      o = KFind id /\ In (id, p) (c_map c) /\ In (id, p) (c_map c') /\ c_store c' p = Some e
      /\ ce_id e = id /\ b = is_enc (ce_mat e);
  sf_put : forall p, r = RPut (Some p) -> p = c_next c /\ c_next c' = S p /\
      exists e, c_store c' p = Some e /\ In (ce_id e, p) (c_map c');
}.

Lemma strip_evolved : forall o p e e', strip e' = strip e -> (ce_zombie e = true -> ce_zombie e' = true) ->
  (forall q k, o <> KAddBytes q k) -> (forall q k, o <> KAddMsgs q k) -> evolved o p e e'.
Proof.
  intros o p e e' S Z A B. unfold strip, with_refs, with_zombie in S. cbn in S.
  injection S as H1 H2 H3 H4 H5 H6. unfold evolved.
  do 3 (split; [assumption|]). split; [assumption|].
  split. { destruct o; auto. exfalso. eapply A; reflexivity. }
  split. { destruct o; auto. exfalso. eapply B; reflexivity. }
  now left.
Qed.

Lemma keeps_exp : forall c c', keeps c c' -> exp_ok c ->
  (forall p e, (c_next c <= p)%nat -> c_store c' p = Some e -> ce_expiry e <= NO_EXPIRY) -> exp_ok c'.
Proof.
  intros c c' (_ & _ & K) E H p e S. destruct (Nat.lt_ge_cases p (c_next c)) as [L|L]; eauto.
  destruct (K p e L S) as (e0 & S0 & ST & _). apply E in S0.
  unfold strip, with_refs, with_zombie in ST. cbn in ST. injection ST as H1 H2 H3 H4 H5 H6. congruence.
Qed.

Lemma keeps_old : forall o c c', keeps c c' ->
  (forall q k, o <> KAddBytes q k) -> (forall q k, o <> KAddMsgs q k) ->
  forall p e', (p < c_next c)%nat -> c_store c' p = Some e' ->
  exists e, c_store c p = Some e /\ evolved o p e e'.
Proof.
  intros o c c' (_ & _ & K) A B p e' L S. destruct (K p e' L S) as (e & S0 & ST & Z).
  exists e. split; [auto|]. now apply strip_evolved.
Qed.

(** Operations that hand out nothing and allocate nothing. *)
Lemma quiet_facts : forall io o r c c' n,
  cinv c' n None -> c_next c' = c_next c -> keeps c c' -> (exists D, c_lru c' = minus (c_lru c) D) ->
  (forall q k, o <> KAddBytes q k) -> (forall q k, o <> KAddMsgs q k) ->
  (forall p b, r <> RFound (Some (p, b))) -> (forall p, r <> RPut (Some p)) ->
  step_facts io o r c c'.
Proof.
  intros io o r c c' n I NX K L A B F P. constructor.
  - apply K.
  - apply K.
  - now apply keeps_old.
  - intros p e' G S. rewrite (i_next _ _ _ I) in S; [discriminate|lia].
  - assert (E : hands_out (o, r) = None).
    { unfold hands_out. cbn [snd]. destruct r as [[[p b]|]|[p|]| | | | | | | |]; auto;
        [now destruct (F p b)|now destruct (P p)]. }
    rewrite E. exact L.
  - intros p b E. now destruct (F p b).
  - intros p E. now destruct (P p).
Qed.

Lemma keeps_next_dropped : forall D c c', dropped D c c' -> c_next c' = c_next c.
Proof. intros D c c' H. apply (d_next _ _ _ H). Qed.

Lemma lru_self : forall l, exists D, l = minus l D.
Proof. intros. exists []. now rewrite minus_nil. Qed.

(** find *)
Lemma find_ok : forall io h id c n, cok c n ->
  exists c' r, cstep io h (KFind id) c = Some (c', r) /\ cok c' (account n (KFind id, r))
    /\ step_facts io (KFind id) r c c'.
Proof.
  intros io h id c n (I & CAP & EXP). cbn [cstep].
  assert (NB : forall q k, KFind id <> KAddBytes q k) by discriminate.
  assert (NM : forall q k, KFind id <> KAddMsgs q k) by discriminate.
  destruct (ch_lock h); cbn [negb].
  2:{ exists c, (RFound None). split; [reflexivity|]. split; [now split|].
      eapply quiet_facts; eauto using keeps_refl, lru_self; discriminate. }
  destruct (process_ttls_ok (ch_clock h) c n None I) as (D & c1 & E1 & D1 & I1 & TTL). rewrite E1.
  pose proof (dropped_keeps _ _ _ D1) as K1. pose proof (dropped_cap _ _ _ D1 CAP) as CAP1.
  assert (EXP1 : exp_ok c1).
  { eapply keeps_exp; eauto. intros p e G S. rewrite (i_next _ _ _ I1) in S; [discriminate|].
    rewrite (d_next _ _ _ D1). exact G. }
  destruct (map_find id (c_map c1)) as [p|] eqn:F.
  2:{ exists c1, (RFound None). split; [reflexivity|]. split; [now split|].
      eapply quiet_facts; eauto; try discriminate; [apply (d_next _ _ _ D1)|].
      exists D. apply (d_lru _ _ _ D1). }
  pose proof (map_find_in _ _ _ F) as L. destruct (i_map _ _ _ I1 _ _ L) as (e & S & ID & Z). rewrite S.
  assert (PL : In p (c_lru c1)) by (apply (i_lru _ _ _ I1), in_ptrs; eauto).
  destruct (touch_spec p (c_lru c1) PL (i_lru_nd _ _ _ I1)) as (ND & TI).
  assert (I2 : cinv (set_lru (p :: without p (c_lru c1)) c1) n None) by (apply cinv_set_lru; auto).
  eexists. eexists. split; [reflexivity|].
  assert (K2 : keeps c (put_at p (with_refs (Datatypes.S (ce_refs e)) e) (set_lru (p :: without p (c_lru c1)) c1))).
  { eapply keeps_trans; [exact K1|]. eapply keeps_trans with (b := set_lru (p :: without p (c_lru c1)) c1).
    - split; [reflexivity|]. split; [cbn; lia|]. intros q e' _ S'. eauto.
    - eapply put_at_keeps; eauto. }
  pose proof (i_refs _ _ _ I1 _ _ S) as (RF & _).
  assert (I3 : cinv (put_at p (with_refs (Datatypes.S (ce_refs e)) e) (set_lru (p :: without p (c_lru c1)) c1)) (bump p n) None).
  { eapply cinv_update; eauto; try reflexivity; try discriminate.
    - rewrite bump_same. cbn [with_refs ce_refs]. rewrite RF. lia.
    - intros. now apply bump_other. }
  split.
  - cbn [account hands_out snd]. split; [exact I3|]. split; [exact CAP1|].
    eapply keeps_exp; eauto. intros q e' G S'.
    cbn [put_at set_store set_lru c_store] in S'. destruct (Nat.eq_dec q p) as [->|Q].
    + rewrite upd_same in S'. assert (e' = with_refs (Datatypes.S (ce_refs e)) e) by congruence. subst e'.
      apply (EXP1 _ _ S).
    + rewrite upd_other in S' by auto. eauto.
  - constructor.
    + apply K2.
    + apply K2.
    + now apply keeps_old.
    + intros q e' G S'. rewrite (i_next _ _ _ I3) in S'; [discriminate|].
      cbn [put_at set_store set_lru c_next]. rewrite (d_next _ _ _ D1). exact G.
    + cbn [hands_out snd]. exists (without p (c_lru c1)), [], (D ++ [p]).
      split; [reflexivity|]. rewrite app_nil_r, without_minus, (d_lru _ _ _ D1), minus_minus.
      split; [reflexivity|]. rewrite in_minus, in_app_iff. cbn. tauto.
    + intros q b E. injection E as Eq Eb. subst q b. exists id. eexists.
      split; [reflexivity|]. split. { rewrite (d_map _ _ _ D1) in L. apply in_minus_snd in L. tauto. }
      split; [exact L|]. cbn [put_at set_store set_lru c_store]. rewrite upd_same.
      split; [reflexivity|]. split; [exact ID|reflexivity].
    + discriminate.
Qed.

(** put *)
Lemma put_ok : forall io h mat ub um id c n o, cok c n ->
  cstep io h o c = match put_entry h mat ub um id c with None => None | Some (c', r) => Some (c', RPut r) end ->
  (forall q k, o <> KAddBytes q k) -> (forall q k, o <> KAddMsgs q k) ->
  (forall r, gives_back (o, r) = None) ->
  (forall now m e, mat = Some m -> e = with_refs 2 (fresh_entry id now m ub um) -> put_content io o e) ->
  exists c' r, cstep io h o c = Some (c', r) /\ cok c' (account n (o, r))
    /\ step_facts io o r c c'.
Proof.
  intros io h mat ub um id c n o (I & CAP & EXP) EQ NB NM GB PC. rewrite EQ.
  destruct (put_entry_ok h mat ub um id c n I CAP) as (c' & r & E & K & CAP' & R). rewrite E.
  exists c', (RPut r). split; [reflexivity|]. destruct r as [p|].
  - destruct R as (P & I' & D & R & T & PD). destruct PD.
    destruct pd_entry0 as (now & m & CK & MT & SP).
    split.
    + cbn [account hands_out snd]. split; [exact I'|]. split; [exact CAP'|]. eapply keeps_exp; eauto.
      intros q e G S. assert (q = p).
      { destruct (Nat.eq_dec q p); auto. rewrite (i_next _ _ _ I') in S; [discriminate|]. rewrite pd_next0. lia. }
      subst q. rewrite SP in S. assert (e = with_refs 2 (fresh_entry id now m ub um)) by congruence. subst e.
      cbn. lia.
    + assert (HD : exists l, c_lru c' = p :: l) by exact pd_head0. destruct HD as (l & HD).
      constructor.
      * apply K.
      * apply K.
      * now apply keeps_old.
      * intros q e G S. assert (q = p).
        { destruct (Nat.eq_dec q p); auto. rewrite (i_next _ _ _ I') in S; [discriminate|]. rewrite pd_next0. lia. }
        subst q. split; [auto|]. split; [auto|]. apply (PC now m); [exact MT|congruence].
      * cbn [hands_out snd]. exists l, T, (D ++ R). split; [exact HD|]. rewrite HD in pd_lru0. cbn [app] in pd_lru0.
        injection pd_lru0 as Q. split; [auto|]. rewrite <- Q, in_minus. intros (A & _).
        apply (i_lru _ _ _ I) in A. apply in_ptrs in A. destruct A as (i & A).
        destruct (i_map _ _ _ I _ _ A) as (e0 & S0 & _). apply (lt_next _ _ _ _ _ I) in S0. lia.
      * discriminate.
      * intros q Eq. injection Eq as <-. split; [auto|]. split; [exact pd_next0|]. eexists. split; [exact SP|].
        apply (i_live _ _ _ I'); [exact SP|reflexivity|discriminate].
  - destruct R as (I' & D & LR & MP).
    assert (NXT : forall q e, (c_next c <= q)%nat -> c_store c' q = Some e -> False).
    { intros q e G S. pose proof (i_live _ _ _ I' _ _ S) as LV. destruct (ce_zombie e) eqn:Z.
      - pose proof (i_refs _ _ _ I' _ _ S) as (RF & R0). rewrite Z in RF.
        assert (n q = 0%nat) by (apply (i_none _ _ _ I), (i_next _ _ _ I); auto). lia.
      - assert (J : In (ce_id e, q) (c_map c')) by (apply LV; [auto|discriminate]).
        rewrite MP in J. apply in_minus_snd in J. destruct J as (J & _).
        destruct (i_map _ _ _ I _ _ J) as (e0 & S0 & _). apply (lt_next _ _ _ _ _ I) in S0. lia. }
    split.
    + unfold account. cbn [hands_out snd]. rewrite GB. split; [exact I'|]. split; [exact CAP'|].
      eapply keeps_exp; eauto. intros q e G S. exfalso. eauto.
    + constructor.
      * apply K.
      * apply K.
      * now apply keeps_old.
      * intros q e G S. exfalso. eauto.
      * cbn [hands_out snd]. eauto.
      * discriminate.
      * discriminate.
Qed.

(** Changes to usage or expiry of one entry. *)
Lemma local_facts : forall io o r c c' p e e' n,
  cinv c n None -> cinv c' n None -> c_store c p = Some e -> c_cap c' = c_cap c -> c_next c' = c_next c ->
  c_lru c' = c_lru c -> (forall q, c_store c' q = upd (c_store c) p (Some e') q) ->
  evolved o p e e' -> (forall q e0, q <> p -> evolved o q e0 e0) ->
  (forall q b, r <> RFound (Some (q, b))) -> (forall q, r <> RPut (Some q)) ->
  step_facts io o r c c'.
Proof.
  intros io o r c c' p e e' n I I' S CP NX LR ST EV OT F P. constructor.
  - exact CP.
  - lia.
  - intros q e1 L S1. rewrite ST in S1. destruct (Nat.eq_dec q p) as [->|Q].
    + rewrite upd_same in S1. assert (e1 = e') by congruence. subst. eauto.
    + rewrite upd_other in S1 by auto. eauto.
  - intros q e1 G S1. rewrite (i_next _ _ _ I') in S1; [discriminate|lia].
  - assert (E : hands_out (o, r) = None).
    { unfold hands_out. cbn [snd]. destruct r as [[[q b]|]|[q|]| | | | | | | |]; auto;
        [now destruct (F q b)|now destruct (P q)]. }
    rewrite E, LR. apply lru_self.
  - intros q b E. now destruct (F q b).
  - intros q E. now destruct (P q).
Qed.

Lemma cstep_ok : forall io h o c n, cok c n -> (forall p, uses o = Some p -> n p <> 0%nat) ->
  exists c' r, cstep io h o c = Some (c', r) /\ cok c' (account n (o, r)) /\ step_facts io o r c c'.
Proof.
  intros io h o c n OK US. pose proof OK as (I & CAP & EXP).
  assert (HAS : forall p, uses o = Some p -> exists e, c_store c p = Some e).
  { intros p U. specialize (US p U). destruct (c_store c p) as [e|] eqn:S; eauto.
    exfalso. apply US. now apply (i_none _ _ _ I). }
  assert (ADD : forall p e b m, c_store c p = Some e -> cok (put_at p (with_usage b m e) c) n).
  { intros p e b m S. pose proof (i_refs _ _ _ I _ _ S) as (RF & R0). split; [|split].
    - eapply cinv_update; eauto; try reflexivity; try discriminate.
    - exact CAP.
    - intros q e' S'. cbn [put_at set_store c_store] in S'. destruct (Nat.eq_dec q p) as [->|Q].
      + rewrite upd_same in S'. assert (e' = with_usage b m e) by congruence. subst. apply (EXP _ _ S).
      + rewrite upd_other in S' by auto. eauto. }
  assert (SAME : forall r, (forall q b, r <> RFound (Some (q, b))) -> (forall q, r <> RPut (Some q)) ->
    (forall q k, o <> KAddBytes q k) -> (forall q k, o <> KAddMsgs q k) -> step_facts io o r c c).
  { intros. eapply quiet_facts; eauto using keeps_refl, lru_self. }
  destruct o as [id|m ub um ctx id|m id|p|p k|p k|p ctx|p|p|p t|p inval| |].
  - now apply find_ok.
  - eapply put_ok; try eassumption; [reflexivity|discriminate|discriminate|auto|].
    intros now m0 e M E. subst e. split; [reflexivity|]. split; [reflexivity|]. cbn. auto.
  - eapply put_ok; try eassumption; [reflexivity|discriminate|discriminate|auto|].
    intros now m0 e M E. subst e. split; [reflexivity|]. split; [reflexivity|]. cbn. auto.
  - destruct (HAS p eq_refl) as (e & S). cbn [cstep]. rewrite S. eexists _, _. split; [reflexivity|].
    split; [exact OK|]. apply SAME; discriminate.
  - destruct (HAS p eq_refl) as (e & S). cbn [cstep]. rewrite S. cbv zeta. eexists _, _. split; [reflexivity|].
    split; [now apply ADD|]. destruct (ADD p e (add64 (ce_bytes e) k) (ce_msgs e) S) as (I' & _).
    eapply local_facts with (e := e) (e' := with_usage (add64 (ce_bytes e) k) (ce_msgs e) e); eauto; try discriminate.
    + unfold evolved. cbn. rewrite Nat.eqb_refl. auto 10.
    + intros q e0 Q. unfold evolved. destruct (Nat.eqb_spec p q); [congruence|]. auto 10.
  - destruct (HAS p eq_refl) as (e & S). cbn [cstep]. rewrite S. cbv zeta. eexists _, _. split; [reflexivity|].
    split; [now apply ADD|]. destruct (ADD p e (ce_bytes e) (add64 (ce_msgs e) k) S) as (I' & _).
    eapply local_facts with (e := e) (e' := with_usage (ce_bytes e) (add64 (ce_msgs e) k) e); eauto; try discriminate.
    + unfold evolved. cbn. rewrite Nat.eqb_refl. auto 10.
    + intros q e0 Q. unfold evolved. destruct (Nat.eqb_spec p q); [congruence|]. auto 10.
  - destruct (HAS p eq_refl) as (e & S). cbn [cstep]. rewrite S. destruct (get_enc io h e ctx) as (ctx' & r).
    eexists _, _. split; [reflexivity|]. split; [exact OK|]. apply SAME; discriminate.
  - destruct (HAS p eq_refl) as (e & S). cbn [cstep]. rewrite S. eexists _, _. split; [reflexivity|].
    split; [exact OK|]. apply SAME; discriminate.
  - destruct (HAS p eq_refl) as (e & S). cbn [cstep]. rewrite S. eexists _, _. split; [reflexivity|].
    split; [exact OK|]. apply SAME; discriminate.
  - destruct (HAS p eq_refl) as (e & S). cbn [cstep]. rewrite S.
    destruct (ce_zombie e) eqn:Z; cbn [orb].
    { eexists _, _. split; [reflexivity|]. split; [exact OK|]. apply SAME; discriminate. }
    destruct (N.leb_spec (ce_expiry e) t) as [L|L].
    { eexists _, _. split; [reflexivity|]. split; [exact OK|]. apply SAME; discriminate. }
    destruct (ch_lock h); cbn [negb].
    2:{ eexists _, _. split; [reflexivity|]. split; [exact OK|]. apply SAME; discriminate. }
    pose proof (hint_ok h c n p e t I S Z L (EXP _ _ S)) as I'. cbv zeta in I' |- *.
    set (c1 := if ce_expiry e <? NO_EXPIRY then set_heap (without p (c_heap c)) c else c) in *.
    set (e' := if ch_push h then with_expiry t e else with_expiry NO_EXPIRY e).
    assert (C1 : c_cap c1 = c_cap c /\ c_map c1 = c_map c /\ c_lru c1 = c_lru c /\ c_store c1 = c_store c
                 /\ c_next c1 = c_next c)
      by (unfold c1; destruct (ce_expiry e <? NO_EXPIRY); auto).
    destruct C1 as (C1 & C2 & C3 & C4 & C5).
    exists (if ch_push h then set_heap (p :: c_heap c1) (put_at p (with_expiry t e) c1)
            else put_at p (with_expiry NO_EXPIRY e) c1), RUnit.
    split; [now destruct (ch_push h)|].
    assert (ST : forall q, c_store (if ch_push h then set_heap (p :: c_heap c1) (put_at p (with_expiry t e) c1)
            else put_at p (with_expiry NO_EXPIRY e) c1) q = upd (c_store c) p (Some e') q).
    { intros q. unfold e'. destruct (ch_push h); cbn [set_heap put_at set_store c_store]; now rewrite C4. }
    assert (EE : ce_expiry e' <= NO_EXPIRY).
    { unfold e'. pose proof (EXP _ _ S). destruct (ch_push h); cbn [with_expiry ce_expiry]; lia. }
    split.
    + split; [exact I'|]. split.
      * unfold cap_ok. destruct (ch_push h); cbn [set_heap put_at set_store c_cap c_map]; now rewrite C1, C2.
      * intros q e0 S0. rewrite ST in S0. destruct (Nat.eq_dec q p) as [->|Q].
        -- rewrite upd_same in S0. congruence.
        -- rewrite upd_other in S0 by auto. eauto.
    + eapply local_facts with (e := e) (e' := e'); eauto; try discriminate.
      * destruct (ch_push h); cbn [set_heap put_at set_store c_cap]; now rewrite C1.
      * destruct (ch_push h); cbn [set_heap put_at set_store c_next]; now rewrite C5.
      * destruct (ch_push h); cbn [set_heap put_at set_store c_lru]; now rewrite C3.
      * unfold evolved, e'. destruct (ch_push h); cbn; (do 6 (split; [auto|])); right; exists t; auto.
      * intros q e0 Q. unfold evolved. auto 10.
  - destruct (HAS p eq_refl) as (e & S). cbn [cstep]. rewrite S.
    pose proof (US p eq_refl) as NP.
    destruct (inval && negb (ce_zombie e)) eqn:B.
    + apply andb_true_iff in B. destruct B as (-> & B). apply negb_true_iff in B.
      destruct (ch_lock h); cbn [negb].
      2:{ eexists _, _. split; [reflexivity|]. split; [exact OK|]. apply SAME; discriminate. }
      destruct (locked_release_ok c n p e I CAP S NP B) as (c' & E & I' & K & CAP' & LR & MP). rewrite E.
      eexists _, _. split; [reflexivity|].
      assert (NX : c_next c' = c_next c).
      { unfold locked_release in E.
        destruct (drop_ref_ok _ _ _ _ I S NP) as (c1 & E1 & I1 & K1 & M1 & L1 & H1 & O1 & Z1). rewrite E1 in E.
        assert (N1 : c_next c1 = c_next c).
        { unfold drop_ref in E1. rewrite S in E1. destruct (ce_refs e) as [|[|j]]; try discriminate.
          - rewrite B in E1. discriminate.
          - injection E1 as <-. reflexivity. }
        destruct (Z1 B) as (e1 & S1 & ZZ). rewrite S1, ZZ in E. cbn [andb negb] in E.
        destruct (invalidate_ok _ _ _ _ _ I1 S1 ZZ) as (c2 & E2 & D2 & I2); [discriminate|].
        rewrite E2 in E. injection E as <-. rewrite (d_next _ _ _ D2). exact N1. }
      split.
      * split; [exact I'|]. split; [exact CAP'|]. eapply keeps_exp; eauto. intros q e0 G S0.
        rewrite (i_next _ _ _ I') in S0; [discriminate|lia].
      * eapply quiet_facts; eauto; discriminate.
    + destruct (drop_ref_ok _ _ _ _ I S NP) as (c1 & E1 & I1 & K1 & M1 & L1 & H1 & O1 & Z1). rewrite E1.
      eexists _, _. split; [reflexivity|].
      assert (N1 : c_next c1 = c_next c).
      { unfold drop_ref in E1. rewrite S in E1. destruct (ce_refs e) as [|[|j]]; try discriminate.
        - destruct (ce_zombie e); [|discriminate]. injection E1 as <-. reflexivity.
        - injection E1 as <-. reflexivity. }
      split.
      * split; [exact I1|]. split; [destruct K1 as (CC & _); unfold cap_ok; now rewrite CC, M1|].
        eapply keeps_exp; eauto. intros q e0 G S0.
        rewrite (i_next _ _ _ I1) in S0; [discriminate|lia].
      * eapply quiet_facts; eauto; try discriminate. rewrite L1. apply lru_self.
  - cbn [cstep]. destruct (ch_lock h); cbn [negb].
    2:{ eexists _, _. split; [reflexivity|]. split; [exact OK|]. apply SAME; discriminate. }
    assert (CC : set_map (c_map c) c = c) by now destruct c.
    destruct (clear_loop_ok (c_map c) c n) as (c' & E & D & I' & M'); [now rewrite CC|]. rewrite CC in D. rewrite E.
    eexists _, _. split; [reflexivity|]. split.
    + split; [exact I'|]. split; [eapply dropped_cap; eauto|]. eapply keeps_exp; eauto using dropped_keeps.
      intros q e0 G S0. rewrite (i_next _ _ _ I') in S0; [discriminate|]. rewrite (d_next _ _ _ D). exact G.
    + eapply quiet_facts; eauto using dropped_keeps; try discriminate; [apply (d_next _ _ _ D)|].
      exists (map snd (c_map c)). apply (d_lru _ _ _ D).
  - cbn [cstep]. eexists _, _. split; [reflexivity|]. split; [exact OK|]. apply SAME; discriminate.
Qed.

(** * Histories *)

Lemma filter_snoc : forall {A} (f : A -> bool) l x,
  length (filter f (l ++ [x])) = (length (filter f l) + (if f x then 1 else 0))%nat.
Proof. intros. rewrite filter_app, app_length. cbn [filter]. destruct (f x); reflexivity. Qed.

Definition outstanding (h : list (cop * resp)) (p : nat) : nat := (acquired h p - released h p)%nat.

Lemma gives_uses : forall o r p, gives_back (o, r) = Some p -> uses o = Some p /\ hands_out (o, r) = None.
Proof. intros o r p H. destruct o; try discriminate. destruct r; try discriminate. cbn in *. auto. Qed.

Lemma legal_prefix : forall h x, legal (h ++ [x]) -> legal h.
Proof.
  intros h x L h1 o r h2 E p U. apply (L h1 o r (h2 ++ [x])) with (p := p); auto.
  rewrite E, <- app_assoc. reflexivity.
Qed.

Lemma legal_last : forall h o r, legal (h ++ [(o, r)]) -> forall p, uses o = Some p -> held h p.
Proof. intros h o r L p U. exact (L h o r [] eq_refl p U). Qed.

Lemma legal_bal : forall h, legal h -> forall p, (released h p <= acquired h p)%nat.
Proof.
  induction h as [|(o & r) h IH] using rev_ind; intros L p; [auto|].
  specialize (IH (legal_prefix _ _ L) p). unfold acquired, released in *. rewrite !filter_snoc.
  destruct (gives_back (o, r)) as [q|] eqn:G; cbn [is_some_eq]; [|destruct (is_some_eq _ p); lia].
  destruct (Nat.eqb_spec q p) as [->|Q]; [|destruct (is_some_eq _ p); lia].
  apply gives_uses in G. destruct G as (U & H). pose proof (legal_last _ _ _ L _ U) as HD.
  unfold held, acquired, released in HD. rewrite H. cbn [is_some_eq]. lia.
Qed.

Lemma outstanding_snoc : forall h o r p, legal (h ++ [(o, r)]) ->
  outstanding (h ++ [(o, r)]) p = account (outstanding h) (o, r) p.
Proof.
  intros h o r p L. pose proof (legal_bal _ (legal_prefix _ _ L)) as B.
  unfold outstanding, account. unfold acquired, released in *. rewrite !filter_snoc. specialize (B p).
  destruct (hands_out (o, r)) as [q|] eqn:H; destruct (gives_back (o, r)) as [q'|] eqn:G; cbn [is_some_eq].
  - apply gives_uses in G. destruct G. congruence.
  - unfold bump. rewrite (Nat.eqb_sym p q). destruct (Nat.eqb_spec q p) as [->|Q]; lia.
  - unfold down. rewrite (Nat.eqb_sym p q'). destruct (Nat.eqb_spec q' p) as [->|Q]; lia.
  - lia.
Qed.

Lemma new_cok : forall cap, cok (new_cache cap) (outstanding []).
Proof.
  intros. split; [|split].
  - constructor; cbn [new_cache c_map c_lru c_heap c_store c_next c_freed map]; try (now constructor); try discriminate.
    + intros id p [].
    + intros p. split; [intros []|]. intros (e & A & _). discriminate.
  - unfold cap_ok, new_cache. cbn [c_cap c_map]. change (@Nlen (list N * nat) []) with 0.
    destruct (N.ltb_spec cap 2); lia.
  - intros p e S. discriminate.
Qed.

Lemma runs_cok : forall io P cap h c, runs io P (new_cache cap) h c -> legal h -> cok c (outstanding h).
Proof.
  intros io P cap h c R. induction R as [|h c o ch c' r R IH PC E]; intros L; [apply new_cok|].
  specialize (IH (legal_prefix _ _ L)).
  destruct (cstep_ok io ch o c (outstanding h) IH) as (c2 & r2 & E2 & OK & _).
  - intros p U. pose proof (legal_last _ _ _ L p U) as H. unfold held, outstanding in *. lia.
  - assert (c2 = c' /\ r2 = r) by (split; congruence). destruct H as (-> & ->).
    destruct OK as (I & A). split; [|exact A]. eapply cinv_ext; [exact I|]. intros. now apply outstanding_snoc.
Qed.

Lemma runs_facts : forall io P cap h c o ch c' r, runs io P (new_cache cap) h c -> legal (h ++ [(o, r)]) ->
  cstep io ch o c = Some (c', r) -> step_facts io o r c c'.
Proof.
  intros io P cap h c o ch c' r R L E. pose proof (runs_cok _ _ _ _ _ R (legal_prefix _ _ L)) as OK.
  destruct (cstep_ok io ch o c (outstanding h) OK) as (c2 & r2 & E2 & _ & F).
  - intros p U. pose proof (legal_last _ _ _ L p U) as H. unfold held, outstanding in *. lia.
  - assert (c2 = c' /\ r2 = r) by (split; congruence). destruct H as (-> & ->). exact F.
Qed.

Lemma runs_app : forall io P c0 h1 c1 h2 c2, runs io P c0 h1 c1 -> runs io P c1 h2 c2 ->
  runs io P c0 (h1 ++ h2) c2.
Proof.
  intros io P c0 h1 c1 h2 c2 A B. induction B as [|h c o ch c' r B IH PC E]; [now rewrite app_nil_r|].
  rewrite app_assoc. eapply runs_step; eauto.
Qed.

Lemma runs_snoc_inv : forall io P c0 h x c, runs io P c0 (h ++ [x]) c ->
  exists c1 ch, runs io P c0 h c1 /\ P ch /\ cstep io ch (fst x) c1 = Some (c, snd x).
Proof.
  intros io P c0 h x c R. inversion R as [E|h' c1 o ch c' r R' PC E EQ]; [destruct h; discriminate|].
  apply app_inj_tail in EQ. destruct EQ as (-> & <-). cbn [fst snd]. eauto.
Qed.

Lemma legal_app_l : forall h1 h2, legal (h1 ++ h2) -> legal h1.
Proof.
  intros h1 h2 L a o r b E p U. apply (L a o r (b ++ h2)) with (p := p); auto.
  rewrite E, <- app_assoc. reflexivity.
Qed.
