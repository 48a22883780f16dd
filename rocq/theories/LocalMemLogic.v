(** What the entries of the local cache own, and what the lists of the cache say about them. *)
From Coq Require Import List Bool PeanoNat Lia Permutation.
Import ListNotations.
From Verif Require Import MemModel MemLogic MemSpec MemProofs LocalMemModel.

(** *** Footprints *)

Definition oxfp (x : option mctx) : list cell := match x with None => [] | Some x => xfp x end.
(** An entry on which [n] references are held; the key of an entry for encryption is secret. *)
Definition nfp (n : nat) (e : mentry) : list cell :=
  match e with
  | mk_ment b i en de k x _ _ =>
      mkc b false n :: bfp i ++ omfp en ++ omfp de ++ match en with Some _ => sfp k | None => bfp k end ++ oxfp x
  end.
(** The references that the holders of the entries [hs] and the cache have on an entry. *)
Definition nrefs (hs : list nat) (e : mentry) : nat :=
  count_occ Nat.eq_dec hs (n_blk e) + (if n_zombie e then 0 else 1).
Definition fps (hs : list nat) (l : list mentry) : list cell := flat_map (fun e => nfp (nrefs hs e) e) l.
(** The cache, on which [n] references are held. *)
Definition lfp (n : nat) (v : mlocal) (hs : list nat) : list cell :=
  match v with
  | mk_mloc b t h k _ _ _ _ _ all => mkc b false n :: mkc t false 0 :: mkc h false 0 :: bfp k ++ fps hs all
  end.

(** *** Entries by name *)

Definition names (l : list mentry) : list nat := map n_blk l.
(** The entries that are in the cache. *)
Definition home (l : list mentry) : list nat := names (filter (fun e => negb (n_zombie e)) l).

Lemma names_app l l' : names (l ++ l') = names l ++ names l'.
Proof. apply map_app. Qed.
Lemma home_app l l' : home (l ++ l') = home l ++ home l'.
Proof. unfold home. rewrite filter_app. apply names_app. Qed.
Lemma fps_app hs l l' : fps hs (l ++ l') = fps hs l ++ fps hs l'.
Proof. apply flat_map_app. Qed.
Lemma home_names l b : In b (home l) -> In b (names l).
Proof. unfold home, names. intro H. apply in_map_iff in H. destruct H as (e & <- & H). apply filter_In in H. apply in_map, H. Qed.
Lemma in_home l e : In e l -> n_zombie e = false -> In (n_blk e) (home l).
Proof. intros I Z. apply in_map. apply filter_In. rewrite Z. auto. Qed.
Lemma NoDup_home l : NoDup (names l) -> NoDup (home l).
Proof.
  induction l as [|e l IH]; cbn; intro N; [constructor|]. inversion N as [|? ? N1 N2]; subst.
  destruct (n_zombie e); cbn; [auto|]. constructor; [|auto]. intro H. apply N1, home_names, H.
Qed.

(** Where an entry stands. *)
Lemma ent_split l b : NoDup (names l) -> In b (names l) ->
  exists l1 e l2, l = l1 ++ e :: l2 /\ n_blk e = b /\ ~ In b (names l1) /\ ~ In b (names l2).
Proof.
  intros N I. apply in_map_iff in I. destruct I as (e & E & I). apply in_split in I. destruct I as (l1 & l2 & ->).
  exists l1, e, l2. rewrite names_app in N. cbn in N. rewrite E in N. apply NoDup_remove_2 in N.
  split; [reflexivity|]. split; [exact E|]. split; intro H; apply N, in_or_app; auto.
Qed.
Lemma not_ent b l : ~ In b (names l) -> forall e, In e l -> is_ent b e = false.
Proof. intros N e I. apply Nat.eqb_neq. intro E. apply N. rewrite <- E. apply in_map, I. Qed.
Lemma find_ent l1 e l2 : ~ In (n_blk e) (names l1) -> find (is_ent (n_blk e)) (l1 ++ e :: l2) = Some e.
Proof.
  induction l1 as [|x l1 IH]; cbn; intro N.
  - unfold is_ent. rewrite Nat.eqb_refl. reflexivity.
  - unfold is_ent at 1. destruct (n_blk x =? n_blk e) eqn:E; [|apply IH; tauto]. apply Nat.eqb_eq in E. tauto.
Qed.
Lemma drop_other b l : ~ In b (names l) -> drop_ent b l = l.
Proof.
  intro N. pose proof (not_ent b l N) as H. clear N. induction l as [|x l IH]; cbn; [reflexivity|].
  rewrite (H x (or_introl eq_refl)). cbn. f_equal. apply IH. intros e I. apply H. right. exact I.
Qed.
Lemma drop_here l1 e l2 : ~ In (n_blk e) (names l1) -> ~ In (n_blk e) (names l2) -> drop_ent (n_blk e) (l1 ++ e :: l2) = l1 ++ l2.
Proof.
  intros N1 N2. unfold drop_ent. rewrite filter_app. cbn. unfold is_ent at 2. rewrite Nat.eqb_refl. cbn.
  f_equal; apply drop_other; assumption.
Qed.
Lemma upd_other b f l : ~ In b (names l) -> upd_ent b f l = l.
Proof.
  intro N. pose proof (not_ent b l N) as H. clear N. induction l as [|x l IH]; cbn; [reflexivity|].
  rewrite (H x (or_introl eq_refl)). f_equal. apply IH. intros e I. apply H. right. exact I.
Qed.
Lemma upd_here f l1 e l2 : ~ In (n_blk e) (names l1) -> ~ In (n_blk e) (names l2) ->
  upd_ent (n_blk e) f (l1 ++ e :: l2) = l1 ++ f e :: l2.
Proof.
  intros N1 N2. unfold upd_ent. rewrite map_app. cbn. unfold is_ent at 2. rewrite Nat.eqb_refl.
  f_equal; [|f_equal]; apply upd_other; assumption.
Qed.
Lemma ent_unique l e e' : NoDup (names l) -> In e l -> In e' l -> n_blk e = n_blk e' -> e = e'.
Proof.
  intros N I I' E. apply in_split in I. destruct I as (l1 & l2 & ->). rewrite names_app in N. cbn in N. apply NoDup_remove_2 in N.
  apply in_app_or in I'. destruct I' as [I'|[I'|I']]; [|exact I'|]; exfalso; apply N; rewrite E; apply in_or_app; [left|right];
    apply in_map, I'.
Qed.

Lemma drop_id_perm b l : In b l -> Permutation l (b :: drop_id b l).
Proof.
  induction l as [|x l IH]; cbn; [tauto|]. intros [->|H].
  - rewrite Nat.eqb_refl. reflexivity.
  - destruct (x =? b) eqn:E; [apply Nat.eqb_eq in E; subst; reflexivity|]. rewrite (IH H) at 1. apply perm_swap.
Qed.
Lemma drop_id_none b l : ~ In b l -> drop_id b l = l.
Proof.
  induction l as [|x l IH]; cbn; [reflexivity|]. intro N. destruct (x =? b) eqn:E; [apply Nat.eqb_eq in E; tauto|].
  rewrite IH; tauto.
Qed.
Lemma drop_id_in b l c : In c (drop_id b l) -> In c l.
Proof. induction l as [|x l IH]; cbn; [tauto|]. destruct (x =? b); cbn; tauto. Qed.
Lemma drop_id_nodup b l : NoDup l -> NoDup (drop_id b l) /\ ~ In b (drop_id b l).
Proof.
  induction l as [|x l IH]; cbn; intro N; [split; [exact N|tauto]|]. inversion N as [|? ? N1 N2]; subst.
  destruct (x =? b) eqn:E.
  - apply Nat.eqb_eq in E. subst. auto.
  - destruct (IH N2) as [H1 H2]. apply Nat.eqb_neq in E. split.
    + constructor; [|exact H1]. intro I. apply N1, (drop_id_in b), I.
    + cbn. intuition.
Qed.
Lemma drop_id_cancel b l l' : Permutation l (b :: l') -> Permutation (drop_id b l) l'.
Proof.
  intro H. assert (I : In b l) by (rewrite H; left; reflexivity).
  rewrite (drop_id_perm b l I) in H. apply Permutation_cons_inv in H. exact H.
Qed.

(** *** References *)

Lemma nrefs_perm hs hs' e : Permutation hs hs' -> nrefs hs e = nrefs hs' e.
Proof. intro P. unfold nrefs. f_equal. apply Permutation_count_occ. exact P. Qed.
Lemma fps_perm hs hs' l : Permutation hs hs' -> fps hs l = fps hs' l.
Proof. intro P. unfold fps. apply flat_map_ext. intro e. rewrite (nrefs_perm hs hs' e P). reflexivity. Qed.
Lemma lfp_perm n v hs hs' : Permutation hs hs' -> lfp n v hs = lfp n v hs'.
Proof. intro P. destruct v. cbn. rewrite (fps_perm hs hs' _ P). reflexivity. Qed.
Lemma nrefs_here b hs e : n_blk e = b -> nrefs (b :: hs) e = S (nrefs hs e).
Proof. intros <-. unfold nrefs. cbn. destruct (Nat.eq_dec (n_blk e) (n_blk e)); [reflexivity|congruence]. Qed.
Lemma nrefs_other b hs e : n_blk e <> b -> nrefs (b :: hs) e = nrefs hs e.
Proof. intro N. unfold nrefs. cbn. destruct (Nat.eq_dec b (n_blk e)); [congruence|reflexivity]. Qed.
Lemma fps_other b hs l : ~ In b (names l) -> fps (b :: hs) l = fps hs l.
Proof.
  intro N. induction l as [|e l IH]; [reflexivity|]. cbn in N.
  change (nfp (nrefs (b :: hs) e) e ++ fps (b :: hs) l = nfp (nrefs hs e) e ++ fps hs l).
  rewrite IH, nrefs_other by tauto. reflexivity.
Qed.
Lemma fps_here hs l1 e l2 : fps hs (l1 ++ e :: l2) = fps hs l1 ++ nfp (nrefs hs e) e ++ fps hs l2.
Proof. rewrite fps_app. reflexivity. Qed.
Lemma fps_add b hs l1 e l2 : n_blk e = b -> ~ In b (names l1) -> ~ In b (names l2) ->
  fps (b :: hs) (l1 ++ e :: l2) = fps hs l1 ++ nfp (S (nrefs hs e)) e ++ fps hs l2.
Proof.
  intros E N1 N2. rewrite fps_here, (fps_other b hs l1 N1), (fps_other b hs l2 N2), (nrefs_here b hs e E). reflexivity.
Qed.

(** *** The invariant *)

Definition entry_ok (e : mentry) : Prop :=
  (forall d, n_dec e = Some d -> e_edks d = mkl [] 0 None) /\ (n_enc e <> None -> n_ctx e <> None) /\
  (n_enc e = None \/ n_dec e = None).

Record inv0 (v : mlocal) (hs : list nat) : Prop := mk_inv0
  { i_nd : NoDup (names (v_all v));
    i_ok : Forall entry_ok (v_all v);
    i_hs : forall b, In b hs -> In b (names (v_all v));
    i_zo : forall e, In e (v_all v) -> n_zombie e = true -> In (n_blk e) hs;
    i_lru : Permutation (v_lru v) (home (v_all v));
    i_tn : NoDup (v_ttl v);
    i_ttl : forall b, In b (v_ttl v) -> exists e, In e (v_all v) /\ n_blk e = b /\ n_zombie e = false /\ n_hint e = true;
    i_cap : 2 <= v_cap v }.
Definition inv (v : mlocal) (hs : list nat) : Prop := inv0 v hs /\ Permutation (v_els v) (home (v_all v)).

(** What no operation changes. *)
Definition frame (v v' : mlocal) : Prop := v_blk v' = v_blk v /\ v_cap v' = v_cap v /\ v_locked v' = v_locked v.
Lemma frame_refl v : frame v v.
Proof. repeat split. Qed.
Lemma frame_trans a b c : frame a b -> frame b c -> frame a c.
Proof. unfold frame. intuition congruence. Qed.

Lemma inv0_perm v hs hs' : Permutation hs hs' -> inv0 v hs -> inv0 v hs'.
Proof.
  intros P [H1 H2 H3 H4 H5 H6 H7 H8]. constructor; auto.
  - intros b I. apply H3. rewrite P. exact I.
  - intros e I Z. rewrite <- P. auto.
Qed.
Lemma inv_perm v hs hs' : Permutation hs hs' -> inv v hs -> inv v hs'.
Proof. intros P [H1 H2]. split; [eapply inv0_perm; eassumption|exact H2]. Qed.
Lemma inv0_same v v' hs : v_all v' = v_all v -> Permutation (v_lru v') (v_lru v) -> v_ttl v' = v_ttl v -> v_cap v' = v_cap v ->
  inv0 v hs -> inv0 v' hs.
Proof. intros A L T C [H1 H2 H3 H4 H5 H6 H7 H8]. constructor; rewrite ?A, ?T, ?C; auto. rewrite L. exact H5. Qed.

(** One more reference on an entry. *)
Lemma inv0_hold v hs b : In b (names (v_all v)) -> inv0 v hs -> inv0 v (b :: hs).
Proof.
  intros I [H1 H2 H3 H4 H5 H6 H7 H8]. constructor; auto.
  - intros c [<-|H]; auto.
  - intros e I' Z. right. auto.
Qed.

(** One reference less. *)
Lemma inv0_keep v hs b e : inv0 v (b :: hs) -> In e (v_all v) -> n_blk e = b -> (n_zombie e = false \/ In b hs) -> inv0 v hs.
Proof.
  intros [H1 H2 H3 H4 H5 H6 H7 H8] I E D. constructor; auto.
  - intros c Hc. apply H3. right. exact Hc.
  - intros e' I' Z. destruct (H4 e' I' Z) as [E'|H]; [|exact H].
    assert (e' = e) by (apply (ent_unique (v_all v)); auto; congruence). subst e'. destruct D as [D|D]; congruence.
Qed.
Lemma inv0_gone v hs b l1 e l2 : inv0 v (b :: hs) -> v_all v = l1 ++ e :: l2 -> n_blk e = b -> n_zombie e = true -> ~ In b hs ->
  inv0 (with_all v (l1 ++ l2)) hs.
Proof.
  intros [H1 H2 H3 H4 H5 H6 H7 H8] A E Z N. rewrite A in *. constructor; cbn [with_all v_all v_lru v_ttl v_cap]; auto.
  - rewrite names_app in *. cbn in H1. exact (NoDup_remove_1 _ _ _ H1).
  - apply Forall_app in H2. destruct H2 as [F1 F2]. inversion F2. apply Forall_app. auto.
  - intros c Hc. specialize (H3 c (or_intror Hc)). rewrite names_app in *. cbn in H3. apply in_app_or in H3. apply in_or_app.
    destruct H3 as [H3|[H3|H3]]; auto. exfalso. apply N. congruence.
  - intros e' I' Z'. assert (I2 : In e' (l1 ++ e :: l2)) by (apply in_app_or in I'; apply in_or_app; cbn; tauto).
    destruct (H4 e' I2 Z') as [E'|H]; [|exact H]. exfalso.
    assert (e' = e) by (apply (ent_unique (l1 ++ e :: l2)); auto; [apply in_or_app; cbn; tauto|congruence]). subst e'.
    rewrite names_app in H1. cbn in H1. apply NoDup_remove_2 in H1. apply H1. rewrite <- names_app. apply in_map, I'.
  - rewrite home_app in *. unfold home in H5 at 2. cbn in H5. rewrite Z in H5. exact H5.
  - intros c Hc. destruct (H7 c Hc) as (e' & I' & E' & Z' & K'). exists e'. split; [|auto].
    apply in_app_or in I'. apply in_or_app. destruct I' as [I'|[I'|I']]; auto. congruence.
Qed.

(** The cache gives up an entry: its own reference becomes somebody's. *)
Lemma inv0_zombie v hs b l1 e l2 els : inv0 v hs -> v_all v = l1 ++ e :: l2 -> n_blk e = b -> n_zombie e = false ->
  inv0 (with_all (with_lru (with_els (with_ttl v (if n_hint e then drop_id b (v_ttl v) else v_ttl v)) els) (drop_id b (v_lru v)))
                 (l1 ++ zombify e :: l2)) (b :: hs) /\
  Permutation (home (v_all v)) (b :: home (l1 ++ zombify e :: l2)).
Proof.
  intros [H1 H2 H3 H4 H5 H6 H7 H8] A E Z. rewrite A in *.
  assert (HN : names (l1 ++ zombify e :: l2) = names (l1 ++ e :: l2)) by (rewrite !names_app; reflexivity).
  assert (HH : Permutation (home (l1 ++ e :: l2)) (b :: home (l1 ++ zombify e :: l2))).
  { rewrite !home_app. unfold home at 2 4. cbn. rewrite Z. cbn. rewrite E. symmetry. apply Permutation_middle. }
  split; [|exact HH].
  constructor; cbn [with_all with_lru with_els with_ttl v_all v_lru v_ttl v_cap]; rewrite ?HN; auto.
  - apply Forall_app in H2. destruct H2 as [F1 F2]. inversion F2. apply Forall_app. split; [assumption|]. constructor; assumption.
  - intros c [<-|Hc]; auto. rewrite names_app. apply in_or_app. cbn. auto.
  - intros e' I' Z'. apply in_app_or in I'. destruct I' as [I'|[<-|I']].
    + right. apply H4; [apply in_or_app; auto|exact Z'].
    + left. cbn. auto.
    + right. apply H4; [apply in_or_app; cbn; auto|exact Z'].
  - apply drop_id_cancel. rewrite H5. exact HH.
  - destruct (n_hint e); [apply drop_id_nodup; exact H6|exact H6].
  - intros c Hc.
    assert (D : In c (v_ttl v) /\ c <> b).
    { destruct (n_hint e) eqn:K.
      - split; [apply (drop_id_in b), Hc|]. intros ->. apply (drop_id_nodup b _ H6), Hc.
      - split; [exact Hc|]. intros ->. destruct (H7 b Hc) as (e' & I' & E' & _ & K').
        assert (e' = e) by (apply (ent_unique (l1 ++ e :: l2)); auto; [apply in_or_app; cbn; tauto|congruence]). congruence. }
    destruct D as [D1 D2]. destruct (H7 c D1) as (e' & I' & E' & R). exists e'. split; [|split; [exact E'|exact R]].
    apply in_app_or in I'. apply in_or_app. cbn. destruct I' as [I'|[I'|I']]; auto. congruence.
Qed.

(** The expiry time of an entry changes. *)
Lemma inv0_hinted v hs b l1 e l2 ok ttl : inv0 v hs -> v_all v = l1 ++ e :: l2 -> n_blk e = b -> n_zombie e = false ->
  ttl = (if n_hint e then drop_id b (v_ttl v) else v_ttl v) ->
  inv0 (with_all (with_ttl v (if ok : bool then b :: ttl else ttl)) (l1 ++ hinted ok e :: l2)) hs /\
  home (l1 ++ hinted ok e :: l2) = home (v_all v).
Proof.
  intros [H1 H2 H3 H4 H5 H6 H7 H8] A E Z ->. rewrite A in *.
  assert (HN : names (l1 ++ hinted ok e :: l2) = names (l1 ++ e :: l2)) by (rewrite !names_app; reflexivity).
  assert (HH : home (l1 ++ hinted ok e :: l2) = home (l1 ++ e :: l2)).
  { rewrite !home_app. unfold home. cbn. rewrite Z. reflexivity. }
  split; [|exact HH].
  assert (HT : NoDup (if n_hint e then drop_id b (v_ttl v) else v_ttl v) /\
               forall c, In c (if n_hint e then drop_id b (v_ttl v) else v_ttl v) -> In c (v_ttl v) /\ c <> b).
  { destruct (n_hint e) eqn:K.
    - split; [apply drop_id_nodup, H6|]. intros c Hc. split; [apply (drop_id_in b), Hc|]. intros ->.
      apply (drop_id_nodup b _ H6), Hc.
    - split; [exact H6|]. intros c Hc. split; [exact Hc|]. intros ->. destruct (H7 b Hc) as (e' & I' & E' & _ & K').
      assert (e' = e) by (apply (ent_unique (l1 ++ e :: l2)); auto; [apply in_or_app; cbn; tauto|congruence]). congruence. }
  destruct HT as [T1 T2].
  assert (HO : forall c, In c (if n_hint e then drop_id b (v_ttl v) else v_ttl v) ->
             exists e', In e' (l1 ++ hinted ok e :: l2) /\ n_blk e' = c /\ n_zombie e' = false /\ n_hint e' = true).
  { intros c Hc. destruct (T2 c Hc) as [D1 D2]. destruct (H7 c D1) as (e' & I' & E' & R). exists e'. split; [|split; [exact E'|exact R]].
    apply in_app_or in I'. apply in_or_app. cbn. destruct I' as [I'|[I'|I']]; auto. congruence. }
  constructor; cbn [with_all with_ttl v_all v_lru v_ttl v_cap]; rewrite ?HN, ?HH; auto.
  - apply Forall_app in H2. destruct H2 as [F1 F2]. inversion F2. apply Forall_app. split; [assumption|]. constructor; assumption.
  - intros e' I' Z'. apply in_app_or in I'. destruct I' as [I'|[<-|I']].
    + apply H4; [apply in_or_app; auto|exact Z'].
    + cbn in Z'. congruence.
    + apply H4; [apply in_or_app; cbn; auto|exact Z'].
  - destruct ok; [|exact T1]. constructor; [|exact T1]. intro Hb. apply (T2 b Hb). reflexivity.
  - intros c Hc. destruct ok; [|apply HO, Hc]. destruct Hc as [<-|Hc]; [|apply HO, Hc].
    exists (hinted true e). split; [apply in_or_app; cbn; auto|]. cbn. auto.
Qed.

(** A new entry. *)
Lemma inv0_new v hs e : inv0 v hs -> ~ In (n_blk e) (names (v_all v)) -> entry_ok e -> n_zombie e = false ->
  inv0 (with_all (with_lru v (n_blk e :: v_lru v)) (e :: v_all v)) hs /\
  home (e :: v_all v) = n_blk e :: home (v_all v) /\ nrefs hs e = 1.
Proof.
  intros [H1 H2 H3 H4 H5 H6 H7 H8] N K Z.
  assert (HH : home (e :: v_all v) = n_blk e :: home (v_all v)) by (unfold home; cbn; rewrite Z; reflexivity).
  split; [|split; [exact HH|]].
  - constructor; cbn [with_all with_lru v_all v_lru v_ttl v_cap]; auto.
    + cbn. constructor; assumption.
    + intros b Hb. right. apply H3, Hb.
    + intros e' [<-|I'] Z'; [congruence|auto].
    + rewrite HH. constructor. exact H5.
    + intros b Hb. destruct (H7 b Hb) as (e' & I' & R). exists e'. split; [right; exact I'|exact R].
  - unfold nrefs. rewrite Z. rewrite (proj1 (count_occ_not_In Nat.eq_dec hs (n_blk e))); [reflexivity|]. intro Hb. apply N, H3, Hb.
Qed.

(** Without references elsewhere, every entry is in the cache. *)
Lemma inv0_alone v : inv0 v [] -> home (v_all v) = names (v_all v).
Proof.
  intros [_ _ _ H4 _ _ _ _]. unfold home. f_equal. induction (v_all v) as [|e l IH]; [reflexivity|]. cbn.
  destruct (n_zombie e) eqn:Z.
  - exfalso. exact (H4 e (or_introl eq_refl) Z).
  - cbn. f_equal. apply IH. intros e' I. apply H4. right. exact I.
Qed.

(** *** One more rule: blocks that are there have different names. *)
Lemma tr_nodup may spill {A} P (c : M A) Q G : (NoDup (ids P) -> triple may spill P c Q G) -> triple may spill P c Q G.
Proof.
  intros H m R W E L. apply H; auto. destruct W as [W _]. unfold ids in *.
  apply (Permutation_NoDup (Permutation_map c_id L)) in W. rewrite map_app in W. clear - W.
  induction (map c_id P) as [|x l IH]; [constructor|]. cbn in W. inversion W as [|? ? W1 W2]; subst. constructor; [|auto].
  intro I. apply W1, in_or_app. auto.
Qed.
