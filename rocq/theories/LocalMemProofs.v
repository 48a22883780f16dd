(** What every function of [LocalMemModel] owns before and after. *)
From Coq Require Import List Bool PeanoNat Lia Permutation.
Import ListNotations.
From Verif Require Import MemModel MemLogic MemSpec MemProofs LocalMemModel LocalMemLogic.

Ltac vproj :=
  cbn beta iota zeta delta
    [v_blk v_tab v_heap v_back v_cap v_locked v_els v_lru v_ttl v_all with_lock with_tab with_els with_lru with_ttl with_heap with_all
     n_blk n_id n_enc n_dec n_key n_ctx n_hint n_zombie zombify hinted fst snd negb andb orb].

Section Specs.
Variable may : site -> bool.
Variable spill : place -> bool.
Local Notation tr := (triple may spill).

#[local] Hint Resolve ask_tr must_acquire_tr acquire_at_tr touch_tr taint_tr scrub_tr init_ref_tr retain_tr unref_tr : mem.
#[local] Hint Resolve acquire_tr release_tr : mem.
#[local] Hint Resolve buf_init_tr buf_clean_up_tr buf_clean_up_secure_tr buf_clean_up_secure_plain_tr : mem.
#[local] Hint Resolve edk_clean_up_tr record_clean_up_tr elem_destroy_tr : mem.
#[local] Hint Resolve edk_list_init_tr trace_init_tr edk_list_clear_tr trace_clear_tr edk_list_clean_up_tr trace_clean_up_tr : mem.
#[local] Hint Resolve edk_init_clone_tr record_init_tr trace_add_tr edk_list_copy_all_tr trace_copy_all_tr : mem.
#[local] Hint Resolve ctx_init_tr ctx_clear_tr ctx_clean_up_tr ctx_put_tr ctx_replace_tr ctx_serialize_tr : mem.
#[local] Hint Resolve sign_start_keygen_tr load_pubkey_tr serialize_pubkey_tr verify_start_tr sig_abort_own_tr sig_sign_start_tr : mem.
#[local] Hint Resolve enc_materials_new_tr enc_materials_destroy_tr dec_materials_new_tr : mem.

(** *** Hashes *)

Definition mdfp (c : option (nat * nat)) : list cell :=
  match c with None => [] | Some p => [mkc (fst p) false 0; mkc (snd p) false 0] end.

Lemma md_init_at_tr a c : tr [] (md_init_at a c) mdfp (fun o => o = None -> may a = true \/ may c = true).
Proof. unfold md_init_at. run; auto. Qed.
Lemma md_abort_tr c : tr (mdfp c) (md_abort c) (fun _ => []) (fun _ => True).
Proof. unfold md_abort. destruct c as [[e b]|]; norm; run. Qed.
Lemma md_update_tr c : tr (mdfp (Some c)) (md_update c) (fun _ => mdfp (Some c)) (fun _ => True).
Proof. unfold md_update. norm. run. Qed.
Lemma md_finish_tr c : tr (mdfp (Some c)) (md_finish c) (fun _ => []) (fun _ => True).
Proof. unfold md_finish. norm. stp spec. stp spec. stp ltac:(apply (md_abort_tr (Some c))). run. Qed.
#[local] Hint Resolve md_init_at_tr md_abort_tr md_update_tr md_finish_tr : mem.
Lemma md_init_tr : tr [] md_init mdfp (fun o => True).
Proof. unfold md_init. eapply tr_call; [apply md_init_at_tr|apply sp_nil|]. intros a _. rewrite app_nil_r. auto. Qed.
#[local] Hint Resolve md_init_tr : mem.

Lemma hash_context_tr c x :
  tr (mdfp (Some c) ++ xfp x) (hash_context c x) (fun r => mdfp (Some c) ++ xfp x ++ bfp (fst r)) (fun _ => True).
Proof. destruct x as [t l], c as [e b]. unfold hash_context. norm. proj. run. Qed.
#[local] Hint Resolve hash_context_tr : mem.

Lemma hash_enc_request_tr x : may SSecondMd = false -> tr (xfp x) (hash_enc_request x) (fun _ => xfp x) (fun _ => True).
Proof.
  intro N. unfold hash_enc_request. 
  stp spec. destruct a as [a|]; [|run]. stp spec. destruct a0 as [b|]; [|exfalso; destruct (H eq_refl); congruence].
  run.
Qed.

Lemma hash_edk_tr : may SEdkHash = false -> tr [] hash_edk (fun _ => []) (fun a => a = true).
Proof.
  intro N. unfold hash_edk. stp spec. destruct a as [c|]; [|exfalso; destruct (H eq_refl); congruence].
  norm. run.
  all: match goal with |- negb ?a = true => destruct a; hyps; reflexivity end.
Qed.
Lemma hash_edks_tr n : may SEdkHash = false -> forall l, length (l_items l) + n <= l_cap l ->
  tr (bfp (l_blk l)) (hash_edks l n) (fun r => bfp (l_blk (fst r))) (fun r => snd r = true).
Proof.
  intro N. induction n as [|n IH]; intros l L; cbn [hash_edks].
  - run.
  - stp ltac:(apply (hash_edk_tr N)). subst a. proj.
    unfold list_push. rewrite (proj2 (Nat.ltb_lt _ _)) by lia. apply tr_ret_bind.
    destruct l as [items cap blk]. proj. eapply tr_call; [apply IH|spc|].
    + cbn in *. rewrite app_length. cbn. lia.
    + intros r Hr. split; [perm|exact Hr].
Qed.
Lemma hash_dec_end_tr md c (l : alist unit) ok :
  tr (mdfp md ++ bfp c ++ bfp (l_blk l)) (hash_dec_end md c l ok) (fun _ => []) (fun _ => True).
Proof. unfold hash_dec_end, list_free. run. Qed.
#[local] Hint Resolve hash_dec_end_tr : mem.
Lemma hash_dec_request_tr x n : may SEdkHash = false -> tr (xfp x) (hash_dec_request x n) (fun _ => xfp x) (fun _ => True).
Proof.
  intro N. unfold hash_dec_request.
  eapply tr_bind with (P0 := []) (Q0 := fun o : option (alist unit) => match o with Some l => bfp (l_blk l) | None => [] end)
    (G0 := fun o => forall l, o = Some l -> l_items l = [] /\ l_cap l = n); [|spc|].
  { unfold list_init. run.
    - intros l [= <-]. cbn. apply Nat.eqb_eq in Heqb. auto.
    - intros l [= <-]. cbn. auto. }
  intros [l|] HL; norm; [|run]. destruct (HL _ eq_refl) as [L1 L2]. clear HL.
  stp spec. destruct a as [md|]; [|run]. norm. stp spec. destruct a as [c ok]. proj. destruct ok; proj; [|run].
  norm. stp spec. destruct a; proj; [|run].
  eapply tr_bind; [apply (hash_edks_tr n N l); rewrite L1; cbn; lia|spc|]. intros [l' ok] E. cbn in E. subst ok. norm. proj.
  run.
Qed.

(** *** Keys of signature contexts *)

Lemma sig_get_pubkey_tr g : sig_full g -> tr (gfp 0 g) (sig_get_pubkey g) (fun o => gfp 0 g ++ bfp o) (fun _ => True).
Proof. intros (c & d & p & k & ->). unfold sig_get_pubkey. norm. proj. run. Qed.

Lemma sig_get_privkey_tr g : sig_full g -> tr (gfp 0 g) (sig_get_privkey g) (fun o => gfp 0 g ++ sfp o) (fun _ => True).
Proof.
  intros (c & d & p & k & ->). unfold sig_get_privkey, get_privkey_end. norm. proj. run.
Qed.

(** *** Encryption contexts *)

Lemma clone_prune_tr l : tr (flat_map elfp l) (clone_prune l) (fun l' => flat_map elfp l') (fun _ => True).
Proof. induction l as [|e l IH]; cbn [clone_prune flat_map]; repeat (stp ltac:(first [exact IH|spec])). Qed.
Lemma clone_one_tr x : tr (xfp x) (clone_one x) (fun r => xfp (fst r)) (fun _ => True).
Proof.
  destruct x as [t l]. unfold clone_one. proj. stp spec. stp spec.
  - stp spec. stp spec; [run|]. destruct l as [|[k w] l]; norm; proj; [run|]. run.
  - run.
Qed.
#[local] Hint Resolve clone_prune_tr clone_one_tr : mem.
Lemma clone_loop_tr n : forall x, tr (xfp x) (clone_loop x n) (fun r => xfp (fst r)) (fun _ => True).
Proof. induction n as [|n IH]; intro x; cbn [clone_loop]; [run|]. stp spec. destruct a as [x' ok]. proj. destruct ok; [|run]. apply IH. Qed.
#[local] Hint Resolve clone_loop_tr : mem.
Lemma ctx_clone_tr d s : tr (xfp d ++ xfp s) (ctx_clone d s) (fun r => xfp (fst r) ++ xfp s) (fun _ => True).
Proof. destruct d as [td ld], s as [ts ls]. unfold ctx_clone. norm. proj. stp spec. stp spec. stp spec.
  stp ltac:(apply (clone_loop_tr (length ls) (mk_mctx td a1))). Qed.
#[local] Hint Resolve ctx_clone_tr : mem.

(** *** Entries *)

Definition dec_plain (o : option mmat) : Prop := forall d, o = Some d -> e_edks d = mkl [] 0 None.

Lemma dec_destroy_tr o : dec_plain o -> tr (omfp o) (dec_materials_destroy o) (fun _ => []) (fun _ => True).
Proof.
  intro D. destruct o as [[b g k e t]|]; [|unfold dec_materials_destroy; norm; run]. specialize (D _ eq_refl). cbn in D. subst e. apply dec_materials_destroy_tr.
Qed.
Lemma destroy_entry_tr n e : dec_plain (n_dec e) -> tr (nfp n e) (destroy_entry e) (fun _ => []) (fun _ => True).
Proof.
  destruct e as [b i en de k x h z]. vproj. intro D. unfold destroy_entry. norm. vproj.
  eapply tr_bind; [apply enc_materials_destroy_tr|spc|]. intros ? _. norm.
  eapply tr_bind; [apply (dec_destroy_tr de D)|spc|]. intros ? _. norm.
  assert (K : tr (match en with Some _ => sfp k | None => bfp k end) (buf_clean_up_secure k) (fun _ => []) (fun _ => True))
    by (destruct en; [apply buf_clean_up_secure_tr|apply buf_clean_up_secure_plain_tr]).
  eapply tr_bind; [exact K|spc|]. intros ? _. norm.
  destruct x as [x|]; norm; run.
Qed.
Lemma new_entry_tr :
  tr [] new_entry (fun o => match o with Some e => nfp 1 e | None => [] end)
     (fun o => forall e, o = Some e -> exists b i, e = mk_ment b i None None None None false false).
Proof. unfold new_entry. run. intros e [= <-]. eauto. Qed.
#[local] Hint Resolve new_entry_tr : mem.

Lemma key_copy_tr k : tr (sfp k) (key_copy k) (fun o => match o with Some b => sfp k ++ sfp b | None => sfp k end) (fun _ => True).
Proof. unfold key_copy. destruct k; norm; run. Qed.
#[local] Hint Resolve key_copy_tr : mem.
Lemma copy_enc_tr o src : e_dk o = None -> e_sig o = None ->
  tr (mfp o ++ mfp src) (copy_enc o src) (fun r => mfp (fst r) ++ mfp src) (fun r => e_sig (fst r) = None).
Proof.
  destruct o as [b g dk ek t], src as [b' g' dk' ek' t']. cbn. intros -> ->. unfold copy_enc. norm. proj.
  stp spec. stp spec. destruct a0 as [k|]; norm; [|run].
  eapply tr_bind; [apply edk_list_copy_all_tr|spc|]. intros [ek2 ok] _. norm. proj. destruct ok; proj; [|run].
  eapply tr_bind; [apply trace_copy_all_tr|spc|]. intros [t2 ok] _. norm. proj. run.
Qed.
Lemma copy_dec_tr o src : e_dk o = None -> e_sig o = None ->
  tr (mfp o ++ mfp src) (copy_dec o src) (fun r => mfp (fst r) ++ mfp src)
     (fun r => e_sig (fst r) = None /\ e_edks (fst r) = e_edks o).
Proof.
  destruct o as [b g dk ek t], src as [b' g' dk' ek' t']. cbn. intros -> ->. unfold copy_dec. norm. proj.
  stp spec. stp spec. destruct a0 as [k|]; norm; [|run].
  eapply tr_bind; [apply trace_copy_all_tr|spc|]. intros [t2 ok] _. norm. proj. run.
Qed.

Lemma fill_enc_tr b i src x : sig_ok src ->
  tr (nfp 1 (mk_ment b i None None None None false false) ++ mfp src ++ xfp x)
     (fill_enc (mk_ment b i None None None None false false) src x)
     (fun r => nfp 1 (fst r) ++ mfp src ++ xfp x)
     (fun r => n_blk (fst r) = b /\ n_zombie (fst r) = false /\ n_dec (fst r) = None /\ (snd r = true -> n_ctx (fst r) <> None)).
Proof.
  intro SO. unfold fill_enc. vproj. norm. stp spec. destruct a as [o|]; norm; [|run].
  destruct (H _ eq_refl) as (E1 & E2 & _). clear H.
  eapply tr_bind; [apply (copy_enc_tr o src E2 E1)|spc|]. intros [o2 ok] E3. cbn in E3. norm. vproj. destruct ok; vproj; [|run].
  stp spec. destruct a as [cx|]; norm; [|run].
  eapply tr_bind; [apply ctx_clone_tr|spc|]. intros [cx2 ok] _. norm. vproj. destruct ok; vproj; [|run].
  destruct src as [b' g' dk' ek' t']. proj. norm. destruct g' as [g|]; norm; [|run].
  specialize (SO _ eq_refl). eapply tr_bind; [apply (sig_get_privkey_tr g SO)|spc|]. intros [k|] _; norm; run.
Qed.
Lemma fill_dec_tr b i src : sig_ok src ->
  tr (nfp 1 (mk_ment b i None None None None false false) ++ mfp src)
     (fill_dec (mk_ment b i None None None None false false) src)
     (fun r => nfp 1 (fst r) ++ mfp src)
     (fun r => n_blk (fst r) = b /\ n_zombie (fst r) = false /\ n_enc (fst r) = None /\ dec_plain (n_dec (fst r))).
Proof.
  intro SO. unfold fill_dec. vproj. norm. stp spec. destruct a as [o|]; norm; [|run; unfold dec_plain; intuition discriminate].
  destruct (H _ eq_refl) as (ob & ot & ->). clear H. norm.
  eapply tr_bind; [apply copy_dec_tr; reflexivity|spc|]. intros [o2 ok] [E3 E4]. cbn in E3, E4. norm. vproj.
  assert (D : dec_plain (Some o2)) by (intros d [= <-]; exact E4).
  destruct ok; vproj; [|run].
  destruct src as [b' g' dk' ek' t']. proj. norm. destruct g' as [g|]; norm; [|run].
  specialize (SO _ eq_refl). eapply tr_bind; [apply (sig_get_pubkey_tr g SO)|spc|]. intros [k|] _; norm; run.
Qed.

(** *** Reading the cache *)

Lemma tr_seq {A B} P (c : M A) (k : A -> M B) Q0 G0 Q G :
  tr P c Q0 G0 -> (forall a, G0 a -> tr (Q0 a) (k a) Q G) -> tr P (bind c k) Q G.
Proof. intros H K. eapply tr_bind; [exact H|apply sp_atom, tk_all|]. intros a Ha. rewrite app_nil_r. apply K, Ha. Qed.
Lemma tr_post {A} P (c : M A) Q0 (G0 : A -> Prop) Q G :
  tr P c Q0 G0 -> (forall a, G0 a -> Permutation (Q0 a) (Q a) /\ G a) -> tr P c Q G.
Proof. intros H K. eapply tr_call; [exact H|apply sp_atom, tk_all|]. intros a Ha. rewrite app_nil_r. apply K, Ha. Qed.
Lemma tr_framed {A} P F P' (c : M A) Q G :
  tr P c Q G -> Permutation P' (P ++ F) -> tr P' c (fun a => Q a ++ F) G.
Proof.
  intros H E. eapply tr_pre; [exact E|]. eapply tr_call; [exact H|apply sp_atom, tk_app|]. intros a Ha. split; [reflexivity|exact Ha].
Qed.
Lemma tr_ask {B} P s (k : bool -> M B) Q G :
  (forall a, (a = true -> may s = true) -> tr P (k a) Q G) -> tr P (bind (ask s) k) Q G.
Proof. intro K. eapply tr_bind; [apply ask_tr|apply sp_nil|]. intros a Ha. apply (K a Ha). Qed.
Lemma tr_same {A} P F P' (c : M A) G :
  tr P c (fun _ => P) G -> Permutation P' (P ++ F) -> tr P' c (fun _ => P') G.
Proof.
  intros H E. eapply tr_pre; [exact E|]. eapply tr_call; [exact H|apply sp_atom, tk_app|]. intros a Ha. split; [symmetry; exact E|exact Ha].
Qed.
Lemma each_keep_tr {A} (f : A -> M unit) P l :
  (forall x, In x l -> tr P (f x) (fun _ => P) (fun _ => True)) -> tr P (each f l) (fun _ => P) (fun _ => True).
Proof.
  induction l as [|x l IH]; intro H; cbn [each].
  - apply tr_ret; [reflexivity|exact I].
  - eapply tr_seq; [apply H; left; reflexivity|]. intros ? _. apply IH. intros y Hy. apply H. right. exact Hy.
Qed.

Lemma lfp_ent n v hs l1 e l2 : v_all v = l1 ++ e :: l2 ->
  Permutation (lfp n v hs) (nfp (nrefs hs e) e ++ lfp n (with_all v (l1 ++ l2)) hs).
Proof.
  destruct v as [b t h k c lo els lru ttl all]. cbn [v_all]. intros ->. cbn [lfp with_all v_blk v_tab v_heap v_back v_cap v_locked v_els v_lru v_ttl v_all].
  rewrite fps_here, fps_app. perm.
Qed.
Lemma lfp_ent_hold n v hs l1 e l2 b : v_all v = l1 ++ e :: l2 -> n_blk e = b -> ~ In b (names l1) -> ~ In b (names l2) ->
  Permutation (lfp n v (b :: hs)) (nfp (S (nrefs hs e)) e ++ lfp n (with_all v (l1 ++ l2)) hs).
Proof.
  destruct v as [b' t h k c lo els lru ttl all]. cbn [v_all]. intros -> E N1 N2.
  cbn [lfp with_all v_blk v_tab v_heap v_back v_cap v_locked v_els v_lru v_ttl v_all].
  rewrite (fps_add b hs l1 e l2 E N1 N2), fps_app. perm.
Qed.
Lemma nfp_head e : exists r, forall n', nfp n' e = mkc (n_blk e) false n' :: r.
Proof. destruct e as [b i en de k x h z]. eexists. intro n'. reflexivity. Qed.

Lemma touch_blk_tr n v hs : tr (lfp n v hs) (touch (v_blk v)) (fun _ => lfp n v hs) (fun _ => True).
Proof. destruct v. eapply tr_same; [apply touch_tr|perm]. Qed.
Lemma touch_tab_tr n v hs : tr (lfp n v hs) (touch (v_tab v)) (fun _ => lfp n v hs) (fun _ => True).
Proof. destruct v. eapply tr_same; [apply touch_tr|perm]. Qed.
Lemma touch_heap_tr n v hs : tr (lfp n v hs) (touch (v_heap v)) (fun _ => lfp n v hs) (fun _ => True).
Proof. destruct v. eapply tr_same; [apply touch_tr|perm]. Qed.
Lemma touch_ent_tr n v hs b : In b (names (v_all v)) -> tr (lfp n v hs) (touch b) (fun _ => lfp n v hs) (fun _ => True).
Proof.
  intro I. apply in_map_iff in I. destruct I as (e & E & I). apply in_split in I. destruct I as (l1 & l2 & A).
  pose proof (lfp_ent n v hs l1 e l2 A) as L. destruct (nfp_head e) as (r & R). rewrite R, E in L.
  eapply tr_same; [apply touch_tr|exact L].
Qed.
Lemma read_tr n v hs b : NoDup (names (v_all v)) -> In b (names (v_all v)) ->
  tr (lfp n v hs) (read v b) (fun _ => lfp n v hs) (fun e => In e (v_all v) /\ n_blk e = b).
Proof.
  intros N I. unfold read. eapply tr_seq; [apply touch_ent_tr, I|]. intros ? _.
  destruct (ent_split _ _ N I) as (l1 & e & l2 & A & <- & N1 & N2). rewrite A, (find_ent l1 e l2 N1).
  apply tr_ret; [reflexivity|]. split; [apply in_or_app; cbn; auto|reflexivity].
Qed.
Lemma look_tr n v hs b : NoDup (names (v_all v)) -> In b (names (v_all v)) ->
  tr (lfp n v hs) (look v b) (fun _ => lfp n v hs) (fun _ => True).
Proof.
  intros N I. unfold look. eapply tr_seq; [apply read_tr; assumption|]. intros e [Ie _].
  destruct (n_id e) as [i|] eqn:E; [|apply tr_ret; [reflexivity|exact Coq.Init.Logic.I]].
  apply in_split in Ie. destruct Ie as (l1 & l2 & A). pose proof (lfp_ent n v hs l1 e l2 A) as L.
  destruct e as [b' i' en de k x h z]. cbn in E. subst i'.
  eapply tr_same with (F := mkc b' false _ :: (omfp en ++ omfp de ++ match en with Some _ => sfp k | None => bfp k end ++ oxfp x) ++ lfp n (with_all v (l1 ++ l2)) hs);
    [apply touch_tr|].
  rewrite L. cbn [nfp bfp]. perm.
Qed.
Lemma lookup_tr n v hs : NoDup (names (v_all v)) -> (forall b, In b (v_els v) -> In b (names (v_all v))) ->
  tr (lfp n v hs) (lookup v) (fun _ => lfp n v hs) (fun _ => True).
Proof.
  intros N S. unfold lookup. eapply tr_seq; [apply touch_tab_tr|]. intros ? _. apply each_keep_tr. intros b I.
  apply look_tr; auto.
Qed.
Lemma touch_lru_tr n v hs : inv0 v hs -> tr (lfp n v hs) (each touch (v_lru v)) (fun _ => lfp n v hs) (fun _ => True).
Proof.
  intro V. apply each_keep_tr. intros b I. apply touch_ent_tr, home_names. rewrite <- (i_lru _ _ V). exact I.
Qed.
Lemma touch_ttl_tr n v hs : inv0 v hs -> tr (lfp n v hs) (each touch (v_ttl v)) (fun _ => lfp n v hs) (fun _ => True).
Proof.
  intro V. apply each_keep_tr. intros b I. apply touch_ent_tr. destruct (i_ttl _ _ V b I) as (e & J & <- & _). apply in_map, J.
Qed.
Lemma inv_els v hs : inv v hs -> forall b, In b (v_els v) -> In b (names (v_all v)).
Proof. intros [_ P] b I. apply home_names. rewrite <- P. exact I. Qed.

(** *** References *)

Lemma nrefs_zero hs e : nrefs hs e = 0 <-> n_zombie e = true /\ ~ In (n_blk e) hs.
Proof.
  unfold nrefs. rewrite (count_occ_not_In Nat.eq_dec hs (n_blk e)). destruct (n_zombie e); split; intro H; intuition (try discriminate; lia).
Qed.
Lemma retain_ent_tr n v hs b : inv0 v hs -> In b (names (v_all v)) ->
  tr (lfp n v hs) (retain b) (fun _ => lfp n v (b :: hs)) (fun _ => True).
Proof.
  intros V I. destruct (ent_split _ _ (i_nd _ _ V) I) as (l1 & e & l2 & A & E & N1 & N2).
  pose proof (lfp_ent n v hs l1 e l2 A) as L. pose proof (lfp_ent_hold n v hs l1 e l2 b A E N1 N2) as L2.
  destruct (nfp_head e) as (r & R). rewrite R, E in L, L2.
  destruct (nrefs hs e) as [|m] eqn:M.
  - exfalso. apply nrefs_zero in M. destruct M as [Z M]. apply M. apply (i_zo _ _ V); [|exact Z]. rewrite A. apply in_or_app. cbn. auto.
  - eapply tr_pre; [exact L|]. eapply tr_call; [apply retain_tr|apply sp_cons with (F1 := r ++ lfp n (with_all v (l1 ++ l2)) hs); [apply tk_cons; reflexivity|apply sp_nil]|].
    intros ? _. split; [symmetry; exact L2|exact Logic.I].
Qed.
Lemma entry_dec v hs e : inv0 v hs -> In e (v_all v) -> dec_plain (n_dec e).
Proof. intros V I. exact (proj1 (proj1 (Forall_forall _ _) (i_ok _ _ V) e I)). Qed.

(** Giving up a reference, up to what it does to the entry. *)
Lemma release_ref_tr n v hs b : inv0 v (b :: hs) ->
  tr (lfp n v (b :: hs)) (release_ref v b) (fun v' => lfp n v' hs)
     (fun v' => inv0 v' hs /\ (exists all, v' = with_all v all) /\ home (v_all v') = home (v_all v)).
Proof.
  intro V. unfold release_ref.
  assert (I : In b (names (v_all v))) by (apply (i_hs _ _ V); left; reflexivity).
  eapply tr_seq; [apply read_tr; [exact (i_nd _ _ V)|exact I]|]. intros e [Ie E].
  destruct (ent_split _ _ (i_nd _ _ V) I) as (l1 & e' & l2 & A & E' & N1 & N2).
  assert (e' = e) by (apply (ent_unique (v_all v)); [exact (i_nd _ _ V)|rewrite A; apply in_or_app; cbn; auto|exact Ie|congruence]). subst e'.
  pose proof (lfp_ent n v hs l1 e l2 A) as L. pose proof (lfp_ent_hold n v hs l1 e l2 b A E N1 N2) as L2.
  destruct (nfp_head e) as (r & R). pose proof R as R0. rewrite R, E in L, L2.
  eapply tr_pre; [exact L2|].
  eapply tr_bind; [apply unref_tr|apply sp_cons with (F1 := r ++ lfp n (with_all v (l1 ++ l2)) hs); [apply tk_cons; reflexivity|apply sp_nil]|].
  intros a ->. destruct (nrefs hs e =? 0) eqn:Z.
  - apply Nat.eqb_eq in Z. rewrite Z. apply nrefs_zero in Z. destruct Z as [Z NI]. rewrite Z.
    specialize (R0 0).
    eapply tr_bind; [apply (destroy_entry_tr 0 e (entry_dec v _ e V Ie))|rewrite R0, <- E; apply sp_atom; cbn [app]; apply (tk_app (mkc (n_blk e) false 0 :: r) (lfp n (with_all v (l1 ++ l2)) hs))|].
    intros ? _. cbn [app]. rewrite A, <- E, (drop_here l1 e l2) by (rewrite E; assumption).
    apply tr_ret; [reflexivity|]. rewrite E in NI. split; [|split].
    + eapply inv0_gone; eassumption.
    + eauto.
    + cbn [with_all v_all]. rewrite !home_app. unfold home at 4. cbn. rewrite Z. reflexivity.
  - apply tr_ret; [symmetry; exact L|]. split; [|split; [|reflexivity]].
    + eapply inv0_keep; [exact V|exact Ie|exact E|]. apply Nat.eqb_neq in Z. destruct (n_zombie e) eqn:ZZ; [right|left; reflexivity].
      destruct (in_dec Nat.eq_dec b hs) as [J|J]; [exact J|]. exfalso. apply Z, nrefs_zero. rewrite E. auto.
    + exists (v_all v). destruct v; reflexivity.
Qed.

(** *** Invalidation *)

Lemma touch_list_tr n v hs l : (forall b, In b l -> In b (names (v_all v))) ->
  tr (lfp n v hs) (each touch l) (fun _ => lfp n v hs) (fun _ => True).
Proof. intro H. apply each_keep_tr. intros b I. apply touch_ent_tr, H, I. Qed.
Lemma lru_names v hs : inv0 v hs -> forall b, In b (v_lru v) -> In b (names (v_all v)).
Proof. intros V b I. apply home_names. rewrite <- (i_lru _ _ V). exact I. Qed.
Lemma ttl_names v hs : inv0 v hs -> forall b, In b (v_ttl v) -> In b (names (v_all v)).
Proof. intros V b I. destruct (i_ttl _ _ V b I) as (e & J & <- & _). apply in_map, J. Qed.
Lemma heap_remove_tr n v hs b : (forall b, In b (v_ttl v) -> In b (names (v_all v))) ->
  tr (lfp n v hs) (heap_remove v b) (fun v' => lfp n v' hs) (fun v' => v' = with_ttl v (drop_id b (v_ttl v))).
Proof.
  intro V. unfold heap_remove. eapply tr_seq; [apply touch_heap_tr|]. intros ? _.
  eapply tr_seq; [apply touch_list_tr, V|]. intros ? _. apply tr_ret; [destruct v; reflexivity|reflexivity].
Qed.
Lemma lfp_zombie n v hs l1 e l2 b ttl els lru : v_all v = l1 ++ e :: l2 -> n_blk e = b -> n_zombie e = false ->
  ~ In b (names l1) -> ~ In b (names l2) ->
  lfp n (with_all (with_lru (with_els (with_ttl v ttl) els) lru) (l1 ++ zombify e :: l2)) (b :: hs) = lfp n v hs.
Proof.
  destruct v as [b1 t1 h1 k1 c1 o1 els1 lru1 ttl1 all1]. cbn [v_all]. intros -> E Z N1 N2.
  cbn [lfp with_all with_lru with_els with_ttl v_blk v_tab v_heap v_back v_cap v_locked v_els v_lru v_ttl v_all].
  rewrite (fps_add b hs l1 (zombify e) l2 E N1 N2), fps_here.
  assert (X : nfp (S (nrefs hs (zombify e))) (zombify e) = nfp (nrefs hs e) e).
  { unfold nrefs. destruct e as [b' i en de k x h z]. cbn in Z |- *. subst z. rewrite Nat.add_0_r, Nat.add_1_r. reflexivity. }
  rewrite X. reflexivity.
Qed.
Lemma home_in l b : In b (home l) -> exists e, In e l /\ n_blk e = b /\ n_zombie e = false.
Proof.
  intro H. apply in_map_iff in H. destruct H as (e & E & H). apply filter_In in H. destruct H as [I Z]. exists e.
  destruct (n_zombie e); [discriminate|auto].
Qed.

Definition invalidated (b : nat) (v v' : mlocal) : Prop :=
  frame v v' /\ v_tab v' = v_tab v /\ v_heap v' = v_heap v /\ Permutation (home (v_all v)) (b :: home (v_all v')) /\
  v_lru v' = drop_id b (v_lru v).

Lemma invalidate_tr n v hs b skip : inv0 v hs -> In b (home (v_all v)) ->
  (skip = false -> forall c, In c (v_els v) -> In c (names (v_all v))) ->
  tr (lfp n v hs) (invalidate v b skip) (fun v' => lfp n v' hs)
     (fun v' => inv0 v' hs /\ invalidated b v v' /\ v_els v' = (if skip then v_els v else drop_id b (v_els v))).
Proof.
  intros V I S. unfold invalidate.
  eapply tr_seq; [apply read_tr; [exact (i_nd _ _ V)|apply home_names, I]|]. intros e [Ie E].
  destruct (ent_split _ _ (i_nd _ _ V) (home_names _ _ I)) as (l1 & e' & l2 & A & E' & N1 & N2).
  assert (e' = e) by (apply (ent_unique (v_all v)); [exact (i_nd _ _ V)|rewrite A; apply in_or_app; cbn; auto|exact Ie|congruence]). subst e'.
  assert (Z : n_zombie e = false).
  { destruct (home_in _ _ I) as (e' & I' & E2 & Z). replace e with e'; [exact Z|].
    apply (ent_unique (v_all v)); [exact (i_nd _ _ V)|exact I'|exact Ie|congruence]. }
  rewrite Z.
  eapply tr_seq with (Q0 := fun v' => lfp n v' hs)
    (G0 := fun v' => v' = with_ttl v (if n_hint e then drop_id b (v_ttl v) else v_ttl v)).
  { destruct (n_hint e); [apply heap_remove_tr, (ttl_names v hs V)|apply tr_ret; [|destruct v]; reflexivity]. }
  intros v1 ->. set (T := if n_hint e then drop_id b (v_ttl v) else v_ttl v).
  eapply tr_seq with (Q0 := fun v' => lfp n v' hs)
    (G0 := fun v' => v' = with_els (with_ttl v T) (if skip then v_els v else drop_id b (v_els v))).
  { destruct skip; [apply tr_ret; [|destruct v]; reflexivity|].
    eapply tr_seq; [apply lookup_tr; [exact (i_nd _ _ V)|exact (S eq_refl)]|]. intros ? _. apply tr_ret; [destruct v; reflexivity|reflexivity]. }
  intros v2 ->. set (L := if skip then v_els v else drop_id b (v_els v)).
  eapply tr_seq; [apply touch_blk_tr|]. intros ? _.
  eapply tr_seq; [apply touch_list_tr; exact (lru_names v hs V)|]. intros ? _.
  cbn [with_els with_ttl v_all v_lru v_els v_ttl with_lru]. rewrite A.
  replace (upd_ent b zombify (l1 ++ e :: l2)) with (l1 ++ zombify e :: l2) by (subst b; rewrite upd_here by assumption; reflexivity).
  destruct (inv0_zombie v hs b l1 e l2 L V A E Z) as [V' HH]. fold T in V'.
  pose proof (release_ref_tr n _ _ _ V') as RR. rewrite (lfp_zombie n v hs l1 e l2 b T L _ A E Z N1 N2) in RR.
  eapply tr_eq; [|eapply tr_post; [exact RR|]].
  - destruct v; reflexivity.
  - intros v' (V2 & (all & ->) & H2). split; [reflexivity|]. split; [exact V2|]. split.
    + repeat split. cbn [with_all v_all] in H2 |- *. rewrite HH, H2. reflexivity.
    + reflexivity.
Qed.

Lemma inv_invalidated v v' hs b : inv v hs -> inv0 v' hs -> invalidated b v v' -> v_els v' = drop_id b (v_els v) ->
  In b (home (v_all v)) -> inv v' hs.
Proof.
  intros [V P] V' (_ & _ & _ & H & _) EE I. split; [exact V'|]. rewrite EE. apply drop_id_cancel. rewrite P. exact H.
Qed.
Lemma invalidate_inv_tr n v hs b : inv v hs -> In b (home (v_all v)) ->
  tr (lfp n v hs) (invalidate v b false) (fun v' => lfp n v' hs) (fun v' => inv v' hs /\ invalidated b v v').
Proof.
  intros V I. eapply tr_post; [apply (invalidate_tr n v hs b false (proj1 V) I (fun _ => inv_els v hs V))|].
  intros v' (V' & D & EE). split; [reflexivity|]. split; [|exact D]. eapply inv_invalidated; eassumption.
Qed.

(** What a change of the contents leaves as it was. *)
Definition same_names (v v' : mlocal) : Prop := frame v v' /\ (forall b, In b (home (v_all v')) -> In b (home (v_all v))).
Lemma same_refl v : same_names v v.
Proof. split; [apply frame_refl|auto]. Qed.
Lemma same_trans a b c : same_names a b -> same_names b c -> same_names a c.
Proof. intros [F H] [F' H']. split; [eapply frame_trans; eassumption|auto]. Qed.
Lemma same_invalidated b v v' : invalidated b v v' -> same_names v v'.
Proof. intros (F & _ & _ & P & _). split; [exact F|]. intros c I. rewrite P. right. exact I. Qed.

Lemma ttl_home v hs b : inv0 v hs -> In b (v_ttl v) -> In b (home (v_all v)).
Proof. intros V I. destruct (i_ttl _ _ V b I) as (e & J & <- & Z & _). apply in_home; assumption. Qed.
Lemma heap_top_tr l : tr [] (heap_top l) (fun _ => []) (fun o => forall b, o = Some b -> In b l).
Proof.
  induction l as [|b l IH]; cbn [heap_top].
  - apply tr_ret; [reflexivity|]. intros; discriminate.
  - destruct l as [|c l]; [apply tr_ret; [reflexivity|]; intros ? [= <-]; left; reflexivity|].
    apply tr_ask. intros [|] _.
    + apply tr_ret; [reflexivity|]. intros ? [= <-]. left. reflexivity.
    + eapply tr_post; [exact IH|]. intros o Ho. split; [reflexivity|]. intros d ->. right. apply Ho. reflexivity.
Qed.
Lemma ttl_loop_tr n hs : forall m v, inv v hs ->
  tr (lfp n v hs) (ttl_loop m v) (fun v' => lfp n v' hs) (fun v' => inv v' hs /\ same_names v v').
Proof.
  induction m as [|m IH]; intros v V; cbn [ttl_loop].
  - apply tr_ret; [reflexivity|]. split; [exact V|apply same_refl].
  - eapply tr_seq; [apply touch_heap_tr|]. intros ? _.
    eapply tr_bind; [apply heap_top_tr|apply sp_nil|]. intros [b|] Hb; cbn [app].
    + specialize (Hb b eq_refl). eapply tr_seq; [apply touch_ent_tr, (ttl_names v hs (proj1 V)), Hb|]. intros ? _.
      apply tr_ask. intros [|] _; [|apply tr_ret; [reflexivity|]; split; [exact V|apply same_refl]].
      eapply tr_seq; [apply invalidate_inv_tr; [exact V|apply (ttl_home v hs); [exact (proj1 V)|exact Hb]]|].
      intros v1 [V1 D1]. eapply tr_post; [apply IH; exact V1|]. intros v2 [V2 D2]. split; [reflexivity|]. split; [exact V2|].
      eapply same_trans; [eapply same_invalidated; exact D1|exact D2].
    + apply tr_ret; [reflexivity|]. split; [exact V|apply same_refl].
Qed.
Lemma process_ttls_tr n v hs : inv v hs ->
  tr (lfp n v hs) (process_ttls v) (fun v' => lfp n v' hs) (fun v' => inv v' hs /\ same_names v v').
Proof.
  intro V. unfold process_ttls. apply tr_ask. intros [|] _; [apply tr_ret; [reflexivity|]; split; [exact V|apply same_refl]|].
  apply ttl_loop_tr, V.
Qed.

Lemma move_to_head_tr n v hs b : inv v hs -> In b (home (v_all v)) ->
  tr (lfp n v hs) (move_to_head v b) (fun v' => lfp n v' hs) (fun v' => inv v' hs /\ frame v v' /\ v_all v' = v_all v).
Proof.
  intros [V P] I. unfold move_to_head. eapply tr_seq; [apply touch_blk_tr|]. intros ? _.
  eapply tr_seq; [apply touch_list_tr; exact (lru_names v hs V)|]. intros ? _.
  apply tr_ret; [destruct v; reflexivity|]. split; [|split; [repeat split|reflexivity]]. split; [|exact P].
  eapply inv0_same; [..|exact V]; try reflexivity. cbn [with_lru v_lru]. symmetry. apply drop_id_perm. rewrite (i_lru _ _ V). exact I.
Qed.
Lemma locked_find_tr n v hs hit : inv v hs ->
  tr (lfp n v hs) (locked_find v hit) (fun r => lfp n (fst r) hs)
     (fun r => inv (fst r) hs /\ frame v (fst r) /\ forall b, snd r = Some b -> In b (home (v_all (fst r)))).
Proof.
  intro V. unfold locked_find. eapply tr_seq; [apply process_ttls_tr, V|]. intros v1 [V1 [F1 _]].
  eapply tr_seq; [apply lookup_tr; [exact (i_nd _ _ (proj1 V1))|apply (inv_els v1 hs V1)]|]. intros ? _.
  destruct (nth_error (v_els v1) hit) as [b|] eqn:E.
  - assert (I : In b (home (v_all v1))) by (rewrite <- (proj2 V1); apply (nth_error_In _ _ E)).
    eapply tr_seq; [apply move_to_head_tr; [exact V1|exact I]|]. intros v2 (V2 & F2 & A2).
    apply tr_ret; [reflexivity|]. split; [exact V2|]. split; [eapply frame_trans; eassumption|]. intros c [= <-]. cbn [fst]. rewrite A2. exact I.
  - apply tr_ret; [reflexivity|]. split; [exact V1|]. split; [exact F1|]. intros; discriminate.
Qed.

(** *** Insertion *)

Lemma last_other (fresh : nat) rest b r : NoDup (fresh :: rest) -> rest <> [] -> rev (fresh :: rest) = b :: r -> b <> fresh /\ In b rest.
Proof.
  intros N E H. assert (I : In b rest).
  { cbn in H. destruct (rev rest) as [|c l] eqn:R; [apply (f_equal (@rev nat)) in R; rewrite rev_involutive in R; contradiction|].
    cbn in H. injection H as -> _. apply in_rev. rewrite R. left. reflexivity. }
  split; [|exact I]. intros ->. inversion N; contradiction.
Qed.
Lemma evict_tr n hs fresh : forall m v rest, inv v hs -> v_lru v = fresh :: rest ->
  tr (lfp n v hs) (evict m v fresh) (fun v' => lfp n v' hs) (fun v' => inv v' hs /\ frame v v' /\ In fresh (home (v_all v'))).
Proof.
  induction m as [|m IH]; intros v rest V L; cbn [evict].
  - apply tr_ret; [reflexivity|]. split; [exact V|]. split; [apply frame_refl|]. rewrite <- (i_lru _ _ (proj1 V)), L. left. reflexivity.
  - destruct (length (v_els v) <=? v_cap v) eqn:C.
    + apply tr_ret; [reflexivity|]. split; [exact V|]. split; [apply frame_refl|]. rewrite <- (i_lru _ _ (proj1 V)), L. left. reflexivity.
    + apply Nat.leb_gt in C. pose proof (i_cap _ _ (proj1 V)) as C2.
      assert (LL : length (v_els v) = length (v_lru v)).
      { rewrite (Permutation_length (proj2 V)), (Permutation_length (i_lru _ _ (proj1 V))). reflexivity. }
      assert (ND : NoDup (v_lru v)).
      { apply (Permutation_NoDup (Permutation_sym (i_lru _ _ (proj1 V)))). apply NoDup_home, (i_nd _ _ (proj1 V)). }
      rewrite L in *. destruct (rev (fresh :: rest)) as [|b r] eqn:R; [exfalso; apply (f_equal (@length nat)) in R; rewrite rev_length in R; cbn in R; discriminate|].
      destruct (last_other fresh rest b r ND) as [B1 B2]; [intros ->; cbn in LL; lia|exact R|].
      rewrite (proj2 (Nat.eqb_neq b fresh) B1).
      assert (I : In b (home (v_all v))) by (rewrite <- (i_lru _ _ (proj1 V)), L; right; exact B2).
      eapply tr_seq; [apply invalidate_inv_tr; [exact V|exact I]|]. intros v1 [V1 D1].
      eapply tr_post; [apply (IH v1 (drop_id b rest) V1)|].
      * destruct D1 as (_ & _ & _ & _ & E1). rewrite E1, L. cbn. rewrite (proj2 (Nat.eqb_neq fresh b)) by congruence. reflexivity.
      * intros v2 (V2 & F2 & I2). split; [reflexivity|]. split; [exact V2|]. split; [|exact I2].
        eapply frame_trans; [exact (proj1 D1)|exact F2].
Qed.
Lemma table_create_tr n v hs : inv v hs ->
  tr (lfp n v hs) (table_create v) (fun o => match o with Some v' => lfp n v' hs | None => lfp n v hs end)
     (fun o => forall v', o = Some v' -> inv v' hs /\ frame v v').
Proof.
  intro V. unfold table_create. eapply tr_seq; [apply lookup_tr; [exact (i_nd _ _ (proj1 V))|apply (inv_els v hs V)]|]. intros ? _.
  apply tr_ask. intros [|] _; [|apply tr_ret; [reflexivity|]; intros v' [= <-]; split; [exact V|apply frame_refl]].
  eapply tr_bind; [apply acquire_tr|apply sp_nil|]. intros [t|] _; [|apply tr_ret; [reflexivity|]; intros; discriminate].
  destruct V as [V P]. assert (V' : inv (with_tab v t) hs) by (split; [eapply inv0_same; [..|exact V]; reflexivity|exact P]).
  destruct v as [b1 t1 h1 k1 c1 o1 els1 lru1 ttl1 all1]. cbn [with_tab v_blk v_tab v_heap v_back v_cap v_locked v_els v_lru v_ttl v_all] in *.
  norm. eapply tr_bind; [apply release_tr|spc|]. intros ? _. norm. apply tr_ret; [perm|]. intros v' [= <-]. split; [exact V'|repeat split].
Qed.

Lemma names_ids hs l b : In b (names l) -> In b (ids (fps hs l)).
Proof.
  intro I. apply in_map_iff in I. destruct I as (e & <- & I). apply in_split in I. destruct I as (l1 & l2 & ->).
  rewrite fps_here. unfold ids. rewrite !map_app. apply in_or_app. right. apply in_or_app. left.
  destruct (nfp_head e) as (r & R). rewrite R. left. reflexivity.
Qed.
Lemma NoDup_app_not {A} (l l' : list A) x : NoDup (l ++ l') -> In x l -> ~ In x l'.
Proof.
  induction l as [|y l IH]; cbn; [tauto|]. intros N [->|I]; inversion N as [|? ? N1 N2]; subst; auto.
  intro I'. apply N1, in_or_app. auto.
Qed.
Lemma fresh_name n v hs e m : NoDup (ids (lfp n v hs ++ nfp m e)) -> ~ In (n_blk e) (names (v_all v)).
Proof.
  intros N I. unfold ids in N. rewrite map_app in N. apply (NoDup_app_not _ _ (n_blk e) N).
  - destruct v as [b1 t1 h1 k1 c1 o1 els1 lru1 ttl1 all1]. cbn [lfp map]. do 3 right. rewrite map_app. apply in_or_app. right. apply (names_ids hs), I.
  - destruct (nfp_head e) as (r & R). rewrite R. left. reflexivity.
Qed.
Lemma lfp_els n v hs l : lfp n (with_els v l) hs = lfp n v hs.
Proof. destruct v. reflexivity. Qed.

Lemma locked_insert_tr n v hs e dup : inv v hs -> entry_ok e -> n_zombie e = false ->
  tr (lfp n v hs ++ nfp 1 e) (locked_insert v e dup)
     (fun r => lfp n (fst r) hs ++ (if snd r then [] else nfp 1 e))
     (fun r => inv (fst r) hs /\ frame v (fst r) /\ (snd r = true -> In (n_blk e) (home (v_all (fst r))))).
Proof.
  intros V K Z. unfold locked_insert.
  eapply tr_bind; [apply process_ttls_tr, V|apply sp_atom, tk_app|]. intros v1 [V1 [F1 _]].
  eapply tr_bind; [apply table_create_tr, V1|apply sp_atom, tk_app|]. intros [v2|] H2;
    [|apply tr_ret; [reflexivity|]; split; [exact V1|]; split; [exact F1|]; discriminate].
  destruct (H2 _ eq_refl) as [V2 F2]. clear H2.
  eapply tr_bind with (Q0 := fun v' => lfp n v' hs) (G0 := fun v' => inv v' hs /\ frame v2 v') (P0 := lfp n v2 hs) (F := nfp 1 e);
    [|apply sp_atom, tk_app|].
  { destruct (nth_error (v_els v2) dup) as [old|] eqn:E; [|apply tr_ret; [reflexivity|]; split; [exact V2|apply frame_refl]].
    assert (I : In old (home (v_all v2))) by (rewrite <- (proj2 V2); apply (nth_error_In _ _ E)).
    eapply tr_seq; [apply (invalidate_tr n v2 hs old true (proj1 V2) I); discriminate|]. intros v3 (V3 & D3 & E3).
    apply tr_ret; [rewrite lfp_els; reflexivity|].
    split; [|exact (proj1 D3)]. split; [eapply inv0_same; [..|exact V3]; reflexivity|].
    cbn [with_els v_els v_all]. rewrite E3. apply drop_id_cancel. rewrite (proj2 V2). exact (proj1 (proj2 (proj2 (proj2 D3)))). }
  intros v3 [V3 F3]. apply tr_nodup. intro N. apply fresh_name in N.
  set (v4 := with_els v3 (n_blk e :: v_els v3)).
  rewrite <- (lfp_els n v3 hs (n_blk e :: v_els v3)). fold v4.
  eapply tr_bind; [apply touch_blk_tr|apply sp_atom, tk_app|]. intros ? _.
  eapply tr_bind; [apply (touch_list_tr n v4 hs); exact (lru_names v3 hs (proj1 V3))|apply sp_atom, tk_app|]. intros ? _.
  destruct (nfp_head e) as (rr & RR).
  eapply tr_seq; [eapply tr_same with (P := [mkc (n_blk e) false 1]) (F := rr ++ lfp n v4 hs); [apply touch_tr|]|].
  { rewrite RR. rewrite Permutation_app_comm. reflexivity. }
  intros ? _. cbn zeta.
  destruct (inv0_new v3 hs e (proj1 V3) N K Z) as (V5 & H5 & R5).
  set (v5 := with_all (with_lru v4 (n_blk e :: v_lru v4)) (e :: v_all v4)).
  assert (V6 : inv v5 hs).
  { split; [eapply inv0_same; [..|exact V5]; reflexivity|]. unfold v5, v4. cbn [with_all with_lru with_els v_els v_all]. rewrite H5. constructor.
    exact (proj2 V3). }
  assert (L5 : Permutation (lfp n v4 hs ++ nfp 1 e) (lfp n v5 hs)).
  { rewrite <- R5. symmetry. etransitivity; [apply (lfp_ent n v5 hs [] e (v_all v4) eq_refl)|].
    etransitivity; [apply Permutation_app_comm|]. apply Permutation_app_tail. unfold v5, v4. destruct v3; reflexivity. }
  eapply tr_pre; [exact L5|].
  eapply tr_seq; [apply (evict_tr n hs (n_blk e) (length (v_els v5)) v5 (v_lru v3) V6 eq_refl)|]. intros v6 (V7 & F7 & I7).
  apply tr_ret; [cbn [fst snd]; rewrite app_nil_r; reflexivity|]. split; [exact V7|]. split; [|auto].
  eapply frame_trans; [exact F1|]. eapply frame_trans; [exact F2|]. eapply frame_trans; [exact F3|exact F7].
Qed.

(** *** The methods of the cache *)

Definition cinv (v : mlocal) (hs : list nat) : Prop := inv v hs /\ v_locked v = false.

Lemma lfp_lock n v hs b : lfp n (with_lock v b) hs = lfp n v hs.
Proof. destruct v. reflexivity. Qed.
Lemma inv_lock v hs b : inv v hs -> inv (with_lock v b) hs.
Proof. intros [V P]. split; [eapply inv0_same; [..|exact V]; reflexivity|exact P]. Qed.
Lemma cinv_perm v hs hs' : Permutation hs hs' -> cinv v hs -> cinv v hs'.
Proof. intros P [V L]. split; [eapply inv_perm; eassumption|exact L]. Qed.
Lemma inv_hold v hs b : In b (names (v_all v)) -> inv v hs -> inv v (b :: hs).
Proof. intros I [V P]. split; [apply inv0_hold; assumption|exact P]. Qed.
Lemma cinv_names v hs b : cinv v hs -> In b hs -> In b (names (v_all v)).
Proof. intros [[V _] _] I. apply (i_hs _ _ V), I. Qed.
Lemma cinv_nd v hs : cinv v hs -> NoDup (names (v_all v)).
Proof. intros [[V _] _]. exact (i_nd _ _ V). Qed.

Lemma lock_tr n v hs s : cinv v hs ->
  tr (lfp n v hs) (lock s v) (fun o => match o with Some v' => lfp n v' hs | None => lfp n v hs end)
     (fun o => (o = None -> may s = true) /\ forall v', o = Some v' -> inv v' hs /\ v_locked v' = true /\ v_all v' = v_all v /\ v_els v' = v_els v).
Proof.
  intros [V L]. unfold lock. eapply tr_seq; [apply touch_blk_tr|]. intros ? _. rewrite L. apply tr_ask. intros [|] H.
  - apply tr_ret; [reflexivity|]. split; [auto|]. intros; discriminate.
  - apply tr_ret; [rewrite lfp_lock; reflexivity|]. split; [discriminate|]. intros v' [= <-]. split; [apply inv_lock, V|repeat split].
Qed.
Lemma unlock_tr n v hs : inv v hs -> v_locked v = true ->
  tr (lfp n v hs) (unlock v) (fun v' => lfp n v' hs) (fun v' => cinv v' hs /\ v_all v' = v_all v).
Proof.
  intros V L. unfold unlock. eapply tr_seq; [apply touch_blk_tr|]. intros ? _. rewrite L.
  apply tr_ret; [rewrite lfp_lock; reflexivity|]. split; [|reflexivity]. split; [apply inv_lock, V|reflexivity].
Qed.

Lemma entry_count_tr n v hs : cinv v hs -> tr (lfp n v hs) (entry_count v) (fun v' => lfp n v' hs) (fun v' => cinv v' hs).
Proof.
  intro V. unfold entry_count. eapply tr_seq; [apply lock_tr, V|]. intros [v1|] [_ H]; [|apply tr_ret; [reflexivity|exact V]].
  destruct (H _ eq_refl) as (V1 & L1 & _). eapply tr_seq; [apply touch_tab_tr|]. intros ? _.
  eapply tr_post; [apply unlock_tr; assumption|]. intros v' [V' _]. split; [reflexivity|exact V'].
Qed.
Lemma find_entry_tr n v hs hit : cinv v hs ->
  tr (lfp n v hs) (find_entry v hit) (fun r => lfp n (fst r) (opt_cons (option_map fst (snd r)) hs))
     (fun r => cinv (fst r) (opt_cons (option_map fst (snd r)) hs)).
Proof.
  intro V. unfold find_entry. eapply tr_seq; [apply lock_tr, V|]. intros [v1|] [_ H]; [|apply tr_ret; [reflexivity|exact V]].
  destruct (H _ eq_refl) as (V1 & L1 & _). clear H.
  eapply tr_seq; [apply locked_find_tr, V1|]. intros [v2 o] (V2 & F2 & H2). cbn [fst snd] in *.
  assert (L2 : v_locked v2 = true) by (destruct F2 as (_ & _ & ->); exact L1).
  destruct o as [b|].
  - specialize (H2 b eq_refl). pose proof (home_names _ _ H2) as I2.
    pose proof (inv_hold v2 hs b I2 V2) as V3.
    eapply tr_seq with (Q0 := fun _ => lfp n v2 (b :: hs)) (G0 := fun r => exists t, r = Some (b, t)).
    { eapply tr_seq; [apply retain_ent_tr; [exact (proj1 V2)|exact I2]|]. intros ? _.
      eapply tr_seq; [apply read_tr; [exact (i_nd _ _ (proj1 V3))|exact I2]|]. intros e _. apply tr_ret; [reflexivity|]. eauto. }
    intros r [t ->]. eapply tr_seq; [apply unlock_tr; [exact V3|exact L2]|]. intros v4 [V4 _]. apply tr_ret; [reflexivity|exact V4].
  - apply tr_ret_bind. eapply tr_seq; [apply unlock_tr; [exact V2|exact L2]|]. intros v4 [V4 _]. apply tr_ret; [reflexivity|exact V4].
Qed.
Lemma update_usage_tr n v hs b : cinv v hs -> In b hs -> tr (lfp n v hs) (update_usage v b) (fun _ => lfp n v hs) (fun _ => True).
Proof.
  intros V I. unfold update_usage. eapply tr_seq; [apply read_tr; [exact (cinv_nd _ _ V)|exact (cinv_names _ _ _ V I)]|]. intros e _.
  apply tr_ret; [reflexivity|exact Logic.I].
Qed.
Lemma creation_time_tr n v hs b : cinv v hs -> In b hs -> tr (lfp n v hs) (creation_time v b) (fun _ => lfp n v hs) (fun _ => True).
Proof.
  intros V I. unfold creation_time. eapply tr_seq; [apply read_tr; [exact (cinv_nd _ _ V)|exact (cinv_names _ _ _ V I)]|]. intros e _.
  apply tr_ret; [reflexivity|exact Logic.I].
Qed.

(** Reading an entry on whose contents a function then works. *)
Lemma with_entry_tr {A} n v hs b F (k : mentry -> M A) Q G : cinv v hs -> In b hs ->
  (forall e R, entry_ok e -> Permutation (lfp n v hs) (nfp (nrefs hs e) e ++ R) ->
     tr (nfp (nrefs hs e) e ++ R ++ F) (k e) Q G) ->
  tr (lfp n v hs ++ F) (bind (read v b) k) Q G.
Proof.
  intros V I K. eapply tr_bind; [apply read_tr; [exact (cinv_nd _ _ V)|exact (cinv_names _ _ _ V I)]|apply sp_atom, tk_app|].
  intros e [Ie _]. destruct (in_split _ _ Ie) as (l1 & l2 & A1). pose proof (lfp_ent n v hs l1 e l2 A1) as L.
  eapply tr_pre; [|apply K; [|exact L]].
  - rewrite L, app_assoc. reflexivity.
  - exact (proj1 (Forall_forall _ _) (i_ok _ _ (proj1 (proj1 V))) e Ie).
Qed.

Lemma get_enc_tr n v hs b x : cinv v hs -> In b hs ->
  tr (lfp n v hs ++ xfp x) (get_enc v b x) (fun r => lfp n v hs ++ xfp (fst r) ++ omfp (snd r))
     (fun r => forall m, snd r = Some m -> sig_ok m).
Proof.
  intros V I. unfold get_enc. apply with_entry_tr; [exact V|exact I|]. intros e R K L.
  eapply tr_post with (Q0 := fun r => nfp (nrefs hs e) e ++ R ++ xfp (fst r) ++ omfp (snd r)) (G0 := fun r => forall m, snd r = Some m -> sig_ok m);
    [|intros r Hr; split; [rewrite L, <- app_assoc; reflexivity|exact Hr]].
  clear L V. destruct e as [eb i en de k cx h z]. destruct K as [_ [K _]]. vproj. cbn in K.
  set (c := nrefs hs _). clearbody c. clear I.
  destruct en as [src|]; norm; [|run].
  destruct cx as [cx|]; [|exfalso; apply K; [discriminate|reflexivity]]. clear K. norm.
  stp spec. destruct a as [o|]; norm; [|run].
  destruct (H _ eq_refl) as (E1 & E2 & _). clear H.
  eapply tr_bind; [apply (copy_enc_tr o src E2 E1)|spc|]. intros [o2 ok] E3. cbn in E3. norm. vproj. destruct ok; vproj.
  2: { eapply tr_bind; [apply (enc_materials_destroy_tr may spill (Some o2))|spc|]. intros ? _. norm. run. }
  eapply tr_bind; [apply (ctx_clone_tr x cx)|spc|]. intros [x2 ok] _. norm. vproj. destruct ok; vproj.
  2: { eapply tr_bind; [apply (enc_materials_destroy_tr may spill (Some o2))|spc|]. intros ? _. norm. run. }
  destruct k as [k|]; norm.
  2: { run; try (intros m [= <-]; unfold sig_ok; rewrite E3; intros; discriminate). }
  stp spec. stp spec. destruct a0 as [[g p]|]; norm.
  - destruct (H _ _ eq_refl) as [SF PN]. rewrite (PN eq_refl). destruct o2 as [ob og odk oek ot]. cbn in E3. subst og. proj. norm.
    run; try (intros m [= <-] g' [= <-]; exact SF).
  - eapply tr_bind; [apply (enc_materials_destroy_tr may spill (Some o2))|spc|]. intros ? _. norm. run.
Qed.
Definition dec_ok (e : mmat) : Prop := e_edks e = mkl [] 0 None /\ sig_ok e.
Lemma get_dec_tr n v hs b : cinv v hs -> In b hs ->
  tr (lfp n v hs) (get_dec v b) (fun r => lfp n v hs ++ omfp r) (fun r => forall m, r = Some m -> dec_ok m).
Proof.
  intros V I. unfold get_dec. eapply tr_eq; [symmetry; apply app_nil_r|]. apply with_entry_tr; [exact V|exact I|]. intros e R K L.
  eapply tr_post with (Q0 := fun r => nfp (nrefs hs e) e ++ R ++ omfp r) (G0 := fun r => forall m, r = Some m -> dec_ok m);
    [|intros r Hr; split; [rewrite L, <- app_assoc; reflexivity|exact Hr]].
  clear L V. destruct e as [eb i en de k cx h z]. destruct K as [K _]. vproj. cbn in K.
  set (c := nrefs hs _). clearbody c. clear I.
  destruct de as [src|]; norm; [|run].
  stp spec. destruct a as [o|]; norm; [|run].
  destruct (H _ eq_refl) as (ob & ot & ->). clear H. norm.
  eapply tr_bind; [apply copy_dec_tr; reflexivity|spc|]. intros [o2 ok] [E3 E4]. cbn in E3, E4. norm. vproj.
  assert (D : dec_plain (Some o2)) by (intros d [= <-]; exact E4).
  destruct ok; vproj.
  2: { eapply tr_bind; [apply (dec_destroy_tr (Some o2) D)|spc|]. intros ? _. norm. run. }
  destruct k as [k|].
  2: { run; try (intros m [= <-]; split; [exact E4|]; unfold sig_ok; rewrite E3; intros; discriminate). }
  assert (T : tr (match en with Some _ => sfp (Some k) | None => bfp (Some k) end) (touch k)
                 (fun _ => match en with Some _ => sfp (Some k) | None => bfp (Some k) end) (fun _ => True))
    by (destruct en; apply touch_tr).
  eapply tr_bind; [exact T|apply sp_atom; tk|]. intros ? _. norm.
  set (kk := match en with Some _ => sfp (Some k) | None => bfp (Some k) end). clearbody kk.
  stp spec. destruct a0 as [g|]; norm.
  - specialize (H _ eq_refl). destruct o2 as [ob2 og odk oek ot2]. cbn in E3, E4. subst og oek. proj. norm.
    run; try (intros m [= <-]; split; [reflexivity|]; intros g' [= <-]; exact H).
  - eapply tr_bind; [apply (dec_destroy_tr (Some o2) D)|spc|]. intros ? _. norm. run.
Qed.

Lemma put_entry_tr n v hs F fill dup : cinv v hs ->
  (forall b i, tr (nfp 1 (mk_ment b i None None None None false false) ++ F) (fill (mk_ment b i None None None None false false))
     (fun r => nfp 1 (fst r) ++ F)
     (fun r => n_zombie (fst r) = false /\ dec_plain (n_dec (fst r)) /\ (snd r = true -> entry_ok (fst r)))) ->
  tr (lfp n v hs ++ F) (put_entry fill v dup) (fun r => lfp n (fst r) (opt_cons (snd r) hs) ++ F)
     (fun r => cinv (fst r) (opt_cons (snd r) hs)).
Proof.
  intros V HF. unfold put_entry. eapply tr_bind; [apply lock_tr, V|apply sp_atom, tk_app|].
  intros [v1|] [_ H]; [|apply tr_ret; [reflexivity|exact V]]. destruct (H _ eq_refl) as (V1 & L1 & _). clear H.
  eapply tr_bind; [apply new_entry_tr|apply sp_nil|]. intros [e|] He.
  2: { cbn [app]. eapply tr_bind; [apply unlock_tr; [exact V1|exact L1]|apply sp_atom, tk_app|]. intros v2 [V2 _]. apply tr_ret; [reflexivity|exact V2]. }
  destruct (He _ eq_refl) as (b & i & ->). clear He.
  eapply tr_pre with (P' := (nfp 1 (mk_ment b i None None None None false false) ++ F) ++ lfp n v1 hs).
  { rewrite <- app_assoc. apply Permutation_app_head, Permutation_app_comm. }
  eapply tr_bind; [apply HF|apply sp_atom, tk_app|]. intros [e ok] (Z & D & K). cbn [fst snd] in *.
  destruct ok; cbn [negb].
  2: { rewrite <- app_assoc. eapply tr_bind; [apply (destroy_entry_tr 1 e D)|apply sp_atom, tk_app|]. intros ? _. cbn [app].
       eapply tr_bind; [apply unlock_tr; [exact V1|exact L1]|apply sp_atom; apply tk_skip_app, tk_all|]. intros v2 [V2 _]. rewrite app_nil_r.
       apply tr_ret; [reflexivity|exact V2]. }
  specialize (K eq_refl).
  eapply tr_pre with (P' := (lfp n v1 hs ++ nfp 1 e) ++ F).
  { rewrite <- app_assoc. etransitivity; [apply Permutation_app_head, Permutation_app_comm|]. rewrite !app_assoc. apply Permutation_app_tail, Permutation_app_comm. }
  eapply tr_bind; [apply (locked_insert_tr n v1 hs e dup V1 K Z)|apply sp_atom, tk_app|]. intros [v2 ok] (V2 & F2 & I2). cbn [fst snd] in *.
  assert (L2 : v_locked v2 = true) by (destruct F2 as (_ & _ & ->); exact L1).
  destruct ok.
  - rewrite app_nil_r. specialize (I2 eq_refl). pose proof (home_names _ _ I2) as J2.
    eapply tr_bind; [apply retain_ent_tr; [exact (proj1 V2)|exact J2]|apply sp_atom, tk_app|]. intros ? _.
    eapply tr_bind; [apply unlock_tr; [apply inv_hold; [exact J2|exact V2]|exact L2]|apply sp_atom, tk_app|]. intros v3 [V3 _].
    apply tr_ret; [reflexivity|exact V3].
  - rewrite <- app_assoc. eapply tr_bind; [apply (destroy_entry_tr 1 e D)|apply sp_atom, tk_skip_app, tk_app|]. intros ? _. cbn [app].
    eapply tr_bind; [apply unlock_tr; [exact V2|exact L2]|apply sp_atom, tk_app|]. intros v3 [V3 _]. apply tr_ret; [reflexivity|exact V3].
Qed.
Lemma put_enc_tr n v hs src x dup : cinv v hs -> sig_ok src ->
  tr (lfp n v hs ++ mfp src ++ xfp x) (put_enc v src x dup) (fun r => lfp n (fst r) (opt_cons (snd r) hs) ++ mfp src ++ xfp x)
     (fun r => cinv (fst r) (opt_cons (snd r) hs)).
Proof.
  intros V SO. unfold put_enc. apply put_entry_tr; [exact V|]. intros b i. eapply tr_post; [apply (fill_enc_tr b i src x SO)|].
  intros [e ok] (_ & Z & D & C). cbn [fst snd] in *. split; [reflexivity|]. split; [exact Z|].
  assert (DD : dec_plain (n_dec e)) by (rewrite D; intros ? [=]). split; [exact DD|]. intro. split; [exact DD|]. split; [intros _; apply C; assumption|auto].
Qed.
Lemma put_dec_tr n v hs src dup : cinv v hs -> sig_ok src ->
  tr (lfp n v hs ++ mfp src) (put_dec v src dup) (fun r => lfp n (fst r) (opt_cons (snd r) hs) ++ mfp src)
     (fun r => cinv (fst r) (opt_cons (snd r) hs)).
Proof.
  intros V SO. unfold put_dec. apply put_entry_tr; [exact V|]. intros b i. eapply tr_post; [apply (fill_dec_tr b i src SO)|].
  intros [e ok] (_ & Z & D & C). cbn [fst snd] in *. split; [reflexivity|]. split; [exact Z|].
  split; [exact C|]. intro. split; [exact C|]. split; [rewrite D; congruence|auto].
Qed.

Lemma heap_push_tr n v hs b : inv0 v hs -> In b (names (v_all v)) ->
  tr (lfp n v hs) (heap_push v b) (fun r => lfp n (fst r) hs)
     (fun r => exists h k, fst r = with_ttl (with_heap v h k) (if snd r then b :: v_ttl v else v_ttl v)).
Proof.
  intros V I. unfold heap_push. eapply tr_seq; [apply touch_heap_tr|]. intros ? _. apply tr_ask. intros g _.
  eapply tr_seq with (Q0 := fun r => lfp n (fst r) hs) (G0 := fun r : mlocal * bool => exists h k, fst r = with_heap v h k).
  { destruct g; [|apply tr_ret; [reflexivity|]; exists (v_heap v), (v_back v); destruct v; reflexivity].
    eapply tr_bind; [apply acquire_tr|apply sp_nil|]. intros [h|] _; [|apply tr_ret; [reflexivity|]; exists (v_heap v), (v_back v); destruct v; reflexivity].
    destruct v as [b1 t1 h1 k1 c1 o1 els1 lru1 ttl1 all1]. vproj. norm.
    eapply tr_bind; [apply release_tr|spc|]. intros ? _. norm. apply tr_ret; [perm|]. vproj. eauto. }
  intros [v1 ok] (h1 & k1 & E1). cbn [fst] in *.
  destruct ok; cbn [negb]; [|apply tr_ret; [reflexivity|]; exists h1, k1; rewrite E1; destruct v; reflexivity].
  apply tr_ask. intros g2 _.
  eapply tr_seq with (Q0 := fun r => lfp n (fst r) hs) (G0 := fun r : mlocal * bool => exists h k, fst r = with_heap v h k).
  { destruct g2; [|apply tr_ret; [reflexivity|]; eauto].
    eapply tr_bind; [apply acquire_tr|apply sp_nil|]. intros [h|] _; [|apply tr_ret; [reflexivity|]; eauto].
    destruct v as [b2 t2 h2 k2 c2 o2 els2 lru2 ttl2 all2]. subst v1. vproj. norm.
    eapply tr_bind; [apply buf_clean_up_tr|spc|]. intros ? _. norm. apply tr_ret; [perm|]. vproj. eexists _, _. reflexivity. }
  intros [v2 ok] (h2 & k2 & E2). cbn [fst] in *.
  destruct ok; cbn [negb]; [|apply tr_ret; [reflexivity|]; exists h2, k2; rewrite E2; destruct v; reflexivity].
  assert (A2 : v_all v2 = v_all v) by (rewrite E2; reflexivity). assert (T2 : v_ttl v2 = v_ttl v) by (rewrite E2; reflexivity).
  eapply tr_seq; [apply touch_ent_tr; rewrite A2; exact I|]. intros ? _.
  eapply tr_seq; [apply touch_list_tr; rewrite A2, T2; exact (ttl_names v hs V)|]. intros ? _.
  apply tr_ret; [destruct v2; reflexivity|]. exists h2, k2. cbn [fst snd]. rewrite T2, E2. reflexivity.
Qed.
Lemma lfp_hinted n v hs l1 e l2 ok : v_all v = l1 ++ e :: l2 ->
  lfp n (with_all v (l1 ++ hinted ok e :: l2)) hs = lfp n v hs.
Proof.
  destruct v as [b1 t1 h1 k1 c1 o1 els1 lru1 ttl1 all1]. vproj. intros ->. cbn [lfp with_all v_blk v_tab v_heap v_back v_cap v_locked v_els v_lru v_ttl v_all]. rewrite !fps_here. destruct e. reflexivity.
Qed.
Lemma set_hint_tr n v hs b : cinv v hs -> In b hs -> tr (lfp n v hs) (set_hint v b) (fun v' => lfp n v' hs) (fun v' => cinv v' hs).
Proof.
  intros V I. unfold set_hint. eapply tr_seq; [apply read_tr; [exact (cinv_nd _ _ V)|exact (cinv_names _ _ _ V I)]|]. intros e0 _.
  apply tr_ask. intros s _. destruct (n_zombie e0 || n_hint e0 && s); [apply tr_ret; [reflexivity|exact V]|].
  eapply tr_seq; [apply lock_tr, V|]. intros [v1|] [_ H]; [|apply tr_ret; [reflexivity|exact V]].
  destruct (H _ eq_refl) as (V1 & L1 & _). clear H. pose proof (proj1 V1) as V1'.
  pose proof (i_hs _ _ V1' b I) as I1.
  eapply tr_seq; [apply read_tr; [exact (i_nd _ _ V1')|exact I1]|]. intros e [Ie E].
  destruct (n_zombie e) eqn:Z; cbn [orb].
  { eapply tr_post; [apply unlock_tr; assumption|]. intros v' [V' _]. split; [reflexivity|exact V']. }
  destruct (n_hint e && s).
  { eapply tr_post; [apply unlock_tr; assumption|]. intros v' [V' _]. split; [reflexivity|exact V']. }
  eapply tr_seq with (Q0 := fun v' => lfp n v' hs)
    (G0 := fun v' => v' = with_ttl v1 (if n_hint e then drop_id b (v_ttl v1) else v_ttl v1)).
  { destruct (n_hint e); [apply heap_remove_tr, (ttl_names v1 hs V1')|apply tr_ret; [|destruct v1]; reflexivity]. }
  intros v2 ->. set (T := if n_hint e then drop_id b (v_ttl v1) else v_ttl v1).
  assert (HT : forall c, In c T -> In c (v_ttl v1)) by (unfold T; destruct (n_hint e); [apply drop_id_in|auto]).
  assert (V2 : inv0 (with_ttl v1 T) hs).
  { destruct V1' as [H1 H2 H3 H4 H5 H6 H7 H8]. constructor; cbn [with_ttl v_all v_lru v_ttl v_cap]; auto.
    unfold T. destruct (n_hint e); [apply drop_id_nodup, H6|exact H6]. }
  eapply tr_seq; [apply (heap_push_tr n _ hs b V2 I1)|]. intros [v3 ok] (h3 & k3 & E3). cbn [fst snd with_ttl v_ttl] in E3.
  destruct (ent_split _ _ (i_nd _ _ V1') I1) as (l1 & e' & l2 & A & E' & N1 & N2).
  assert (e' = e) by (apply (ent_unique (v_all v1)); [exact (i_nd _ _ V1')|rewrite A; apply in_or_app; cbn; auto|exact Ie|congruence]). subst e'.
  assert (A3 : v_all v3 = v_all v1) by (rewrite E3; reflexivity).
  cbn [fst]. eapply tr_seq; [apply touch_ent_tr; rewrite A3; exact I1|]. intros ? _.
  rewrite A3, A. replace (upd_ent b (hinted ok) (l1 ++ e :: l2)) with (l1 ++ hinted ok e :: l2) by (rewrite <- E; rewrite upd_here by (rewrite E; assumption); reflexivity).
  destruct (inv0_hinted v1 hs b l1 e l2 ok T V1' A E Z eq_refl) as [V4 H4].
  rewrite <- (lfp_hinted n v3 hs l1 e l2 ok) by (rewrite A3; exact A).
  eapply tr_post; [apply unlock_tr|].
  - split; [eapply inv0_same; [..|exact V4]; rewrite ?E3; try reflexivity; destruct ok; reflexivity|]. cbn [with_all v_els v_all]. rewrite H4, E3. exact (proj2 V1).
  - rewrite E3. exact L1.
  - intros v' [V' _]. split; [reflexivity|exact V'].
Qed.

(** Giving up a reference on an entry that is in the cache. *)
Lemma unref_home_tr n v hs b e : inv0 v (b :: hs) -> In e (v_all v) -> n_blk e = b -> n_zombie e = false ->
  tr (lfp n v (b :: hs)) (unref b) (fun _ => lfp n v hs) (fun last => last = false /\ inv0 v hs).
Proof.
  intros V Ie E Z. assert (I : In b (names (v_all v))) by (rewrite <- E; apply in_map, Ie).
  destruct (ent_split _ _ (i_nd _ _ V) I) as (l1 & e' & l2 & A & E' & N1 & N2).
  assert (e' = e) by (apply (ent_unique (v_all v)); [exact (i_nd _ _ V)|rewrite A; apply in_or_app; cbn; auto|exact Ie|congruence]). subst e'.
  pose proof (lfp_ent n v hs l1 e l2 A) as L. pose proof (lfp_ent_hold n v hs l1 e l2 b A E N1 N2) as L2.
  destruct (nfp_head e) as (r & R). rewrite R, E in L, L2.
  eapply tr_pre; [exact L2|].
  eapply tr_call; [apply unref_tr|apply sp_cons with (F1 := r ++ lfp n (with_all v (l1 ++ l2)) hs); [apply tk_cons; reflexivity|apply sp_nil]|].
  intros a ->. split; [symmetry; exact L|]. split; [|eapply inv0_keep; eauto].
  apply Nat.eqb_neq. intro N. apply nrefs_zero in N. destruct N as [N _]. congruence.
Qed.
Lemma release_entry_tr n v hs b inval : may SLock = false -> cinv v (b :: hs) ->
  tr (lfp n v (b :: hs)) (release_entry v b inval) (fun v' => lfp n v' hs) (fun v' => cinv v' hs).
Proof.
  intros NL V. unfold release_entry. pose proof V as [[V0 P] L0].
  eapply tr_seq; [apply read_tr; [exact (cinv_nd _ _ V)|apply (cinv_names _ _ _ V); left; reflexivity]|]. intros e [Ie E].
  destruct (inval && negb (n_zombie e)) eqn:C.
  - apply andb_prop in C. destruct C as [-> Z]. apply negb_true_iff in Z.
    eapply tr_seq; [apply lock_tr, V|]. intros [v1|] [X H]; [|exfalso; rewrite X in NL by reflexivity; discriminate].
    destruct (H _ eq_refl) as (V1 & L1 & A1 & _). clear H X.
    eapply tr_seq with (Q0 := fun v' => lfp n v' hs) (G0 := fun v' => inv v' hs /\ v_locked v' = true).
    + unfold locked_release. eapply tr_seq; [apply read_tr; [exact (i_nd _ _ (proj1 V1))|apply (i_hs _ _ (proj1 V1)); left; reflexivity]|].
      intros e1 [I1 E1]. assert (e1 = e) by (apply (ent_unique (v_all v1)); [exact (i_nd _ _ (proj1 V1))|exact I1|rewrite A1; exact Ie|congruence]). subst e1.
      eapply tr_seq; [apply (unref_home_tr n v1 hs b e (proj1 V1) I1 E1 Z)|]. intros a [-> V2]. rewrite Z. cbn [andb negb].
      assert (Vi : inv v1 hs) by (split; [exact V2|exact (proj2 V1)]).
      eapply tr_post; [apply invalidate_inv_tr; [exact Vi|rewrite <- E1; apply in_home; assumption]|].
      intros v2 [V3 D3]. split; [reflexivity|]. split; [exact V3|]. destruct D3 as ((_ & _ & ->) & _). exact L1.
    + intros v2 [V2 L2]. eapply tr_post; [apply unlock_tr; assumption|]. intros v' [V' _]. split; [reflexivity|exact V'].
  - eapply tr_post; [apply release_ref_tr, V0|]. intros v' (V' & (all & Ea) & H'). split; [reflexivity|].
    split; [|rewrite Ea; exact L0]. split; [exact V'|]. rewrite H', Ea. exact P.
Qed.

Lemma clear_loop_tr n hs : forall l v, inv v hs -> v_els v = l -> v_locked v = true ->
  tr (lfp n v hs) (clear_loop l v) (fun v' => lfp n v' hs) (fun v' => inv v' hs /\ v_locked v' = true /\ v_els v' = []).
Proof.
  induction l as [|b l IH]; intros v V E L; cbn [clear_loop].
  - apply tr_ret; [reflexivity|auto].
  - assert (I : In b (home (v_all v))) by (rewrite <- (proj2 V), E; left; reflexivity).
    eapply tr_seq; [apply (invalidate_tr n v hs b true (proj1 V) I); discriminate|]. intros v1 (V1 & D1 & E1).
    rewrite E1, E. cbn [drop_id]. rewrite Nat.eqb_refl.
    rewrite <- (lfp_els n v1 hs l).
    apply IH; [|reflexivity|destruct D1 as ((_ & _ & X) & _); cbn [with_els v_locked]; rewrite X; exact L].
    split; [eapply inv0_same; [..|exact V1]; reflexivity|]. cbn [with_els v_els v_all].
    destruct D1 as (_ & _ & _ & HP & _). apply (Permutation_cons_inv (a := b)). rewrite <- HP, <- (proj2 V), E. reflexivity.
Qed.
Lemma clear_cache_tr n v hs : may SLock = false -> cinv v hs ->
  tr (lfp n v hs) (clear_cache v) (fun v' => lfp n v' hs) (fun v' => cinv v' hs /\ home (v_all v') = []).
Proof.
  intros NL V. unfold clear_cache. eapply tr_seq; [apply lock_tr, V|].
  intros [v1|] [X H]; [|exfalso; rewrite X in NL by reflexivity; discriminate]. destruct (H _ eq_refl) as (V1 & L1 & _). clear H X.
  eapply tr_seq; [apply touch_tab_tr|]. intros ? _.
  eapply tr_seq; [apply (clear_loop_tr n hs (v_els v1) v1 V1 eq_refl L1)|]. intros v2 (V2 & L2 & E2).
  eapply tr_post; [apply unlock_tr; assumption|]. intros v' [V' A']. split; [reflexivity|]. split; [exact V'|].
  rewrite A'. apply Permutation_nil. rewrite <- (proj2 V2), E2. reflexivity.
Qed.

(** *** The end of the cache *)

Lemma destroy_each_tr v : forall l rest, NoDup (names (v_all v)) -> Forall entry_ok (v_all v) ->
  Permutation l (names rest) -> (forall e, In e rest -> In e (v_all v)) ->
  tr (fps [] rest) (each (fun b => let* e := read v b in destroy_entry e) l) (fun _ => []) (fun _ => True).
Proof.
  induction l as [|b l IH]; intros rest N K P S; cbn [each].
  - apply Permutation_nil in P. destruct rest; [|discriminate]. apply tr_ret; [reflexivity|exact I].
  - assert (J : In b (names rest)) by (rewrite <- P; left; reflexivity).
    apply in_map_iff in J. destruct J as (e & E & J). pose proof (S e J) as Ie. apply in_split in J. destruct J as (r1 & r2 & ->).
    assert (L : Permutation (fps [] (r1 ++ e :: r2)) (nfp (nrefs [] e) e ++ fps [] (r1 ++ r2))).
    { rewrite fps_here, fps_app. perm. }
    eapply tr_pre; [exact L|].
    eapply tr_bind with (P0 := nfp (nrefs [] e) e) (Q0 := fun _ => []) (G0 := fun _ => True); [|apply sp_atom, tk_app|].
    + unfold read. destruct (nfp_head e) as (r & R). apply tr_assoc. eapply tr_seq.
      { eapply tr_same with (P := [mkc (n_blk e) false (nrefs [] e)]) (F := r); [rewrite E; apply touch_tr|rewrite R; reflexivity]. }
      intros ? _. assert (In b (names (v_all v))) as Ib by (rewrite <- E; apply in_map, Ie).
      destruct (ent_split _ _ N Ib) as (l1 & e' & l2 & A & E' & N1 & N2).
      assert (e' = e) by (apply (ent_unique (v_all v)); [exact N|rewrite A; apply in_or_app; cbn; auto|exact Ie|congruence]). subst e'.
      rewrite A, <- E, (find_ent l1 e l2) by (rewrite E; exact N1). apply tr_ret_bind.
      apply destroy_entry_tr. exact (proj1 (proj1 (Forall_forall _ _) K e Ie)).
    + intros ? _. cbn [app]. apply IH; auto.
      * apply (Permutation_cons_inv (a := b)). rewrite P, !names_app. cbn. rewrite E. symmetry. apply Permutation_middle.
      * intros e' J'. apply S. apply in_app_or in J'. apply in_or_app. cbn. tauto.
Qed.
Lemma destroy_cache_tr n v : inv v [] -> tr (lfp n v []) (destroy_cache v) (fun _ => []) (fun _ => True).
Proof.
  intros [V P]. unfold destroy_cache.
  pose proof (destroy_each_tr v (v_els v) (v_all v) (i_nd _ _ V) (i_ok _ _ V)) as D. rewrite (inv0_alone v V) in P.
  specialize (D P (fun _ H => H)). destruct v as [b1 t1 h1 k1 c1 o1 els1 lru1 ttl1 all1]. vproj. cbn [v_all v_els] in D. clear - D.
  unfold lfp. eapply tr_bind; [apply release_tr|spc|]. intros ? _. norm.
  eapply tr_bind; [apply buf_clean_up_tr|spc|]. intros ? _. norm.
  eapply tr_bind; [exact D|apply sp_atom; tk|]. intros ? _. norm. run.
Qed.
Lemma cache_release_last_tr v : cinv v [] -> tr (lfp 1 v []) (cache_release v) (fun _ => []) (fun _ => True).
Proof.
  intros [V _]. unfold cache_release.
  eapply tr_bind with (P0 := [mkc (v_blk v) false 1]) (Q0 := fun _ => [mkc (v_blk v) false 0]) (G0 := fun a => a = true)
    (F := mkc (v_tab v) false 0 :: mkc (v_heap v) false 0 :: bfp (v_back v) ++ fps [] (v_all v)).
  { apply unref_tr. } { destruct v. apply sp_cons with (F1 := mkc v_tab false 0 :: mkc v_heap false 0 :: bfp v_back ++ fps [] v_all); [apply tk_cons; reflexivity|apply sp_nil]. }
  intros a ->. eapply tr_eq; [|apply (destroy_cache_tr 0 v V)]. destruct v; reflexivity.
Qed.
Lemma cache_release_shared_tr v hs : tr (lfp 2 v hs) (cache_release v) (fun _ => lfp 1 v hs) (fun _ => True).
Proof.
  unfold cache_release.
  eapply tr_bind with (P0 := [mkc (v_blk v) false 2]) (Q0 := fun _ => [mkc (v_blk v) false 1]) (G0 := fun a => a = false)
    (F := mkc (v_tab v) false 0 :: mkc (v_heap v) false 0 :: bfp (v_back v) ++ fps hs (v_all v)).
  { apply unref_tr. } { destruct v. apply sp_cons with (F1 := mkc v_tab false 0 :: mkc v_heap false 0 :: bfp v_back ++ fps hs v_all); [apply tk_cons; reflexivity|apply sp_nil]. }
  intros a ->. apply tr_ret; [destruct v; reflexivity|exact I].
Qed.
Lemma local_new_tr capacity :
  tr [] (local_new capacity) (fun o => match o with Some v => lfp 1 v [] | None => [] end) (fun o => forall v, o = Some v -> cinv v []).
Proof.
  unfold local_new. run. intros v [= <-]. split; [|reflexivity]. split; [|reflexivity].
  apply mk_inv0; cbn [v_all v_lru v_ttl v_cap].
  - apply NoDup_nil.
  - apply Forall_nil.
  - intros b [].
  - intros e [].
  - apply Permutation_refl.
  - apply NoDup_nil.
  - intros b [].
  - exact (Nat.le_max_l 2 capacity).
Qed.

(** *** The caching CMM *)

Lemma check_ttl_tr n v hs b : cinv v hs -> In b hs ->
  tr (lfp n v hs) (check_ttl v b) (fun r => lfp n (fst r) hs) (fun r => cinv (fst r) hs).
Proof.
  intros V I. unfold check_ttl. apply tr_ask. intros [|] _; [apply tr_ret; [reflexivity|exact V]|].
  eapply tr_seq; [apply creation_time_tr; [exact V|exact I]|]. intros ? _. apply tr_ask. intros [|] _; [apply tr_ret; [reflexivity|exact V]|].
  apply tr_ask. intros [|] _; [apply tr_ret; [reflexivity|exact V]|].
  eapply tr_seq; [apply set_hint_tr; [exact V|exact I]|]. intros v' V'. apply tr_ret; [reflexivity|exact V'].
Qed.
Lemma after_put_tr n v hs o : may SLock = false -> cinv v (opt_cons o hs) ->
  tr (lfp n v (opt_cons o hs)) (after_put v o) (fun v' => lfp n v' hs) (fun v' => cinv v' hs).
Proof.
  intros NL V. unfold after_put. destruct o as [b|]; cbn [opt_cons] in *; [|apply tr_ret; [reflexivity|exact V]].
  assert (I : In b (b :: hs)) by (left; reflexivity).
  apply tr_ask. intros never _.
  eapply tr_seq with (Q0 := fun v' => lfp n v' (b :: hs)) (G0 := fun v' => cinv v' (b :: hs)).
  { destruct never; [apply tr_ret; [reflexivity|exact V]|].
    eapply tr_seq; [apply creation_time_tr; [exact V|exact I]|]. intros ? _. apply tr_ask. intros [|] _; [apply tr_ret; [reflexivity|exact V]|].
    apply set_hint_tr; [exact V|exact I]. }
  intros v' V'. apply release_entry_tr; assumption.
Qed.

Lemma try_hit_tr n v hs x hit : may SLock = false -> cinv v hs ->
  tr (lfp n v hs ++ xfp x) (try_hit v x hit) (fun r => lfp n (fst (fst r)) hs ++ xfp (snd (fst r)) ++ omfp (snd r))
     (fun r => cinv (fst (fst r)) hs /\ forall m, snd r = Some m -> sig_ok m).
Proof.
  intros NL V. unfold try_hit. eapply tr_bind; [apply find_entry_tr, V|apply sp_atom, tk_app|].
  intros [v1 [[b t]|]] V1; cbn [fst snd option_map opt_cons] in *.
  2: { apply tr_ret; [cbn [fst snd omfp]; rewrite app_nil_r; reflexivity|]. split; [exact V1|intros; discriminate]. }
  assert (I : In b (b :: hs)) by (left; reflexivity).
  eapply tr_seq with (Q0 := fun r => lfp n (fst (fst r)) (b :: hs) ++ xfp (snd (fst r)) ++ omfp (snd r))
    (G0 := fun r => cinv (fst (fst r)) (b :: hs) /\ forall m, snd r = Some m -> sig_ok m).
  { assert (X : forall v', cinv v' (b :: hs) ->
      tr (lfp n v' (b :: hs) ++ xfp x) (ret (v', x, None)) (fun r => lfp n (fst (fst r)) (b :: hs) ++ xfp (snd (fst r)) ++ omfp (snd r))
         (fun r => cinv (fst (fst r)) (b :: hs) /\ forall m, snd r = Some m -> sig_ok m)).
    { intros v' V'. apply tr_ret; [cbn [fst snd omfp]; rewrite app_nil_r; reflexivity|]. split; [exact V'|intros; discriminate]. }
    destruct t; cbn [negb]; [|exact (X v1 V1)].
    eapply tr_bind; [apply (check_ttl_tr n v1 (b :: hs) b V1 I)|apply sp_atom, tk_app|]. intros [v2 ok] V2. cbn [fst] in *.
    destruct ok; cbn [negb]; [|exact (X v2 V2)].
    eapply tr_bind; [apply (update_usage_tr n v2 (b :: hs) b V2 I)|apply sp_atom, tk_app|]. intros ok _.
    destruct ok; cbn [negb]; [|exact (X v2 V2)]. apply tr_ask. intros [|] _; [exact (X v2 V2)|].
    eapply tr_seq; [apply (get_enc_tr n v2 (b :: hs) b x V2 I)|]. intros [x2 o] Ho. cbn [fst snd] in *.
    apply tr_ret; [reflexivity|]. split; [exact V2|exact Ho]. }
  intros [[v2 x2] o] [V2 Ho]. cbn [fst snd] in *.
  eapply tr_bind with (P0 := []) (Q0 := fun _ => []) (G0 := fun _ => True); [|apply sp_nil|].
  { destruct o; [eapply tr_post; [apply ask_tr|]; auto|apply tr_ret; auto]. }
  intros inval _. cbn [app].
  eapply tr_bind; [apply (release_entry_tr n v2 hs b inval NL V2)|apply sp_atom, tk_app|]. intros v3 V3.
  apply tr_ret; [reflexivity|]. split; [exact V3|exact Ho].
Qed.
Lemma try_hit_dec_tr n v hs hit : may SLock = false -> cinv v hs ->
  tr (lfp n v hs) (try_hit_dec v hit) (fun r => lfp n (fst r) hs ++ omfp (snd r))
     (fun r => cinv (fst r) hs /\ forall m, snd r = Some m -> dec_ok m).
Proof.
  intros NL V. unfold try_hit_dec. eapply tr_seq; [apply find_entry_tr, V|].
  intros [v1 [[b t]|]] V1; cbn [fst snd option_map opt_cons] in *.
  2: { apply tr_ret; [cbn [fst snd omfp]; rewrite app_nil_r; reflexivity|]. split; [exact V1|intros; discriminate]. }
  assert (I : In b (b :: hs)) by (left; reflexivity).
  eapply tr_seq with (Q0 := fun r => lfp n (fst r) (b :: hs) ++ omfp (snd r))
    (G0 := fun r => cinv (fst r) (b :: hs) /\ forall m, snd r = Some m -> dec_ok m).
  { assert (X : forall v', cinv v' (b :: hs) ->
      tr (lfp n v' (b :: hs)) (ret (v', None)) (fun r => lfp n (fst r) (b :: hs) ++ omfp (snd r))
         (fun r => cinv (fst r) (b :: hs) /\ forall m, snd r = Some m -> dec_ok m)).
    { intros v' V'. apply tr_ret; [cbn [fst snd omfp]; rewrite app_nil_r; reflexivity|]. split; [exact V'|intros; discriminate]. }
    destruct t; cbn [negb]; [exact (X v1 V1)|].
    eapply tr_seq; [apply (check_ttl_tr n v1 (b :: hs) b V1 I)|]. intros [v2 ok] V2. cbn [fst] in *.
    destruct ok; cbn [negb]; [|exact (X v2 V2)].
    eapply tr_seq; [apply (get_dec_tr n v2 (b :: hs) b V2 I)|]. intros o Ho.
    apply tr_ret; [reflexivity|]. split; [exact V2|exact Ho]. }
  intros [v2 o] [V2 Ho]. cbn [fst snd] in *.
  eapply tr_bind; [apply (release_entry_tr n v2 hs b _ NL V2)|apply sp_atom, tk_app|]. intros v3 V3.
  apply tr_ret; [reflexivity|]. split; [exact V3|exact Ho].
Qed.

(** A caching CMM, without the cache. *)
Definition wqfp (q : mcach) : list cell := match q with mk_mcach b up _ p => mkc b false 1 :: mkc p false 0 :: cfp 1 up end.

Lemma caching_generate_tr q n v hs x hit dup :
  may STransfer = false -> may SSecondMd = false -> may SLock = false -> may SRaii = false -> spill PAesKey = true -> spill PRsaKey = true -> spill PKmsKey = true -> cinv v hs ->
  tr (lfp n v hs ++ wqfp q ++ xfp x) (caching_generate q v x hit dup)
     (fun r => lfp n (fst (fst r)) hs ++ wqfp q ++ xfp (snd (fst r)) ++ omfp (snd r))
     (fun r => cinv (fst (fst r)) hs /\ forall m, snd r = Some m -> sig_ok m).
Proof.
  intros NT N2 NL NR SA SR SK V. destruct q as [qb up qc qp]. unfold caching_generate. cbn [wqfp q_blk q_up q_part]. norm.
  eapply tr_bind; [apply touch_tr|spc|]. intros ? _. norm. apply tr_ask. intros [|] _.
  { eapply tr_bind; [apply (generate_enc_materials_tr may spill up 1 x NT NR SA SR SK)|spc|]. intros [x2 o] Ho. norm. cbn [fst snd] in *.
    apply tr_ret; [perm|]. split; [exact V|exact Ho]. }
  eapply tr_bind; [apply touch_tr|spc|]. intros ? _. norm.
  eapply tr_bind; [apply (hash_enc_request_tr x N2)|spc|]. intros ok _. norm.
  destruct ok; cbn [negb]; [|apply tr_ret; [perm|]; split; [exact V|intros; discriminate]].
  eapply tr_bind; [apply (try_hit_tr n v hs x hit NL V)|spc|]. intros [[v2 x2] o] [V2 Ho]. norm. cbn [fst snd] in *.
  destruct o as [o|]; [apply tr_ret; [perm|]; split; [exact V2|exact Ho]|]. clear Ho. norm.
  eapply tr_bind; [apply (generate_enc_materials_tr may spill up 1 x2 NT NR SA SR SK)|spc|]. intros [x3 o] Ho. norm. cbn [fst snd] in *.
  destruct o as [o|]; [|apply tr_ret; [perm|]; split; [exact V2|exact Ho]]. norm.
  apply tr_ask. intros [|] _; [|apply tr_ret; [perm|]; split; [exact V2|exact Ho]].
  eapply tr_bind; [apply (put_enc_tr n v2 hs o x3 dup V2 (Ho _ eq_refl))|spc|]. intros [v4 h] V4. norm. cbn [fst snd] in *.
  eapply tr_bind; [apply (after_put_tr n v4 hs h NL V4)|spc|]. intros v5 V5. norm. apply tr_ret; [perm|]. split; [exact V5|exact Ho].
Qed.
Lemma caching_decrypt_tr q n v hs x m hit dup :
  may SEdkHash = false -> may SLock = false -> cinv v hs ->
  tr (lfp n v hs ++ wqfp q ++ xfp x) (caching_decrypt q v x m hit dup)
     (fun r => lfp n (fst r) hs ++ wqfp q ++ xfp x ++ omfp (snd r))
     (fun r => cinv (fst r) hs /\ forall m, snd r = Some m -> dec_ok m).
Proof.
  intros N2 NL V. destruct q as [qb up qc qp]. unfold caching_decrypt. cbn [wqfp q_blk q_up q_part]. norm.
  eapply tr_bind; [apply touch_tr|spc|]. intros ? _. norm. apply tr_ask. intros [|] _.
  { eapply tr_bind; [apply (decrypt_materials_tr may spill up 1 m)|spc|]. intros o Ho. norm.
    apply tr_ret; [perm|]. split; [exact V|exact Ho]. }
  eapply tr_bind; [apply touch_tr|spc|]. intros ? _. norm.
  eapply tr_bind; [apply (hash_dec_request_tr x m N2)|spc|]. intros ok _. norm.
  destruct ok; cbn [negb]; [|apply tr_ret; [perm|]; split; [exact V|intros; discriminate]].
  eapply tr_bind; [apply (try_hit_dec_tr n v hs hit NL V)|spc|]. intros [v2 o] [V2 Ho]. norm. cbn [fst snd] in *.
  destruct o as [o|]; [apply tr_ret; [perm|]; split; [exact V2|exact Ho]|]. clear Ho. norm.
  eapply tr_bind; [apply (decrypt_materials_tr may spill up 1 m)|spc|]. intros o Ho. norm.
  destruct o as [o|]; [|apply tr_ret; [perm|]; split; [exact V2|exact Ho]]. norm.
  eapply tr_bind; [apply (put_dec_tr n v2 hs o dup V2 (proj2 (Ho _ eq_refl)))|spc|]. intros [v4 h] V4. norm. cbn [fst snd] in *.
  eapply tr_bind; [apply (after_put_tr n v4 hs h NL V4)|spc|]. intros v5 V5. norm. apply tr_ret; [perm|]. split; [exact V5|exact Ho].
Qed.
Lemma caching_drop_last_tr q v : cinv v [] -> tr (lfp 1 v [] ++ wqfp q) (caching_drop q v) (fun _ => []) (fun _ => True).
Proof.
  intro V. destruct q as [qb up qc qp]. unfold caching_drop. cbn [wqfp q_blk q_up q_part]. norm.
  eapply tr_bind; [apply unref_tr|spc|]. intros ? ->. norm. cbn [Nat.eqb].
  eapply tr_bind; [apply release_tr|spc|]. intros ? _. norm.
  eapply tr_bind; [apply (cache_release_last_tr v V)|spc|]. intros ? _. norm.
  eapply tr_bind; [apply cmm_release_tr|spc|]. intros ? _. norm. run.
Qed.
Lemma caching_drop_shared_tr q v hs : tr (lfp 2 v hs ++ wqfp q) (caching_drop q v) (fun _ => lfp 1 v hs) (fun _ => True).
Proof.
  destruct q as [qb up qc qp]. unfold caching_drop. cbn [wqfp q_blk q_up q_part]. norm.
  eapply tr_bind; [apply unref_tr|spc|]. intros ? ->. norm. cbn [Nat.eqb].
  eapply tr_bind; [apply release_tr|spc|]. intros ? _. norm.
  eapply tr_bind; [apply (cache_release_shared_tr v hs)|spc|]. intros ? _. norm.
  eapply tr_bind; [apply cmm_release_tr|spc|]. intros ? _. norm. run.
Qed.

(** *** The client *)

Lemma add_elems_tr n : forall x, tr (xfp x) (add_elems x n) (fun x' => xfp x') (fun _ => True).
Proof.
  induction n as [|n IH]; intro x; cbn [add_elems]; [run|]. stp spec. destruct a as [k|]; norm; [|run].
  eapply tr_bind; [apply (ctx_put_tr may spill x k None)|spc|]. intros [x'|] _; norm; [apply IH|run].
Qed.
Lemma with_ctx_tr {A} n (none : A) f P Q (G : A -> Prop) : Permutation P (Q none) -> G none ->
  (forall x, tr (P ++ xfp x) (f x) (fun r => Q (snd r) ++ xfp (fst r)) (fun r => G (snd r))) ->
  tr P (with_ctx n none f) Q G.
Proof.
  intros HP HG HF. unfold with_ctx. eapply tr_bind; [apply ctx_init_tr|apply sp_nil|]. intros [x|] _; [|apply tr_ret; [exact HP|exact HG]].
  eapply tr_bind; [apply add_elems_tr|apply sp_atom, tk_app|]. intros x1 _.
  eapply tr_pre; [apply Permutation_app_comm|]. eapply tr_seq; [apply HF|]. intros [x2 a] Ha. cbn [fst snd] in *.
  eapply tr_bind; [apply ctx_clean_up_tr|apply sp_atom, tk_skip_app, tk_all|]. intros ? _. cbn [app]. rewrite app_nil_r.
  apply tr_ret; [reflexivity|exact Ha].
Qed.

Definition zfp (c : mclient) : list cell :=
  match c with mk_mclient v q hs es ds => lfp 2 v hs ++ wqfp q ++ flat_map mfp es ++ flat_map mfp ds end.
Definition client_ok (c : mclient) : Prop :=
  match c with mk_mclient v q hs es ds => cinv v hs /\ Forall sig_ok es /\ Forall dec_ok ds end.

Lemma drop_nth_split {A} i : forall (l : list A) a, nth_error l i = Some a ->
  exists l1 l2, l = l1 ++ a :: l2 /\ drop_nth i l = l1 ++ l2.
Proof.
  induction i as [|i IH]; intros [|x l] a; cbn; try discriminate.
  - intros [= <-]. exists [], l. auto.
  - intro E. destruct (IH l a E) as (l1 & l2 & -> & E2). exists (x :: l1), l2. cbn. rewrite E2. auto.
Qed.
Lemma opt_forall {A} (P : A -> Prop) o l : (forall a, o = Some a -> P a) -> Forall P l -> Forall P (opt_cons o l).
Proof. intros H F. destruct o; cbn; [constructor; auto|exact F]. Qed.
Lemma opt_flat o l : flat_map mfp (opt_cons o l) = omfp o ++ flat_map mfp l.
Proof. destruct o; reflexivity. Qed.

Section Steps.
Hypothesis NS : may SSecondMd = false.
Hypothesis NE : may SEdkHash = false.
Hypothesis NL : may SLock = false.
Hypothesis NR : may SRaii = false.
Hypothesis NT : may STransfer = false.

(** What an operation may give back unerased. *)
Definition op_spills (o : lop) : Prop := match o with LGenerate _ _ _ => spill PAesKey = true /\ spill PRsaKey = true /\ spill PKmsKey = true | _ => True end.

Lemma do_lop_tr c o : client_ok c -> op_spills o ->
  tr (zfp c) (do_lop c o) zfp (fun c' => client_ok c' /\ z_cmm c' = z_cmm c).
Proof.
  destruct c as [v q hs es ds]. intros (V & FE & FD) SP. unfold do_lop. cbn [zfp].
  assert (SKIP : tr (lfp 2 v hs ++ wqfp q ++ flat_map mfp es ++ flat_map mfp ds) (ret (mk_mclient v q hs es ds)) zfp
                    (fun c' => client_ok c' /\ z_cmm c' = z_cmm (mk_mclient v q hs es ds))).
  { apply tr_ret; [reflexivity|]. split; [repeat split; auto; apply V|reflexivity]. }
  destruct o as [n hit dup|n edks hit dup|i|i|i n dup|i dup|hit|j n|j|j|j|j inval| |].
  - destruct SP as (SA & SR & SK).
    eapply tr_bind with (P0 := lfp 2 v hs ++ wqfp q) (Q0 := fun r => (lfp 2 (fst r) hs ++ wqfp q) ++ omfp (snd r))
      (G0 := fun r => cinv (fst r) hs /\ forall m, snd r = Some m -> sig_ok m); [|spc|].
    { apply with_ctx_tr; [perm|split; [exact V|intros; discriminate]|]. intro x. norm.
      eapply tr_bind; [apply (caching_generate_tr q 2 v hs x hit dup NT NS NL NR SA SR SK V)|spc|]. intros [[v1 x1] e] [V1 H1]. norm. cbn [fst snd] in *.
      apply tr_ret; [perm|]. split; [exact V1|exact H1]. }
    intros [v1 e] [V1 H1]. cbn [fst snd] in *. apply tr_ret; [cbn [zfp]; rewrite opt_flat; perm|].
    split; [|reflexivity]. split; [exact V1|]. split; [apply opt_forall; assumption|exact FD].
  - eapply tr_bind with (P0 := lfp 2 v hs ++ wqfp q) (Q0 := fun r => (lfp 2 (fst r) hs ++ wqfp q) ++ omfp (snd r))
      (G0 := fun r => cinv (fst r) hs /\ forall m, snd r = Some m -> dec_ok m); [|spc|].
    { apply with_ctx_tr; [perm|split; [exact V|intros; discriminate]|]. intro x. norm.
      eapply tr_bind; [apply (caching_decrypt_tr q 2 v hs x edks hit dup NE NL V)|spc|]. intros [v1 e] [V1 H1]. norm. cbn [fst snd] in *.
      apply tr_ret; [perm|]. split; [exact V1|exact H1]. }
    intros [v1 e] [V1 H1]. cbn [fst snd] in *. apply tr_ret; [cbn [zfp]; rewrite opt_flat; perm|].
    split; [|reflexivity]. split; [exact V1|]. split; [exact FE|apply opt_forall; assumption].
  - destruct (nth_error es i) as [e|] eqn:E; [|exact SKIP]. destruct (drop_nth_split _ _ _ E) as (l1 & l2 & -> & ->). norm.
    eapply tr_bind; [apply (enc_materials_destroy_tr may spill (Some e))|spc|]. intros ? _. norm. apply tr_ret; [perm|].
    split; [|reflexivity]. split; [exact V|]. split; [|exact FD]. apply Forall_app in FE. destruct FE as [F1 F2]. inversion F2. apply Forall_app. auto.
  - destruct (nth_error ds i) as [e|] eqn:E; [|exact SKIP]. destruct (drop_nth_split _ _ _ E) as (l1 & l2 & -> & ->). norm.
    apply Forall_app in FD. destruct FD as [F1 F2]. inversion F2 as [|? ? F3 F4]; subst.
    eapply tr_bind; [apply (dec_destroy_tr (Some e)); intros d [= <-]; exact (proj1 F3)|spc|]. intros ? _. norm. apply tr_ret; [perm|].
    split; [|reflexivity]. split; [exact V|]. split; [exact FE|]. apply Forall_app. auto.
  - destruct (nth_error es i) as [e|] eqn:E; [|exact SKIP]. destruct (drop_nth_split _ _ _ E) as (l1 & l2 & EE & _).
    assert (SO : sig_ok e) by (apply (proj1 (Forall_forall _ _) FE), (nth_error_In _ _ E)).
    eapply tr_pre with (P' := lfp 2 v hs ++ mfp e ++ wqfp q ++ (flat_map mfp l1 ++ flat_map mfp l2) ++ flat_map mfp ds); [rewrite EE; perm|].
    eapply tr_bind with (P0 := lfp 2 v hs ++ mfp e) (Q0 := fun r => lfp 2 (fst r) (opt_cons (snd r) hs) ++ mfp e)
      (G0 := fun r => cinv (fst r) (opt_cons (snd r) hs)); [|spc|].
    { apply with_ctx_tr; [reflexivity|exact V|]. intro x. norm.
      eapply tr_bind; [apply (put_enc_tr 2 v hs e x dup V SO)|spc|]. intros [v1 h] V1. norm. cbn [fst snd] in *.
      apply tr_ret; [perm|exact V1]. }
    intros [v1 h] V1. cbn [fst snd] in *. apply tr_ret; [cbn [zfp]; rewrite EE; perm|]. split; [|reflexivity]. repeat split; auto; apply V1.
  - destruct (nth_error ds i) as [e|] eqn:E; [|exact SKIP]. destruct (drop_nth_split _ _ _ E) as (l1 & l2 & EE & _).
    assert (SO : dec_ok e) by (apply (proj1 (Forall_forall _ _) FD), (nth_error_In _ _ E)).
    eapply tr_pre with (P' := lfp 2 v hs ++ mfp e ++ wqfp q ++ flat_map mfp es ++ (flat_map mfp l1 ++ flat_map mfp l2)); [rewrite EE; perm|].
    eapply tr_bind; [apply (put_dec_tr 2 v hs e dup V (proj2 SO))|spc|].
    intros [v1 h] V1. cbn [fst snd] in *. apply tr_ret; [cbn [zfp]; rewrite EE; perm|]. split; [|reflexivity]. repeat split; auto; apply V1.
  - eapply tr_bind; [apply (find_entry_tr 2 v hs hit V)|spc|]. intros [v1 f] V1. cbn [fst snd] in *. apply tr_ret; [reflexivity|].
    split; [|reflexivity]. repeat split; auto; apply V1.
  - destruct (nth_error hs j) as [b|] eqn:E; [|exact SKIP]. pose proof (nth_error_In _ _ E) as I.
    eapply tr_bind with (P0 := lfp 2 v hs) (Q0 := fun r => lfp 2 v hs ++ omfp r) (G0 := fun r => forall m, r = Some m -> sig_ok m); [|spc|].
    { apply with_ctx_tr; [perm|intros; discriminate|]. intro x. eapply tr_post; [apply (get_enc_tr 2 v hs b x V I)|].
      intros [x1 e] H1. cbn [fst snd] in *. split; [perm|exact H1]. }
    intros e H1. apply tr_ret; [cbn [zfp]; rewrite opt_flat; perm|]. split; [|reflexivity].
    split; [exact V|]. split; [apply opt_forall; assumption|exact FD].
  - destruct (nth_error hs j) as [b|] eqn:E; [|exact SKIP]. pose proof (nth_error_In _ _ E) as I.
    eapply tr_bind; [apply (get_dec_tr 2 v hs b V I)|spc|].
    intros e H1. apply tr_ret; [cbn [zfp]; rewrite opt_flat; perm|]. split; [|reflexivity].
    split; [exact V|]. split; [exact FE|apply opt_forall; assumption].
  - destruct (nth_error hs j) as [b|] eqn:E; [|exact SKIP]. pose proof (nth_error_In _ _ E) as I.
    eapply tr_bind; [apply (update_usage_tr 2 v hs b V I)|spc|]. intros ? _. exact SKIP.
  - destruct (nth_error hs j) as [b|] eqn:E; [|exact SKIP]. pose proof (nth_error_In _ _ E) as I.
    eapply tr_bind; [apply (creation_time_tr 2 v hs b V I)|spc|]. intros ? _.
    eapply tr_bind; [apply (set_hint_tr 2 v hs b V I)|apply sp_atom, tk_app|]. intros v1 V1. apply tr_ret; [reflexivity|]. split; [|reflexivity].
    repeat split; auto; apply V1.
  - destruct (nth_error hs j) as [b|] eqn:E; [|exact SKIP]. destruct (drop_nth_split _ _ _ E) as (l1 & l2 & -> & ->).
    assert (PH : Permutation (l1 ++ b :: l2) (b :: l1 ++ l2)) by (symmetry; apply Permutation_middle).
    rewrite (lfp_perm 2 v _ _ PH). apply (cinv_perm v _ _ PH) in V.
    eapply tr_bind; [apply (release_entry_tr 2 v (l1 ++ l2) b inval NL V)|apply sp_atom, tk_app|]. intros v1 V1.
    apply tr_ret; [reflexivity|]. split; [|reflexivity]. repeat split; auto; apply V1.
  - eapply tr_bind; [apply (entry_count_tr 2 v hs V)|apply sp_atom, tk_app|]. intros v1 V1. apply tr_ret; [reflexivity|]. split; [|reflexivity].
    repeat split; auto; apply V1.
  - eapply tr_bind; [apply (clear_cache_tr 2 v hs NL V)|apply sp_atom, tk_app|]. intros v1 [V1 _]. apply tr_ret; [reflexivity|]. split; [|reflexivity].
    repeat split; auto; apply V1.
Qed.
Lemma do_lops_tr l : forall c, client_ok c -> Forall op_spills l ->
  tr (zfp c) (do_lops c l) zfp (fun c' => client_ok c' /\ z_cmm c' = z_cmm c).
Proof.
  induction l as [|o l IH]; intros c K SP; cbn [do_lops].
  - apply tr_ret; auto.
  - inversion SP; subst. eapply tr_seq; [apply do_lop_tr; assumption|]. intros c1 [K1 E1].
    eapply tr_post; [apply IH; assumption|]. intros c2 [K2 E2]. split; [reflexivity|]. split; [exact K2|congruence].
Qed.

Lemma do_clear_tr l : forall c, client_ok c -> Forall op_spills l ->
  tr (zfp c) (do_lops c (l ++ [LClear])) zfp
     (fun c' => (client_ok c' /\ z_cmm c' = z_cmm c) /\ home (v_all (z_cache c')) = []).
Proof.
  induction l as [|o l IH]; intros c K SP; cbn [do_lops app].
  - destruct c as [v q hs es ds]. destruct K as (V & FE & FD). cbn [do_lop zfp]. apply tr_assoc.
    eapply tr_bind; [apply (clear_cache_tr 2 v hs NL V)|apply sp_atom, tk_app|]. intros v1 [V1 H1]. apply tr_ret_bind, tr_ret; [reflexivity|].
    split; [|exact H1]. split; [|reflexivity]. repeat split; auto; apply V1.
  - inversion SP; subst. eapply tr_seq; [apply do_lop_tr; assumption|]. intros c1 [K1 E1].
    eapply tr_post; [apply IH; assumption|]. intros c2 [[K2 E2] HH]. split; [reflexivity|]. split; [|exact HH]. split; [exact K2|congruence].
Qed.

Lemma release_all_tr hs : forall v, cinv v hs -> tr (lfp 2 v hs) (release_all v hs) (fun v' => lfp 2 v' []) (fun v' => cinv v' []).
Proof.
  induction hs as [|b hs IH]; intros v V; cbn [release_all]; [apply tr_ret; auto|].
  eapply tr_seq; [apply (release_entry_tr 2 v hs b false NL V)|]. exact IH.
Qed.
Lemma local_end_tr cmm_first c : client_ok c -> tr (zfp c) (local_end cmm_first c) (fun _ => []) (fun _ => True).
Proof.
  destruct c as [v q hs es ds]. intros (V & FE & FD). unfold local_end. cbn [zfp].
  eapply tr_bind; [apply (release_all_tr hs v V)|apply sp_atom, tk_app|]. intros v1 V1.
  eapply tr_bind with (P0 := lfp 2 v1 [] ++ wqfp q) (Q0 := fun _ => []) (G0 := fun _ => True); [|spc|].
  { destruct cmm_first.
    - eapply tr_seq; [apply (caching_drop_shared_tr q v1 [])|]. intros ? _. apply cache_release_last_tr, V1.
    - eapply tr_bind; [apply (cache_release_shared_tr v1 [])|apply sp_atom, tk_app|]. intros ? _. apply caching_drop_last_tr, V1. }
  intros ? _. norm.
  eapply tr_bind; [apply (each_tr may spill (fun e => enc_materials_destroy (Some e)) mfp); intro e; apply (enc_materials_destroy_tr may spill (Some e))|spc|].
  intros ? _. norm. clear - FD. induction FD as [|e l He _ IH]; cbn [each flat_map]; [apply tr_ret; auto|].
  eapply tr_bind; [apply (dec_destroy_tr (Some e)); intros d [= <-]; exact (proj1 He)|apply sp_atom, tk_app|]. intros ? _. exact IH.
Qed.

End Steps.

Lemma local_start_tr r capacity named : may SPem = false -> may SChild = false -> may SPart = false ->
  tr [] (local_start r capacity named) (fun o => match o with Some c => zfp c | None => [] end)
     (fun o => forall c, o = Some c -> client_ok c /\ secrets (wqfp (z_cmm c)) = keys r).
Proof.
  intros NP NC NS. unfold local_start.
  eapply tr_bind; [apply (build_tr may spill r NP NC)|apply sp_nil|]. intros [k|] Hk; cbn [okfp]; rewrite app_nil_r;
    [|apply tr_ret; [reflexivity|]; intros; discriminate].
  eapply tr_bind; [apply local_new_tr|apply sp_nil|]. intros [v|] Hv.
  2: { cbn [app]. eapply tr_bind; [apply kr_release_last_tr|spc|]. intros ? _. apply tr_ret; [reflexivity|]. intros; discriminate. }
  specialize (Hv _ eq_refl). destruct v as [b1 t1 h1 k1 c1 o1 els1 lru1 ttl1 all1]. cbn [v_blk]. norm.
  eapply tr_bind; [apply (caching_cmm_new_from_keyring_tr may spill b1 k named 0 0 NS)|spc|]. intros [q|] Hq; norm.
  - destruct (Hq _ eq_refl) as [E1 _]. destruct q as [qb [ub uk] qc qp]. cbn in E1. subst uk. norm. proj.
    eapply tr_bind; [apply (kr_release_more_tr may spill k 0)|spc|]. intros ? _. norm.
    apply tr_ret; [cbn [zfp lfp wqfp cfp]; perm|]. intros c [= <-]. split; [repeat split; auto; apply Hv|].
    cbn [z_cmm]. change (secrets (kfp 1 k) = keys r). exact (Hk _ eq_refl).
  - eapply tr_bind; [apply kr_release_last_tr|spc|]. intros ? _. norm.
    eapply tr_bind; [apply (cache_release_last_tr (mk_mloc b1 t1 h1 k1 c1 o1 els1 lru1 ttl1 all1) Hv)|spc|]. intros ? _.
    apply tr_ret; [perm|]. intros; discriminate.
Qed.
Lemma local_use_tr r capacity named ops :
  may SPem = false -> may SChild = false -> may SPart = false ->
  may SSecondMd = false -> may SEdkHash = false -> may SLock = false -> may STransfer = false -> may SRaii = false -> Forall op_spills ops ->
  tr [] (local_use r capacity named ops) (fun o => match o with Some c => zfp c | None => [] end)
     (fun o => forall c, o = Some c -> client_ok c /\ secrets (wqfp (z_cmm c)) = keys r).
Proof.
  intros. unfold local_use. eapply tr_seq; [apply local_start_tr; assumption|]. intros [c|] Hc; [|apply tr_ret; [reflexivity|]; intros; discriminate].
  destruct (Hc _ eq_refl) as [K E]. eapply tr_seq; [apply do_lops_tr; assumption|]. intros c' [K' E'].
  apply tr_ret; [reflexivity|]. intros c2 [= <-]. split; [exact K'|]. rewrite E'. exact E.
Qed.
Lemma local_clear_tr r capacity named ops :
  may SPem = false -> may SChild = false -> may SPart = false ->
  may SSecondMd = false -> may SEdkHash = false -> may SLock = false -> may STransfer = false -> may SRaii = false -> Forall op_spills ops ->
  tr [] (local_use r capacity named (ops ++ [LClear])) (fun o => match o with Some c => zfp c | None => [] end)
     (fun o => forall c, o = Some c -> (client_ok c /\ secrets (wqfp (z_cmm c)) = keys r) /\ home (v_all (z_cache c)) = []).
Proof.
  intros. unfold local_use. eapply tr_seq; [apply local_start_tr; assumption|]. intros [c|] Hc; [|apply tr_ret; [reflexivity|]; intros; discriminate].
  destruct (Hc _ eq_refl) as [K E]. eapply tr_seq; [apply do_clear_tr; assumption|]. intros c' [[K' E'] H'].
  apply tr_ret; [reflexivity|]. intros c2 [= <-]. split; [|exact H']. split; [exact K'|]. rewrite E'. exact E.
Qed.
Lemma local_life_tr r capacity named cmm_first ops :
  may SPem = false -> may SChild = false -> may SPart = false ->
  may SSecondMd = false -> may SEdkHash = false -> may SLock = false -> may STransfer = false -> may SRaii = false -> Forall op_spills ops ->
  tr [] (local_life r capacity named cmm_first ops) (fun _ => []) (fun _ => True).
Proof.
  intros. unfold local_life. eapply tr_seq; [apply local_use_tr; assumption|]. intros [c|] Hc; [|apply tr_ret; [reflexivity|exact I]].
  destruct (Hc _ eq_refl) as [K _]. apply local_end_tr; assumption.
Qed.

End Specs.

(** *** Key material *)

Lemma secrets_sfp b : secrets (sfp b) <= 1.
Proof. destruct b; cbn; lia. Qed.
Lemma secrets_mfp e : secrets (mfp e) <= 1.
Proof.
  destruct e as [b g k ek t]. cbn [mfp]. rewrite secrets_cons, !secrets_app, secrets_gfp, !secrets_afp by (auto using secrets_efp, secrets_rfp).
  pose proof (secrets_sfp k). cbn [c_secret]. lia.
Qed.
Lemma secrets_mfps l : secrets (flat_map mfp l) <= length l.
Proof. induction l as [|e l IH]; cbn [flat_map length]; [cbn; lia|]. rewrite secrets_app. pose proof (secrets_mfp e). lia. Qed.
Lemma secrets_xfp x : secrets (xfp x) = 0.
Proof. destruct x as [t l]. cbn [xfp]. rewrite secrets_cons, secrets_flat by apply secrets_elfp. reflexivity. Qed.
Lemma secrets_nfp n e : entry_ok e -> secrets (nfp n e) <= 2.
Proof.
  destruct e as [b i en de k x h z]. intros (_ & _ & D). cbn [n_enc n_dec] in D. cbn [nfp].
  rewrite secrets_cons, !secrets_app, secrets_bfp. cbn [c_secret].
  assert (X : secrets (oxfp x) = 0) by (destruct x; cbn [oxfp]; [apply secrets_xfp|reflexivity]). rewrite X.
  destruct D as [-> | ->]; cbn [omfp]; change (secrets []) with 0.
  - rewrite secrets_bfp. destruct de as [m|]; [pose proof (secrets_mfp m)|change (secrets (omfp None)) with 0]; cbn [omfp]; lia.
  - destruct en as [m|]; [pose proof (secrets_mfp m); pose proof (secrets_sfp k)|change (secrets (omfp None)) with 0; rewrite secrets_bfp]; cbn [omfp]; lia.
Qed.
Lemma secrets_fps hs l : Forall entry_ok l -> secrets (fps hs l) <= 2 * length l.
Proof.
  induction 1 as [|e l K _ IH]; [cbn; lia|]. change (fps hs (e :: l)) with (nfp (nrefs hs e) e ++ fps hs l). rewrite secrets_app.
  pose proof (secrets_nfp (nrefs hs e) e K). cbn [length]. lia.
Qed.
Lemma secrets_lfp n v hs : Forall entry_ok (v_all v) -> secrets (lfp n v hs) <= 2 * length (v_all v).
Proof.
  destruct v as [b t h k c o els lru ttl all]. cbn [lfp v_all]. intro K. rewrite !secrets_cons, secrets_app, secrets_bfp. cbn [c_secret].
  pose proof (secrets_fps hs all K). lia.
Qed.
Lemma secrets_zfp c : client_ok c ->
  secrets (wqfp (z_cmm c)) <= secrets (zfp c) <=
  secrets (wqfp (z_cmm c)) + length (z_encs c) + length (z_decs c) + 2 * length (v_all (z_cache c)).
Proof.
  destruct c as [v q hs es ds]. intros (V & _ & _). cbn [zfp z_cmm z_encs z_decs z_cache]. rewrite !secrets_app.
  pose proof (secrets_lfp 2 v hs (i_ok _ _ (proj1 (proj1 V)))). pose proof (secrets_mfps es). pose proof (secrets_mfps ds). lia.
Qed.
(** The entries that are not in the cache are held by somebody. *)
Lemma entries_held c : client_ok c -> home (v_all (z_cache c)) = [] -> length (v_all (z_cache c)) <= length (z_hands c).
Proof.
  destruct c as [v q hs es ds]. intros ([[V _] _] & _ & _) H. cbn [z_cache z_hands] in *. rewrite <- (map_length n_blk (v_all v)).
  apply NoDup_incl_length; [exact (i_nd _ _ V)|]. intros b I. apply in_map_iff in I. destruct I as (e & <- & I).
  apply (i_zo _ _ V e I). destruct (n_zombie e) eqn:Z; [reflexivity|]. exfalso. pose proof (in_home _ _ I Z) as J. rewrite H in J. exact J.
Qed.
