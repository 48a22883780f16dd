(** What every modelled function owns before and after: the specifications of the functions of [MemModel] in the logic of
    [MemLogic]. *)
From Coq Require Import List Bool PeanoNat Lia Permutation.
Import ListNotations.
From Verif Require Import MemModel MemLogic MemSpec.

(** *** Footprints: the blocks that a value owns *)

Definition bfp (b : buf) : list cell := match b with None => [] | Some n => [mkc n false 0] end.
(** A buffer with key material. *)
Definition sfp (b : buf) : list cell := match b with None => [] | Some n => [mkc n true 0] end.
Definition afp {A} (f : A -> list cell) (l : alist A) : list cell :=
  match l with mkl items _ blk => flat_map f items ++ bfp blk end.
Definition efp (e : medk) : list cell := match e with mk_medk a b c => bfp a ++ bfp b ++ bfp c end.
Definition rfp (r : mrec) : list cell := match r with mk_mrec a b => bfp a ++ bfp b end.
Definition elfp (e : buf * buf) : list cell := match e with (a, b) => bfp a ++ bfp b end.
Definition xfp (x : mctx) : list cell := match x with mk_mctx t l => mkc t false 0 :: flat_map elfp l end.
(** A signature context, when [n] references on its EC_KEY are held elsewhere. *)
Definition key_refs (n : nat) (p : buf) (set : bool) : nat :=
  match p, set with Some _, true => S (S n) | _, _ => S n end.
Definition gfp (n : nat) (g : msig) : list cell :=
  match g with
  | mk_msig c md p set k =>
      mkc c false 0 :: bfp md ++ bfp p ++ match k with None => [] | Some k => [mkc k false (key_refs n p set)] end
  end.
Definition ogfp (g : option msig) : list cell := match g with None => [] | Some g => gfp 0 g end.
(** An EC_KEY on which [n] references are held. *)
Definition ecfp (k : buf) (n : nat) : list cell :=
  match k, n with Some k, S _ => [mkc k false n] | _, _ => [] end.
Definition mfp (e : mmat) : list cell :=
  match e with mk_mmat b g dk edks t => mkc b false 0 :: ogfp g ++ sfp dk ++ afp efp edks ++ afp rfp t end.
Definition omfp (e : option mmat) : list cell := match e with None => [] | Some e => mfp e end.
(** A keyring on which [n] references are held. *)
Fixpoint kfp (n : nat) (k : mkr) {struct k} : list cell :=
  match k with
  | MAes b name ns key => mkc b false n :: bfp name ++ bfp ns ++ sfp key
  | MRsa b name ns priv pub => mkc b false n :: bfp name ++ bfp ns ++ sfp priv ++ bfp pub
  | MKms b _ _ => [mkc b false n]
  | MMulti b gen kids cap lb =>
      mkc b false n ::
      (fix go (l : list mkr) : list cell := match l with [] => [] | x :: r => kfp 1 x ++ go r end) kids ++
      match gen with None => [] | Some g => kfp 1 g end ++ bfp lb
  end.
Fixpoint kfps (l : list mkr) : list cell := match l with [] => [] | x :: r => kfp 1 x ++ kfps r end.
Definition ogkfp (g : option mkr) : list cell := match g with None => [] | Some g => kfp 1 g end.
Definition okfp (n : nat) (k : option mkr) : list cell := match k with None => [] | Some k => kfp n k end.
(** What is left of it once one of [S n] references is given up. *)
Definition krest (n : nat) (k : mkr) : list cell := match n with 0 => [] | S _ => kfp n k end.
Definition cfp (n : nat) (c : mcmm) : list cell := match c with mk_mcmm b k => mkc b false n :: kfp 1 k end.
Definition ocfp (c : option mcmm) : list cell := match c with None => [] | Some c => cfp 1 c end.
Definition hfp (h : mhdr) : list cell :=
  match h with mk_mhdr iv tag mid suite e x => bfp iv ++ bfp tag ++ bfp mid ++ bfp suite ++ afp efp e ++ xfp x end.
Definition wfp (s : msess) : list cell :=
  match s with
  | mk_msess b c h t g copy _ _ keyed => mkc b keyed 0 :: ocfp c ++ hfp h ++ afp rfp t ++ ogfp g ++ bfp copy
  end.

Lemma kfp_multi n b gen kids cap lb :
  kfp n (MMulti b gen kids cap lb) = mkc b false n :: kfps kids ++ ogkfp gen ++ bfp lb.
Proof.
  cbn [kfp]. f_equal. 
Qed.

(** *** Tactics *)

Lemma splits_all P Q : splits Q P [] -> Permutation P Q.
Proof. intro H. rewrite (splits_perm _ _ _ H), app_nil_r. reflexivity. Qed.

Lemma tr_eq may spill {A} P P' (c : M A) Q G : P = P' -> triple may spill P' c Q G -> triple may spill P c Q G.
Proof. intros ->. exact (fun H => H). Qed.

Ltac tk :=
  match goal with
  | |- take _ (_ :: _) _ => first [ simple apply tk_cons; reflexivity | simple apply tk_skip_cons; tk ]
  | |- take _ (_ ++ _) _ => first [ simple apply tk_app | simple apply tk_skip_app; tk ]
  | |- take _ _ _ => simple apply tk_all
  end.
Ltac sp :=
  match goal with
  | |- splits [] _ _ => simple apply sp_nil
  | |- splits (_ ++ _) _ _ => simple eapply sp_app; [sp|sp]
  | |- splits (_ :: _) _ _ => simple eapply sp_cons; [tk|sp]
  | |- splits _ _ _ => simple apply sp_atom; tk
  end.
Ltac spc := match goal with |- splits ?A ?P ?F => let A' := eval cbn in A in change (splits A' P F); sp end.
Ltac fpnorm := cbn; rewrite ?flat_map_app; cbn; rewrite <- ?app_assoc; rewrite ?app_nil_r; cbn [app].
Ltac perm := fpnorm; simple apply splits_all; spc.
Ltac norm := eapply tr_eq; [fpnorm; reflexivity|].
Ltac hyps :=
  repeat match goal with
         | H : ?x = ?x -> _ |- _ => specialize (H eq_refl)
         | H : Some _ = None -> _ |- _ => clear H
         | H : false = true -> _ |- _ => clear H
         | H : True |- _ => clear H
         | H : ?a = true, N : ?a = false |- _ => rewrite H in N; discriminate N
         | H : true = ?b |- _ => subst b
         | H : false = ?b |- _ => subst b
         | H : _ /\ _ |- _ => destruct H
         end.
Ltac proj :=
  cbn beta iota zeta delta
    [k_id k_info k_ct r_ns r_name l_items l_cap l_blk x_tab x_elems g_blk g_md g_pkey g_set g_key e_blk e_sig e_dk e_edks e_trace
     kr_blk d_blk d_kr h_iv h_tag h_mid h_suite h_edks h_ctx s_blk s_cmm s_hdr s_trace s_sig s_copy s_stage s_enc s_keyed
     set_stage set_cmm list_reset fst snd negb andb q_blk q_up q_cache q_part].
Ltac pure := hyps; first [exact I | assumption | congruence | solve [intros; discriminate] | solve [intuition (subst; try congruence; eauto)] |
                          solve [cbn; intuition (try discriminate; try congruence)]].

(** One step of the program. *)
Ltac stp tac :=
  match goal with
  | |- triple _ _ _ (bind (bind _ _) _) _ _ => apply tr_assoc
  | |- triple _ _ _ (bind (ret _) _) _ _ => apply tr_ret_bind
  | |- triple _ _ _ (bind (if ?x then _ else _) _) _ _ =>
      first [ is_var x; destruct x | destruct x eqn:? ]; hyps; try norm
  | |- triple _ _ _ (bind (match ?x with _ => _ end) _) _ _ =>
      first [ is_var x; destruct x | destruct x eqn:? ]; hyps; try norm
  | |- triple _ _ _ (match ?x with _ => _ end) _ _ =>
      first [ is_var x; destruct x | destruct x eqn:? ]; hyps; try norm
  | |- triple _ _ _ (ret _) _ _ => apply tr_ret; [perm | try pure]
  | |- triple _ _ _ (bind _ _) _ _ =>
      eapply tr_bind; [ tac | spc | let h := fresh "H" in intros ? h; cbn beta in h; hyps; try norm ]
  | |- triple _ _ _ _ _ _ =>
      eapply tr_call; [ tac | spc | let h := fresh "H" in intros ? h; cbn beta in h; hyps; split; [ try perm | try pure ] ]
  end; proj.

Create HintDb mem discriminated.
Ltac spec := typeclasses eauto with nocore mem.
Ltac run := repeat (stp ltac:(spec)).

Section Specs.
Variable may : site -> bool.
Variable spill : place -> bool.
Local Notation tr := (triple may spill).

#[local] Hint Resolve ask_tr must_acquire_tr acquire_at_tr touch_tr taint_tr scrub_tr init_ref_tr retain_tr unref_tr : mem.

Lemma acquire_tr :
  tr [] acquire (fun o => bfp o) (fun o => True).
Proof. unfold acquire. eapply tr_call; [apply acquire_at_tr|apply sp_nil|]. intros [b|] _; split; try exact I; perm. Qed.
Lemma release_tr b r : tr [mkc b false r] (release b) (fun _ => []) (fun _ => True).
Proof. apply release_at_tr. discriminate. Qed.
#[local] Hint Resolve acquire_tr release_tr : mem.

(** *** Buffers *)

Lemma buf_init_tr : tr [] buf_init (fun o => match o with Some b => bfp b | None => [] end) (fun _ => True).
Proof. unfold buf_init. run. Qed.
Lemma buf_clean_up_tr b : tr (bfp b) (buf_clean_up b) (fun _ => []) (fun _ => True).
Proof. unfold buf_clean_up. run. Qed.
Lemma buf_clean_up_secure_tr b : tr (sfp b) (buf_clean_up_secure b) (fun _ => []) (fun _ => True).
Proof. unfold buf_clean_up_secure. run. Qed.
Lemma buf_clean_up_secure_plain_tr b : tr (bfp b) (buf_clean_up_secure b) (fun _ => []) (fun _ => True).
Proof. unfold buf_clean_up_secure. run. Qed.
#[local] Hint Resolve buf_init_tr buf_clean_up_tr buf_clean_up_secure_tr buf_clean_up_secure_plain_tr : mem.

(** *** Lists *)

Lemma list_init_tr {A} (f : A -> list cell) cap :
  tr [] (list_init cap) (fun o => match o with Some l => afp f l | None => [] end)
     (fun o => forall l, o = Some l -> l_items l = [] /\ l_cap l = cap).
Proof.
  unfold list_init. run.
  all: intros l [= <-]; cbn; split; [reflexivity|].
  all: try reflexivity.
  symmetry. apply Nat.eqb_eq. assumption.
Qed.

Lemma list_push_tr {A} (f : A -> list cell) s l x :
  tr (afp f l ++ f x) (list_push s l x) (fun o => match o with Some l' => afp f l' | None => afp f l ++ f x end)
     (fun o => (o = None -> may s = true) /\ forall l', o = Some l' -> l_items l' = l_items l ++ [x]).
Proof.
  destruct l as [items cap blk]. unfold list_push. norm. run.
  all: try (split; [intros; try discriminate; auto|intros l' E; inversion E; reflexivity]).
Qed.

Lemma list_free_tr {A} (f : A -> list cell) l : l_items l = [] -> tr (afp f l) (list_free l) (fun _ => []) (fun _ => True).
Proof. destruct l as [items cap blk]. cbn. intros ->. unfold list_free. run. Qed.

Lemma each_tr {A} (f : A -> M unit) (g : A -> list cell) l :
  (forall x, tr (g x) (f x) (fun _ => []) (fun _ => True)) -> tr (flat_map g l) (each f l) (fun _ => []) (fun _ => True).
Proof.
  intro H. induction l as [|x l IH]; cbn [each flat_map].
  - run.
  - eapply tr_bind; [apply H|sp|]. intros ? _. norm. exact IH.
Qed.

(** *** EDKs and traces *)

Lemma edk_clean_up_tr e : tr (efp e) (edk_clean_up e) (fun _ => []) (fun _ => True).
Proof. destruct e. unfold edk_clean_up. norm. proj. run. Qed.
Lemma record_clean_up_tr r : tr (rfp r) (record_clean_up r) (fun _ => []) (fun _ => True).
Proof. destruct r. unfold record_clean_up. norm. proj. run. Qed.
Lemma elem_destroy_tr e : tr (elfp e) (elem_destroy e) (fun _ => []) (fun _ => True).
Proof. destruct e. unfold elem_destroy. norm. proj. run. Qed.
#[local] Hint Resolve edk_clean_up_tr record_clean_up_tr elem_destroy_tr : mem.

Lemma edk_list_init_tr :
  tr [] edk_list_init (fun o => match o with Some l => afp efp l | None => [] end)
     (fun o => forall l, o = Some l -> l_items l = [] /\ l_cap l = 4).
Proof. apply list_init_tr. Qed.
Lemma trace_init_tr :
  tr [] trace_init (fun o => match o with Some l => afp rfp l | None => [] end)
     (fun o => forall l, o = Some l -> l_items l = [] /\ l_cap l = 10).
Proof. apply list_init_tr. Qed.
Lemma edk_list_clear_tr l : tr (afp efp l) (edk_list_clear l) (fun l' => afp efp l') (fun l' => l_items l' = []).
Proof.
  destruct l as [items cap blk]. unfold edk_list_clear. norm. proj.
  eapply tr_bind; [apply each_tr; apply edk_clean_up_tr|sp|]. intros ? _. norm. run.
Qed.
Lemma trace_clear_tr l : tr (afp rfp l) (trace_clear l) (fun l' => afp rfp l') (fun l' => l_items l' = []).
Proof.
  destruct l as [items cap blk]. unfold trace_clear. norm. proj.
  eapply tr_bind; [apply each_tr; apply record_clean_up_tr|sp|]. intros ? _. norm. run.
Qed.
Lemma edk_list_clean_up_tr l : tr (afp efp l) (edk_list_clean_up l) (fun _ => []) (fun _ => True).
Proof.
  unfold edk_list_clean_up. eapply tr_bind; [apply edk_list_clear_tr|sp|]. intros l' H. norm. apply list_free_tr, H.
Qed.
Lemma trace_clean_up_tr l : tr (afp rfp l) (trace_clean_up l) (fun _ => []) (fun _ => True).
Proof.
  unfold trace_clean_up. eapply tr_bind; [apply trace_clear_tr|sp|]. intros l' H. norm. apply list_free_tr, H.
Qed.
#[local] Hint Resolve edk_list_init_tr trace_init_tr edk_list_clear_tr trace_clear_tr edk_list_clean_up_tr trace_clean_up_tr : mem.

Lemma edk_init_clone_tr e :
  tr [] (edk_init_clone e) (fun o => match o with Some e => efp e | None => [] end) (fun _ => True).
Proof. unfold edk_init_clone. run.
Qed.
Lemma record_init_tr : tr [] record_init (fun o => match o with Some e => rfp e | None => [] end) (fun _ => True).
Proof. unfold record_init. run. Qed.
#[local] Hint Resolve edk_init_clone_tr record_init_tr : mem.

Lemma trace_add_tr l : tr (afp rfp l) (trace_add l) (fun l' => afp rfp l') (fun _ => True).
Proof.
  unfold trace_add. stp spec. stp spec; [|run].
  eapply tr_bind; [apply list_push_tr with (f := rfp)|sp|]. intros o H. norm. run.
Qed.
#[local] Hint Resolve trace_add_tr : mem.

(** *** Transferring and copying *)

Lemma transfer_loop_tr {A} (f : A -> list cell) : may STransfer = false -> forall xs d,
  tr (afp f d ++ flat_map f xs) (transfer_loop d xs) (fun r => afp f (fst r)) (fun r => snd r = true).
Proof.
  intro N. induction xs as [|x xs IH]; intro d; cbn [transfer_loop flat_map].
  - norm. run.
  - norm. eapply tr_bind; [apply list_push_tr with (f := f)|spc|]. intros o H. norm. stp spec.
    apply IH.
Qed.
Lemma transfer_list_tr {A} (f : A -> list cell) d s : may STransfer = false ->
  tr (afp f d ++ afp f s) (transfer_list d s) (fun r => afp f (fst (fst r)) ++ afp f (snd (fst r)))
     (fun r => l_items (snd (fst r)) = [] /\ snd r = true).
Proof.
  intro N. destruct s as [items cap blk]. unfold transfer_list. norm. proj.
  eapply tr_bind; [apply (transfer_loop_tr f N items d)|spc|]. intros [d' ok] H. cbn in H. subst ok. norm. proj. run.
Qed.

Lemma copy_loop_tr {A} (f : A -> list cell) clone cleaner :
  (forall x, tr [] (clone x) (fun o => match o with Some e => f e | None => [] end) (fun _ => True)) ->
  (forall x, tr (f x) (cleaner x) (fun _ => []) (fun _ => True)) -> forall xs d,
  tr (afp f d) (copy_loop clone cleaner d xs) (fun r => afp f (fst r))
     (fun r => exists added, l_items (fst r) = l_items d ++ added).
Proof.
  intros HC HD. induction xs as [|x xs IH]; intro d; cbn [copy_loop].
  - run. exists []. cbn. rewrite app_nil_r. reflexivity.
  - eapply tr_bind; [apply HC|spc|]. intros [y|] _; norm.
    + eapply tr_bind; [apply list_push_tr with (f := f)|spc|]. intros [d'|] [_ H]; norm.
      * eapply tr_call; [apply IH|spc|]. intros [d2 ok] (added & E). split; [perm|].
        exists (y :: added). rewrite E, (H d' eq_refl), <- app_assoc. reflexivity.
      * eapply tr_bind; [apply HD|spc|]. intros ? _. norm. run. exists []. cbn. rewrite app_nil_r. reflexivity.
    + run. exists []. cbn. rewrite app_nil_r. reflexivity.
Qed.

Lemma list_copy_all_tr {A} (f : A -> list cell) clone cleaner d s :
  (forall x, tr [] (clone x) (fun o => match o with Some e => f e | None => [] end) (fun _ => True)) ->
  (forall x, tr (f x) (cleaner x) (fun _ => []) (fun _ => True)) ->
  tr (afp f d) (list_copy_all clone cleaner d s) (fun r => afp f (fst r))
     (fun r => snd r = false -> l_items (fst r) = l_items d).
Proof.
  intros HC HD. unfold list_copy_all. stp spec. stp spec; [|run].
  eapply tr_bind; [apply (copy_loop_tr f _ _ HC HD)|spc|]. intros [[items cap blk] ok] (added & E). cbn in E. subst items. norm. proj.
  stp spec. destruct ok; [run|].
  rewrite skipn_app, skipn_all, Nat.sub_diag, firstn_app, firstn_all, Nat.sub_diag. cbn [skipn firstn app]. rewrite app_nil_r.
  apply tr_pre with (flat_map f (rev added) ++ flat_map f (l_items d) ++ bfp blk).
  { rewrite <- (Permutation_flat_map f (Permutation_rev added)). perm. }
  eapply tr_bind; [apply each_tr, HD|spc|]. intros ? _. norm. run.
Qed.
Lemma edk_list_copy_all_tr d s :
  tr (afp efp d) (edk_list_copy_all d s) (fun r => afp efp (fst r)) (fun r => snd r = false -> l_items (fst r) = l_items d).
Proof. apply list_copy_all_tr; [apply edk_init_clone_tr|apply edk_clean_up_tr]. Qed.
Lemma trace_copy_all_tr d s :
  tr (afp rfp d) (trace_copy_all d s) (fun r => afp rfp (fst r)) (fun r => snd r = false -> l_items (fst r) = l_items d).
Proof. apply list_copy_all_tr; [intro; apply record_init_tr|apply record_clean_up_tr]. Qed.

(** *** Encryption contexts *)

Lemma ctx_init_tr : tr [] ctx_init (fun o => match o with Some x => xfp x | None => [] end) (fun _ => True).
Proof. unfold ctx_init. run. Qed.
Lemma ctx_clear_tr x : tr (xfp x) (ctx_clear x) (fun x' => xfp x') (fun _ => True).
Proof.
  destruct x as [t l]. unfold ctx_clear. norm. proj.
  eapply tr_bind; [apply each_tr, elem_destroy_tr|spc|]. intros ? _. norm. run.
Qed.
Lemma ctx_clean_up_tr x : tr (xfp x) (ctx_clean_up x) (fun _ => []) (fun _ => True).
Proof.
  destruct x as [t l]. unfold ctx_clean_up, ctx_clear. norm. proj. apply tr_assoc.
  eapply tr_bind; [apply each_tr, elem_destroy_tr|spc|]. intros ? _. norm. run.
Qed.
Lemma ctx_put_tr x k v :
  tr (xfp x ++ bfp k ++ bfp v) (ctx_put x k v) (fun o => match o with Some x => xfp x | None => xfp x ++ bfp k ++ bfp v end)
     (fun _ => True).
Proof. destruct x as [t l]. unfold ctx_put. norm. proj. run. Qed.
Lemma ctx_replace_tr x k v : tr (xfp x ++ bfp k ++ bfp v) (ctx_replace x k v) (fun x => xfp x) (fun _ => True).
Proof. destruct x as [t l]. unfold ctx_replace. norm. proj. run. Qed.
#[local] Hint Resolve ctx_init_tr ctx_clear_tr ctx_clean_up_tr ctx_put_tr ctx_replace_tr : mem.

Lemma ctx_read_loop_tr n : forall x, tr (xfp x) (ctx_read_loop x n) (fun r => xfp (fst r)) (fun _ => True).
Proof.
  induction n as [|n IH]; intro x; cbn [ctx_read_loop].
  - run.
  - run.
Qed.
#[local] Hint Resolve ctx_read_loop_tr : mem.
Lemma ctx_deserialize_tr x n : tr (xfp x) (ctx_deserialize x n) (fun r => xfp (fst r)) (fun _ => True).
Proof. unfold ctx_deserialize. run. Qed.
Lemma ctx_serialize_tr b : tr (bfp b) (ctx_serialize b) (fun r => bfp (fst r)) (fun _ => True).
Proof. unfold ctx_serialize. run. Qed.
#[local] Hint Resolve ctx_deserialize_tr ctx_serialize_tr : mem.
(** *** Signature contexts *)

Lemma ec_key_free_tr k n : tr [mkc k false (S n)] (ec_key_free (Some k)) (fun _ => ecfp (Some k) n) (fun _ => True).
Proof.
  unfold ec_key_free. eapply tr_bind; [apply unref_tr|spc|]. intros ? ->. norm. destruct n; cbn [Nat.eqb]; run.
Qed.
Lemma ec_key_free_none_tr : tr [] (ec_key_free None) (fun _ => []) (fun _ => True).
Proof. unfold ec_key_free. run. Qed.
#[local] Hint Resolve ec_key_free_tr ec_key_free_none_tr : mem.
Lemma sig_abort_tr n g : tr (gfp n g) (sig_abort (Some g)) (fun _ => ecfp (g_key g) n) (fun _ => True).
Proof.
  destruct g as [c md p set k]. unfold sig_abort, evp_pkey_free. norm. proj.
  destruct p as [p|], set, k as [k|]; norm; run.
Qed.
Lemma sig_abort_own_tr g : tr (ogfp g) (sig_abort g) (fun _ => []) (fun _ => True).
Proof.
  destruct g as [g|]; cbn [ogfp].
  - eapply tr_call; [apply sig_abort_tr|spc|]. intros ? _. split; [|exact I]. destruct (g_key g); perm.
  - unfold sig_abort. run.
Qed.

Lemma sig_fill_tr c k n :
  tr [mkc c false 0; mkc k false (S n)] (sig_fill c k) (fun o => match o with Some g => gfp n g | None => ecfp (Some k) n end)
     (fun o => forall g, o = Some g -> exists d p, g = mk_msig c (Some d) (Some p) true (Some k)).
Proof.
  unfold sig_fill.
  stp spec. stp spec; [|stp ltac:(apply (sig_abort_tr n)); run].
  stp spec. stp spec; [stp ltac:(apply (sig_abort_tr n)); run|].
  stp spec. stp spec. stp spec; [|stp ltac:(apply (sig_abort_tr n)); run].
  stp spec. stp spec; [stp ltac:(apply (sig_abort_tr n)); run|].
  run. intros g [= <-]. eauto.
Qed.

Lemma sign_start_tr k n :
  tr [mkc k false (S n)] (sign_start k)
     (fun o => match o with Some g => gfp (S n) g | None => [mkc k false (S n)] end)
     (fun o => forall g, o = Some g -> exists c d p, g = mk_msig c (Some d) (Some p) true (Some k)).
Proof.
  unfold sign_start. stp spec. stp spec; [|run]. stp spec.
  stp ltac:(apply (sig_fill_tr _ _ (S n))).
Qed.
Lemma serialize_pubkey_tr k n :
  tr [mkc k false n] (serialize_pubkey k) (fun o => bfp o ++ [mkc k false n]) (fun _ => True).
Proof. unfold serialize_pubkey. run. Qed.
#[local] Hint Resolve serialize_pubkey_tr : mem.

(** A signature context that has been filled in. *)
Definition sig_full (g : msig) : Prop := exists c d p k, g = mk_msig c (Some d) (Some p) true (Some k).

Lemma sign_start_keygen_tr :
  tr [] sign_start_keygen (fun o => match o with Some (g, p) => gfp 0 g ++ bfp (Some p) | None => [] end)
     (fun o => forall g p, o = Some (g, p) -> sig_full g).
Proof.
  unfold sign_start_keygen. repeat stp ltac:(first [spec|apply (sign_start_tr _ 0)]).
  destruct (H _ eq_refl) as (c & d & p & ->). norm. run. intros g q [= <- <-]. unfold sig_full. eauto 10.
Qed.
Lemma sig_sign_start_tr pub :
  tr [] (sig_sign_start pub) (fun o => match o with Some (g, p) => gfp 0 g ++ bfp p | None => [] end)
     (fun o => forall g p, o = Some (g, p) -> sig_full g /\ (pub = false -> p = None)).
Proof.
  unfold sig_sign_start. repeat stp ltac:(first [spec|apply (sign_start_tr _ 0)]).
  all: destruct (H _ eq_refl) as (c & d & p & ->); norm; run.
  all: intros g q [= <- <-]; split; [unfold sig_full; eauto 10|congruence].
Qed.
Lemma load_pubkey_tr :
  tr [] load_pubkey (fun o => match o with Some k => [mkc k false 1] | None => [] end) (fun _ => True).
Proof. unfold load_pubkey. run. Qed.
#[local] Hint Resolve sign_start_keygen_tr load_pubkey_tr : mem.
Lemma verify_start_tr : tr [] verify_start ogfp (fun o => forall g, o = Some g -> sig_full g).
Proof.
  unfold verify_start. stp spec. stp spec; [|run]. stp spec. stp spec.
  - stp ltac:(apply (sig_fill_tr _ _ 0)). intros g ->. destruct (H _ eq_refl) as (d & p & ->). unfold sig_full. eauto 10.
  - stp ltac:(apply (sig_abort_tr 0)). run.
Qed.
Lemma sig_update_tr n g : tr (gfp n g) (sig_update g) (fun _ => gfp n g) (fun _ => True).
Proof. destruct g. unfold sig_update. norm. proj. run. Qed.
Lemma verify_finish_tr g : tr (gfp 0 g) (verify_finish g) (fun _ => []) (fun _ => True).
Proof.
  unfold verify_finish. destruct g as [c md p set k]. norm. proj. run.
  eapply tr_bind; [apply (sig_abort_tr 0)|spc|]. intros ? _. norm. destruct k; run.
Qed.
#[local] Hint Resolve verify_start_tr sig_update_tr verify_finish_tr sig_abort_own_tr : mem.

Lemma resign_loop_tr n : may SBigNum = false -> tr [] (resign_loop n) (fun r => bfp (fst r)) (fun _ => True).
Proof. intro N. induction n as [|n IH]; cbn [resign_loop]; run. Qed.
Lemma sign_finish_tr g n : may SBigNum = false -> tr (gfp 0 g) (sign_finish g n) (fun o => bfp o) (fun _ => True).
Proof.
  intro N. unfold sign_finish. pose proof (resign_loop_tr n N) as HR.
  destruct g as [c md p set k]. norm. proj.
  assert (HA : forall P F (A : Type) (k' : unit -> M A) Q G,
             splits (gfp 0 (mk_msig c md p set k)) P F -> (forall u, tr F (k' u) Q G) ->
             tr P (bind (sig_abort (Some (mk_msig c md p set k))) k') Q G).
  { intros P F A k' Q G S H. eapply tr_bind; [apply (sig_abort_tr 0)|exact S|]. intros u _. cbn [g_key].
    destruct k; exact (H u). }
  repeat first [ match goal with |- triple _ _ _ (bind (sig_abort _) _) _ _ => eapply HA; [spc|intros ?; try norm] end
               | stp ltac:(first [exact HR | spec]) ].
Qed.

(** *** Materials *)

Lemma enc_materials_new_tr :
  tr [] enc_materials_new omfp
     (fun o => forall e, o = Some e -> e_sig e = None /\ e_dk e = None /\ l_items (e_edks e) = [] /\ l_items (e_trace e) = []).
Proof.
  unfold enc_materials_new. run. intros e [= <-]. cbn.
  destruct (H _ eq_refl), (H0 _ eq_refl). auto.
Qed.
Lemma enc_materials_destroy_tr e : tr (omfp e) (enc_materials_destroy e) (fun _ => []) (fun _ => True).
Proof. destruct e as [[b g dk ek t]|]; unfold enc_materials_destroy; norm; proj; run. Qed.
Lemma dec_materials_new_tr :
  tr [] dec_materials_new omfp
     (fun o => forall e, o = Some e -> exists b t, e = mk_mmat b None None (mkl [] 0 None) t).
Proof. unfold dec_materials_new. run. intros e [= <-]. eauto. Qed.
Lemma dec_materials_destroy_tr b g dk t :
  tr (omfp (Some (mk_mmat b g dk (mkl [] 0 None) t))) (dec_materials_destroy (Some (mk_mmat b g dk (mkl [] 0 None) t)))
     (fun _ => []) (fun _ => True).
Proof. unfold dec_materials_destroy; norm; proj; run. Qed.
#[local] Hint Resolve enc_materials_new_tr enc_materials_destroy_tr dec_materials_new_tr dec_materials_destroy_tr : mem.

(** *** Keyrings *)

Lemma mkr_induct (P : mkr -> Prop) :
  (forall b name ns key, P (MAes b name ns key)) ->
  (forall b name ns priv pub, P (MRsa b name ns priv pub)) ->
  (forall b mrk n, P (MKms b mrk n)) ->
  (forall b gen kids cap lb, (forall g, gen = Some g -> P g) -> Forall P kids -> P (MMulti b gen kids cap lb)) ->
  forall k, P k.
Proof.
  intros H1 H2 H4 H3. fix IH 1. intros [b name ns key|b name ns priv pub|b mrk n|b gen kids cap lb].
  - apply H1.
  - apply H2.
  - apply H4.
  - apply H3.
    + intros g E. destruct gen as [g'|]; [|discriminate]. injection E as <-. apply IH.
    + induction kids as [|x l IHl]; constructor; [apply IH|exact IHl].
Qed.

Definition release_all : list mkr -> M unit :=
  fix go (l : list mkr) : M unit := match l with [] => ret tt | x :: r => kr_release x;; go r end.

Lemma kr_release_tr k : forall n, tr (kfp (S n) k) (kr_release k) (fun _ => krest n k) (fun _ => True).
Proof.
  induction k as [b name ns key|b name ns priv pub|b mrk ids|b gen kids cap lb IG IK] using mkr_induct; intro n.
  - cbn [kr_release]. norm. eapply tr_bind; [apply unref_tr|spc|]. intros ? ->. norm. destruct n; cbn [Nat.eqb]; run.
  - cbn [kr_release]. norm. eapply tr_bind; [apply unref_tr|spc|]. intros ? ->. norm. destruct n; cbn [Nat.eqb]; run.
  - cbn [kr_release]. norm. eapply tr_bind; [apply unref_tr|spc|]. intros ? ->. norm. destruct n; cbn [Nat.eqb]; run.
  - assert (HK : tr (kfps kids) (release_all kids) (fun _ => []) (fun _ => True)).
    { clear IG. induction IK as [|x l Hx _ IH]; cbn [kfps release_all].
      - run.
      - eapply tr_bind; [apply (Hx 0)|spc|]. intros ? _. norm. exact IH. }
    rewrite kfp_multi. cbn [kr_release]. fold release_all.
    eapply tr_bind; [apply unref_tr|spc|]. intros ? ->. norm. destruct n; cbn [Nat.eqb].
    + eapply tr_bind; [exact HK|spc|]. intros ? _. norm.
      destruct gen as [g|]; cbn [ogkfp]; norm.
      * eapply tr_bind; [apply (IG g eq_refl 0)|spc|]. intros ? _. norm. run.
      * run.
    + apply tr_ret; [|exact I]. cbn [krest]. rewrite kfp_multi. perm.
Qed.
Lemma kr_release_last_tr k : tr (kfp 1 k) (kr_release k) (fun _ => []) (fun _ => True).
Proof. exact (kr_release_tr k 0). Qed.
Lemma kr_release_more_tr k n : tr (kfp (S (S n)) k) (kr_release k) (fun _ => kfp (S n) k) (fun _ => True).
Proof. exact (kr_release_tr k (S n)). Qed.
Lemma kr_retain_tr k n : tr (kfp (S n) k) (retain (kr_blk k)) (fun _ => kfp (S (S n)) k) (fun _ => True).
Proof. destruct k; cbn [kr_blk]; norm; run. Qed.
Lemma kr_touch_tr k n : tr (kfp n k) (touch (kr_blk k)) (fun _ => kfp n k) (fun _ => True).
Proof. destruct k; cbn [kr_blk]; norm; run. Qed.
#[local] Hint Resolve kr_release_last_tr kr_release_more_tr kr_retain_tr kr_touch_tr : mem.

Lemma raw_aes_keyring_new_tr : tr [] raw_aes_keyring_new (okfp 1) (fun _ => True).
Proof. unfold raw_aes_keyring_new. run. Qed.
Lemma raw_rsa_keyring_new_tr priv pub : may SPem = false -> tr [] (raw_rsa_keyring_new priv pub) (okfp 1) (fun _ => True).
Proof. intro N. unfold raw_rsa_keyring_new. run. Qed.
Lemma raw_rsa_keyring_private_tr priv : tr [] (raw_rsa_keyring_new priv false) (okfp 1) (fun _ => True).
Proof. unfold raw_rsa_keyring_new. run. Qed.
Lemma multi_keyring_new_tr gen n :
  tr (okfp (S n) gen) (multi_keyring_new gen)
     (fun o => match o with
               | Some (MMulti b g kids cap lb) =>
                   mkc b false 1 :: kfps kids ++ bfp lb ++ okfp (S (S n)) gen
               | _ => okfp (S n) gen
               end)
     (fun o => forall k, o = Some k -> exists b cap lb, k = MMulti b gen [] cap lb).
Proof.
  unfold multi_keyring_new. stp spec. stp spec; [|run].
  eapply tr_bind; [apply (list_init_tr (fun _ : mkr => []))|spc|]. intros [[items cap blk]|] H; norm; proj.
  - destruct (H _ eq_refl) as [HI _]. cbn in HI. subst items. norm. stp spec.
    destruct gen as [g|]; cbn [okfp]; norm; run.
    all: intros k [= <-]; eauto.
  - run.
Qed.

(** Pushing an item that owns nothing. *)
Lemma list_push_unit_tr {A} s (l : alist A) x :
  tr (bfp (l_blk l)) (list_push s l x) (fun o => match o with Some l' => bfp (l_blk l') | None => bfp (l_blk l) end)
     (fun o => (o = None -> may s = true) /\ forall l', o = Some l' -> l_items l' = l_items l ++ [x]).
Proof.
  destruct l as [items cap blk]. unfold list_push. norm. run.
  all: try (split; [intros; try discriminate; auto|intros l' E; inversion E; reflexivity]).
Qed.

Lemma kfps_app l l' : kfps (l ++ l') = kfps l ++ kfps l'.
Proof. induction l as [|x l IH]; cbn [kfps app]; [reflexivity|]. rewrite IH, app_assoc. reflexivity. Qed.

(** Adding a child of which the caller holds the only reference, which it then gives up. *)
Lemma multi_keyring_add_child_tr {A} b gen kids cap lb c (f : mkr -> M A) Q G F : may SChild = false ->
  (forall cap lb, tr (kfp 1 (MMulti b gen (kids ++ [c]) cap lb) ++ F) (f (MMulti b gen (kids ++ [c]) cap lb)) Q G) ->
  forall g,
  tr (kfp 1 (MMulti b gen kids cap lb) ++ kfp 1 c ++ F)
     (let* '(k, ok) := multi_keyring_add_child (MMulti b gen kids cap lb) c in kr_release c;; if ok then f k else g k)
     Q G.
Proof.
  intros N HF g. rewrite kfp_multi. unfold multi_keyring_add_child. norm. apply tr_assoc. stp spec. apply tr_assoc. stp spec.
  apply tr_assoc.
  eapply tr_bind; [apply (list_push_unit_tr SChild (mkl kids cap lb) c)|spc|]. intros [[items cap' lb']|] [H1 H2]; hyps. norm. proj.
  specialize (H2 _ eq_refl). cbn in H2. subst items. apply tr_ret_bind. proj. stp spec.
  eapply tr_pre; [|apply HF]. rewrite kfp_multi, kfps_app. cbn [kfps]. perm.
Qed.

(** *** Wrapping data keys *)

Lemma serialize_aad_init_tr :
  tr [] serialize_aad_init (fun o => match o with Some b => bfp b | None => [] end) (fun _ => True).
Proof. unfold serialize_aad_init. run. Qed.
Lemma aes_gcm_encrypt_tr : tr [] aes_gcm_encrypt (fun _ => []) (fun _ => True).
Proof. unfold aes_gcm_encrypt. run. Qed.
#[local] Hint Resolve serialize_aad_init_tr aes_gcm_encrypt_tr : mem.
Lemma list_push_edk_tr s l x :
  tr (afp efp l ++ efp x) (list_push s l x) (fun o => match o with Some l' => afp efp l' | None => afp efp l ++ efp x end)
     (fun o => (o = None -> may s = true) /\ forall l', o = Some l' -> l_items l' = l_items l ++ [x]).
Proof. apply list_push_tr. Qed.
#[local] Hint Resolve list_push_edk_tr : mem.
Definition oafp (l : alist medk) (o : option (alist medk)) : list cell :=
  match o with Some l => afp efp l | None => afp efp l end.
Lemma aes_encrypt_data_key_tr l : tr (afp efp l) (aes_encrypt_data_key l) (oafp l) (fun _ => True).
Proof. unfold aes_encrypt_data_key. run. Qed.
Lemma rsa_encrypt_tr : tr [] rsa_encrypt bfp (fun _ => True).
Proof. unfold rsa_encrypt. run. Qed.
#[local] Hint Resolve rsa_encrypt_tr : mem.
Lemma rsa_encrypt_data_key_tr l : tr (afp efp l) (rsa_encrypt_data_key l) (oafp l) (fun _ => True).
Proof. unfold rsa_encrypt_data_key. run. Qed.

(** What the functions on_encrypt are given and give back. *)
Definition efp4 (r : bool * buf * alist mrec * alist medk) : list cell :=
  match r with (_, dk, t, e) => sfp dk ++ afp rfp t ++ afp efp e end.

Lemma raw_on_encrypt_tr iv p wrap dk t e :
  spill p = true -> (forall l, tr (afp efp l) (wrap l) (oafp l) (fun _ => True)) ->
  tr (efp4 (true, dk, t, e)) (raw_on_encrypt iv p wrap dk t e) efp4 (fun _ => True).
Proof.
  intros HP HW. unfold raw_on_encrypt. norm.
  assert (HR : forall b, tr [mkc b true 0] (release_at p b) (fun _ => []) (fun _ => True))
    by (intro b; apply release_at_tr; auto).
  repeat stp ltac:(first [spec | apply HW | apply HR]).
Qed.

Lemma checked_on_encrypt_tr F b n impl dk t e :
  tr (mkc b false n :: F ++ efp4 (true, dk, t, e)) impl (fun r => mkc b false n :: F ++ efp4 r) (fun _ => True) ->
  tr (mkc b false n :: F ++ efp4 (true, dk, t, e)) (checked_on_encrypt b impl dk t e) (fun r => mkc b false n :: F ++ efp4 r)
     (fun _ => True).
Proof.
  intro H. unfold checked_on_encrypt. norm. stp spec.
  assert (T : tr (mkc b false n :: F ++ sfp dk ++ afp rfp t ++ afp efp e)
                 (let* '(ok, dk', t, e) := impl in
                  match dk, dk' with
                  | None, Some _ => let* bad := ask SCond in ret (ok && negb bad, dk', t, e)
                  | _, _ => ret (ok, dk', t, e)
                  end) (fun r => mkc b false n :: F ++ efp4 r) (fun _ => True)).
  { eapply tr_bind; [exact H|spc|]. intros [[[ok dk'] t'] e'] _. norm. destruct dk, dk'; run. }
  destruct dk as [d|]; [exact T|]. destruct (l_items e); [exact T|]. run.
Qed.

Definition on_encrypt_all : list mkr -> buf -> alist mrec -> alist medk -> M (bool * buf * alist mrec * alist medk) :=
  fix go (l : list mkr) (dk : buf) (t : alist mrec) (e : alist medk) :=
    match l with
    | [] => ret (true, dk, t, e)
    | x :: r => let* '(ok, dk, t, e) := kr_on_encrypt x dk t e in
                if ok then go r dk t e else ret (false, dk, t, e)
    end.

Lemma transfer_edks_tr d s : may STransfer = false ->
  tr (afp efp d ++ afp efp s) (transfer_list d s) (fun r => afp efp (fst (fst r)) ++ afp efp (snd (fst r)))
     (fun r => l_items (snd (fst r)) = [] /\ snd r = true).
Proof. apply transfer_list_tr. Qed.
Lemma transfer_trace_tr d s : may STransfer = false ->
  tr (afp rfp d ++ afp rfp s) (transfer_list d s) (fun r => afp rfp (fst (fst r)) ++ afp rfp (snd (fst r)))
     (fun r => l_items (snd (fst r)) = [] /\ snd r = true).
Proof. apply transfer_list_tr. Qed.

Lemma raii_edks_tr : may SRaii = false -> tr [] (raii_create 4) (afp efp) (fun _ => True).
Proof. intro N. unfold raii_create. run. Qed.
Lemma raii_trace_tr : may SRaii = false -> tr [] (raii_create 10) (afp rfp) (fun _ => True).
Proof. intro N. unfold raii_create. run. Qed.
Lemma kms_append_tr l : tr (afp efp l) (kms_append l) (oafp l) (fun _ => True).
Proof. unfold kms_append. run. Qed.
#[local] Hint Resolve kms_append_tr : mem.
Lemma kms_wrap_loop_tr n : forall t e,
  tr (afp rfp t ++ afp efp e) (kms_wrap_loop t e n) (fun r => afp rfp (snd (fst r)) ++ afp efp (snd r)) (fun _ => True).
Proof. induction n as [|n IH]; intros t e; cbn [kms_wrap_loop]; run. Qed.
#[local] Hint Resolve kms_wrap_loop_tr : mem.
Lemma kms_generate_tr t e : tr (afp rfp t ++ afp efp e) (kms_generate t e) efp4 (fun r => fst (fst (fst r)) = false -> snd (fst (fst r)) = None).
Proof. unfold kms_generate. run. Qed.
Lemma kms_deliver_tr ok new key t e tr0 edks : may STransfer = false -> spill PKmsKey = true ->
  tr (efp4 (true, key, tr0, edks) ++ afp rfp t ++ afp efp e) (kms_deliver ok new key t e tr0 edks) efp4 (fun _ => True).
Proof.
  intros N SP. unfold kms_deliver.
  assert (HR : forall b, tr [mkc b true 0] (release_at PKmsKey b) (fun _ => []) (fun _ => True))
    by (intro b; apply release_at_tr; auto).
  destruct ok; norm.
  - eapply tr_bind; [apply (transfer_edks_tr edks e N)|spc|]. intros [[e3 ie3] ok] [_ HO]. cbn in HO. subst ok. norm.
    eapply tr_bind; [apply (transfer_trace_tr tr0 t N)|spc|]. intros [[t4 it4] ok] _. norm. run.
  - destruct new; [destruct key as [b|]|]; norm; repeat stp ltac:(first [spec | apply HR]).
Qed.
Lemma kms_on_encrypt_tr mrk n dk t e : may STransfer = false -> may SRaii = false -> spill PKmsKey = true ->
  tr (efp4 (true, dk, t, e)) (kms_on_encrypt mrk n dk t e) efp4 (fun _ => True).
Proof.
  intros N NR SP. unfold kms_on_encrypt. destruct n as [|others]; norm; [run|].
  eapply tr_bind; [apply (raii_edks_tr NR)|spc|]. intros ie _. norm.
  eapply tr_bind; [apply (raii_trace_tr NR)|spc|]. intros it _. norm.
  destruct dk as [d|]; norm.
  - eapply tr_bind; [apply (kms_wrap_loop_tr (S others) it ie)|spc|]. intros [[ok it2] ie2] _. norm. proj.
    eapply tr_call; [apply (kms_deliver_tr ok false (Some d) it2 ie2 t e N SP)|fpnorm; spc|]. intros [[[ok2 dk2] t2] e2] _. split; [perm|exact I].
  - eapply tr_bind; [apply (kms_generate_tr it ie)|spc|]. intros [[[ok key] it2] ie2] HK. norm. destruct ok.
    + eapply tr_bind; [apply (kms_wrap_loop_tr others it2 ie2)|spc|]. intros [[ok it3] ie3] _. norm. proj.
      eapply tr_call; [apply (kms_deliver_tr ok true key it3 ie3 t e N SP)|fpnorm; spc|]. intros [[[ok2 dk2] t2] e2] _. split; [perm|exact I].
    + cbn in HK. rewrite (HK eq_refl). norm.
      eapply tr_call; [apply (kms_deliver_tr false false None it2 ie2 t e N SP)|fpnorm; spc|]. intros [[[ok2 dk2] t2] e2] _. split; [perm|exact I].
Qed.

Lemma kr_on_encrypt_tr k :
  may STransfer = false -> may SRaii = false -> spill PAesKey = true -> spill PRsaKey = true -> spill PKmsKey = true -> forall n dk t e,
  tr (kfp n k ++ efp4 (true, dk, t, e)) (kr_on_encrypt k dk t e) (fun r => kfp n k ++ efp4 r) (fun _ => True).
Proof.
  intros N NR SA SR SK.
  induction k as [b name ns key|b name ns priv pub|b mrk ids|b gen kids cap lb IG IK] using mkr_induct; intros n dk t e.
  - cbn [kr_on_encrypt kr_blk kfp]. cbn [app]. apply checked_on_encrypt_tr.
    eapply tr_call; [apply (raw_on_encrypt_tr true PAesKey _ dk t e SA aes_encrypt_data_key_tr)|spc|].
    intros [[[ok dk'] t'] e'] _. split; [perm|exact I].
  - cbn [kr_on_encrypt kr_blk kfp]. cbn [app]. apply checked_on_encrypt_tr.
    destruct pub as [pub|]; [|run].
    eapply tr_call; [apply (raw_on_encrypt_tr false PRsaKey _ dk t e SR rsa_encrypt_data_key_tr)|fpnorm; spc|].
    intros [[[ok dk'] t'] e'] _. split; [perm|exact I].
  - cbn [kr_on_encrypt kr_blk kfp]. change ([mkc b false n] ++ ?x) with (mkc b false n :: [] ++ x). apply checked_on_encrypt_tr.
    eapply tr_call; [apply (kms_on_encrypt_tr mrk ids dk t e N NR SK)|fpnorm; spc|].
    intros [[[ok dk'] t'] e'] _. split; [perm|exact I].
  - rewrite kfp_multi. cbn [kr_on_encrypt kr_blk]. cbn [app]. apply checked_on_encrypt_tr.
    fold on_encrypt_all.
    assert (HK : forall dk t e, tr (kfps kids ++ efp4 (true, dk, t, e)) (on_encrypt_all kids dk t e)
                                   (fun r => kfps kids ++ efp4 r) (fun _ => True)).
    { clear IG. induction IK as [|x l Hx _ IH]; intros dk0 t0 e0; cbn [kfps on_encrypt_all]; norm.
      - run.
      - eapply tr_bind; [apply (Hx 1 dk0 t0 e0)|spc|]. intros [[[ok dk'] t'] e'] _. norm. destruct ok.
        + eapply tr_call; [apply IH|spc|]. intros [[[ok2 dk2] t2] e2] _. split; [perm|exact I].
        + run. }
    assert (HG : forall dk t e, tr (ogkfp gen ++ efp4 (true, dk, t, e))
                                   match gen with None => ret (true, dk, t, e) | Some g => kr_on_encrypt g dk t e end
                                   (fun r => ogkfp gen ++ efp4 r) (fun _ => True)).
    { intros dk0 t0 e0. destruct gen as [g|]; cbn [ogkfp]; norm; [|run]. eapply tr_call; [apply (IG g eq_refl 1 dk0 t0 e0)|spc|].
      intros [[[ok2 dk2] t2] e2] _. split; [perm|exact I]. }
    clear IG IK. norm. stp spec. destruct a as [ie|]; norm; [|run]. stp spec. destruct a as [it|]; norm; [|run].
    eapply tr_bind; [apply (HG dk it ie)|spc|]. intros [[[ok dk1] it1] ie1] _. norm.
    destruct ok; [|run]. destruct dk1 as [d1|]; [|run].
    eapply tr_bind; [apply (HK (Some d1) it1 ie1)|spc|]. intros [[[ok dk2] it2] ie2] _. norm.
    destruct ok; [|run].
    eapply tr_bind; [apply (transfer_edks_tr e ie2 N)|spc|]. intros [[e3 ie3] ok] [_ HO]. cbn in HO. subst ok. norm.
    eapply tr_bind; [apply (transfer_trace_tr t it2 N)|spc|]. intros [[t4 it4] ok] _. norm. run.
Qed.

(** *** Unwrapping data keys *)

Lemma aes_gcm_decrypt_tr b : tr [mkc b false 0] (aes_gcm_decrypt b) (fun ok => [mkc b ok 0]) (fun _ => True).
Proof. unfold aes_gcm_decrypt. run. Qed.
#[local] Hint Resolve aes_gcm_decrypt_tr : mem.
Lemma aes_decrypt_loop_tr b n : forall t,
  tr (mkc b false 0 :: afp rfp t) (aes_decrypt_loop b t n) (fun r => mkc b (fst r) 0 :: afp rfp (snd r)) (fun _ => True).
Proof. induction n as [|n IH]; intro t; cbn [aes_decrypt_loop]; run. Qed.
#[local] Hint Resolve aes_decrypt_loop_tr : mem.
Definition fp3 (r : bool * buf * alist mrec) : list cell := match r with (_, dk, t) => sfp dk ++ afp rfp t end.
Lemma aes_on_decrypt_tr t n : tr (afp rfp t) (aes_on_decrypt t n) fp3 (fun _ => True).
Proof. unfold aes_on_decrypt. run. Qed.
Lemma rsa_decrypt_tr : tr [] rsa_decrypt sfp (fun _ => True).
Proof. unfold rsa_decrypt. run. Qed.
#[local] Hint Resolve rsa_decrypt_tr : mem.
Lemma rsa_decrypt_loop_tr n : forall t,
  tr (afp rfp t) (rsa_decrypt_loop t n) (fun r => sfp (fst r) ++ afp rfp (snd r)) (fun _ => True).
Proof. induction n as [|n IH]; intro t; cbn [rsa_decrypt_loop]; run. Qed.
#[local] Hint Resolve aes_on_decrypt_tr rsa_decrypt_loop_tr : mem.

Lemma checked_on_decrypt_tr F b n impl dk t :
  tr (mkc b false n :: F ++ afp rfp t) impl (fun r => mkc b false n :: F ++ fp3 r) (fun _ => True) ->
  tr (mkc b false n :: F ++ fp3 (true, dk, t)) (checked_on_decrypt b impl dk t) (fun r => mkc b false n :: F ++ fp3 r)
     (fun _ => True).
Proof.
  intro H. unfold checked_on_decrypt. norm. stp spec. destruct dk as [d|]; norm; [run|].
  eapply tr_bind; [exact H|spc|]. intros [[ok dk'] t'] _. norm. destruct dk'; run.
Qed.

Definition on_decrypt_all (n : nat) : list mkr -> bool -> alist mrec -> M (bool * buf * alist mrec) :=
  fix go (l : list mkr) (acc : bool) (tr : alist mrec) : M (bool * buf * alist mrec) :=
    match l with
    | [] => ret (acc, None, tr)
    | x :: r => let* '(ok, dk, tr) := kr_on_decrypt x None tr n in
                match dk with
                | Some _ => ret (true, dk, tr)
                | None => go r (acc && ok) tr
                end
    end.

Lemma kms_decrypt_loop_tr mrk n : forall failed t, tr (afp rfp t) (kms_decrypt_loop mrk failed t n) fp3 (fun _ => True).
Proof. induction n as [|n IH]; intros failed t; cbn [kms_decrypt_loop]; run. Qed.

Lemma kr_on_decrypt_tr k m : forall n dk t,
  tr (kfp n k ++ fp3 (true, dk, t)) (kr_on_decrypt k dk t m) (fun r => kfp n k ++ fp3 r) (fun _ => True).
Proof.
  induction k as [b name ns key|b name ns priv pub|b mrk ids|b gen kids cap lb IG IK] using mkr_induct; intros n dk t.
  - cbn [kr_on_decrypt kr_blk kfp]. cbn [app]. apply checked_on_decrypt_tr. norm.
    eapply tr_call; [apply aes_on_decrypt_tr|spc|]. intros [[ok dk'] t'] _. split; [perm|exact I].
  - cbn [kr_on_decrypt kr_blk kfp]. cbn [app]. apply checked_on_decrypt_tr. norm. destruct priv; norm; run.
  - cbn [kr_on_decrypt kr_blk kfp]. change ([mkc b false n] ++ ?x) with (mkc b false n :: [] ++ x). apply checked_on_decrypt_tr.
    eapply tr_call; [apply (kms_decrypt_loop_tr mrk m false t)|fpnorm; spc|]. intros [[ok dk'] t'] _. split; [perm|exact I].
  - rewrite kfp_multi. cbn [kr_on_decrypt kr_blk]. cbn [app]. apply checked_on_decrypt_tr.
    fold (on_decrypt_all m).
    assert (HK : forall acc t, tr (kfps kids ++ afp rfp t) (on_decrypt_all m kids acc t)
                                   (fun r => kfps kids ++ fp3 r) (fun _ => True)).
    { clear IG. induction IK as [|x l Hx _ IH]; intros acc t0; cbn [kfps on_decrypt_all]; norm.
      - run.
      - eapply tr_bind; [apply (Hx 1 None t0)|spc|]. intros [[ok dk'] t'] _. norm. destruct dk'; norm.
        + run.
        + eapply tr_call; [apply IH|spc|]. intros [[ok2 dk2] t2] _. split; [perm|exact I]. }
    assert (HG : forall t, tr (ogkfp gen ++ afp rfp t)
                                   match gen with None => ret (true, None, t) | Some g => kr_on_decrypt g None t m end
                                   (fun r => ogkfp gen ++ fp3 r) (fun _ => True)).
    { intros t0. destruct gen as [g|]; cbn [ogkfp]; norm; [|run]. eapply tr_call; [apply (IG g eq_refl 1 None t0)|spc|].
      intros [[ok2 dk2] t2] _. split; [perm|exact I]. }
    clear IG IK. norm.
    eapply tr_bind; [apply (HG t)|spc|]. intros [[ok dk1] t1] _. norm. destruct dk1; norm; [run|].
    eapply tr_call; [apply HK|spc|]. intros [[ok2 dk2] t2] _. split; [perm|exact I].
Qed.

(** *** The default CMM *)

Lemma default_cmm_new_tr k n :
  tr (kfp (S n) k) (default_cmm_new k)
     (fun o => match o with Some c => mkc (d_blk c) false 1 :: kfp (S (S n)) k | None => kfp (S n) k end)
     (fun o => forall c, o = Some c -> d_kr c = k).
Proof. unfold default_cmm_new. run. intros c [= <-]. reflexivity. Qed.

Lemma cmm_release_tr c : tr (cfp 1 c) (cmm_release c) (fun _ => []) (fun _ => True).
Proof.
  destruct c as [b k]. unfold cmm_release. norm. proj. eapply tr_bind; [apply unref_tr|spc|]. intros ? ->. norm. cbn [Nat.eqb]. run.
Qed.
(** The client still holds the keyring. *)
Lemma cmm_release_shared_tr b k n :
  tr (mkc b false 1 :: kfp (S (S n)) k) (cmm_release (mk_mcmm b k)) (fun _ => kfp (S n) k) (fun _ => True).
Proof.
  unfold cmm_release. norm. proj. eapply tr_bind; [apply unref_tr|spc|]. intros ? ->. norm. cbn [Nat.eqb]. run.
Qed.
Lemma cmm_retain_tr c n : tr (cfp (S n) c) (retain (d_blk c)) (fun _ => cfp (S (S n)) c) (fun _ => True).
Proof. destruct c as [b k]. norm. proj. run. Qed.
#[local] Hint Resolve cmm_release_tr : mem.

(** The signature context of the materials, if there is one, has been filled in. *)
Definition sig_ok (e : mmat) : Prop := forall g, e_sig e = Some g -> sig_full g.

Lemma generate_enc_materials_tr c n x :
  may STransfer = false -> may SRaii = false -> spill PAesKey = true -> spill PRsaKey = true -> spill PKmsKey = true ->
  tr (cfp n c ++ xfp x) (generate_enc_materials c x) (fun r => cfp n c ++ xfp (fst r) ++ omfp (snd r))
     (fun r => forall e, snd r = Some e -> sig_ok e).
Proof.
  intros N NR SA SR SK. destruct c as [b k]. unfold generate_enc_materials. norm. proj. stp spec. stp spec. stp spec; [run|].
  stp spec. destruct a0 as [[eb sg dk ek et]|]; norm; proj; [|run].
  match goal with H : forall e, Some _ = Some e -> _ |- _ => destruct (H _ eq_refl) as (E1 & E2 & _) end.
  cbn in E1, E2. subst sg dk. norm.
  stp spec.
  eapply tr_bind with (Q0 := fun r : mctx * option msig * bool => xfp (fst (fst r)) ++ ogfp (snd (fst r))) 
      (G0 := fun r => forall g, snd (fst r) = Some g -> sig_full g) (P0 := xfp x);
    [|spc|].
  { destruct a0; run.
    all: try (intros g0 [= <-]; match goal with H : forall g p, Some _ = Some _ -> sig_full _ |- _ => exact (H _ _ eq_refl) end). }
  intros [[x1 sg] ok] Hsg. cbn in Hsg. norm. proj. destruct ok; [|run].
  eapply tr_bind; [apply (kr_on_encrypt_tr k N NR SA SR SK 1 None et ek)|spc|]. intros [[[ok dk] t'] e'] _. norm. proj. run.
  intros e0 [= <-]. exact Hsg.
Qed.

Lemma decrypt_materials_tr c n m :
  tr (cfp n c) (decrypt_materials c m) (fun o => cfp n c ++ omfp o)
     (fun o => forall e, o = Some e -> e_edks e = mkl [] 0 None /\ sig_ok e).
Proof.
  destruct c as [b k]. unfold decrypt_materials. norm. proj. stp spec. stp spec. destruct a0 as [e|]; norm; [|run].
  match goal with H : forall e, Some _ = Some e -> _ |- _ => destruct (H _ eq_refl) as (eb & et & ->) end. norm. proj.
  eapply tr_bind; [apply (kr_on_decrypt_tr k m 1 None et)|spc|]. intros [[ok dk] t'] _. norm. proj. run.
  all: intros e [= <-]; split; [reflexivity|]; intros g0 E; cbn in E; first [discriminate|injection E as <-; auto].
Qed.

(** *** Headers *)

Definition hdr_empty (h : mhdr) : Prop :=
  h_iv h = None /\ h_tag h = None /\ h_mid h = None /\ h_suite h = None /\ l_items (h_edks h) = [].

Lemma hdr_init_tr :
  tr [] hdr_init (fun o => match o with Some h => hfp h | None => [] end) (fun o => forall h, o = Some h -> hdr_empty h).
Proof.
  unfold hdr_init. run. intros h [= <-]. unfold hdr_empty. cbn.
  match goal with H : forall e, Some _ = Some e -> _ |- _ => destruct (H _ eq_refl) end. auto.
Qed.
Lemma hdr_clear_tr h : tr (hfp h) (hdr_clear h) hfp hdr_empty.
Proof. destruct h. unfold hdr_clear. norm. proj. run. unfold hdr_empty. cbn. auto. Qed.
Lemma hdr_clean_up_tr h : tr (hfp h) (hdr_clean_up h) (fun _ => []) (fun _ => True).
Proof. destruct h. unfold hdr_clean_up. norm. proj. run. Qed.
#[local] Hint Resolve hdr_init_tr hdr_clear_tr hdr_clean_up_tr : mem.
Lemma parse_edk_tr : tr [] parse_edk (fun o => match o with Some e => efp e | None => [] end) (fun _ => True).
Proof. unfold parse_edk. run. Qed.
#[local] Hint Resolve parse_edk_tr : mem.
Lemma parse_edks_loop_tr n : may SParse = false -> forall l,
  tr (afp efp l) (parse_edks_loop l n) (fun r => afp efp (fst r)) (fun _ => True).
Proof. intro N. induction n as [|n IH]; intro l; cbn [parse_edks_loop]; run. destruct a; hyps. norm. apply IH. Qed.
Lemma parse_field_tr : tr [] parse_field (fun r => bfp (fst r)) (fun _ => True).
Proof. unfold parse_field. run. Qed.
#[local] Hint Resolve parse_field_tr : mem.

Lemma hdr_parse_tr h v1 n m : may SParse = false ->
  tr (hfp h) (hdr_parse h v1 n m) (fun r => hfp (fst r)) (fun _ => True).
Proof.
  intro N. unfold hdr_parse. stp spec. destruct a as [iv tag mid suite e x].
  destruct H as (E1 & E2 & E3 & E4 & E5). cbn in E1, E2, E3, E4, E5. subst iv tag mid suite. norm. proj.
  repeat stp ltac:(first [spec | apply (parse_edks_loop_tr n N)]).
Qed.

(** *** Sessions *)

Lemma release_plain_tr p b r : tr [mkc b false r] (release_at p b) (fun _ => []) (fun _ => True).
Proof. apply release_at_tr. discriminate. Qed.
#[local] Hint Resolve release_plain_tr : mem.

Definition sinv (s : msess) : Prop :=
  match s_stage s with
  | GConfig => hdr_empty (s_hdr s) /\ s_sig s = None /\ s_copy s = None
  | GGenKey => hdr_empty (s_hdr s) /\ s_sig s = None /\ s_copy s = None /\ s_enc s = true
  | GReadHeader => s_sig s = None /\ s_copy s = None /\ s_enc s = false
  | _ => True
  end.

Lemma session_reset_tr s enc :
  tr (wfp s) (session_reset s enc) (fun r => wfp (fst r))
     (fun r => sinv (fst r) /\ s_cmm (fst r) = s_cmm s /\ s_keyed (fst r) = false /\ s_sig (fst r) = None /\
               s_copy (fst r) = None /\ s_enc (fst r) = enc /\ s_blk (fst r) = s_blk s).
Proof.
  destruct s as [b c h t g copy stage e keyed]. unfold session_reset. norm. proj.
  run. all: unfold sinv; cbn.
  all: match goal with |- context [if ?x then GError else GConfig] => destruct x; auto 10 end.
Qed.
#[local] Hint Resolve session_reset_tr : mem.

Lemma session_new_tr enc :
  tr [] (session_new enc) (fun o => match o with Some s => wfp s | None => [] end)
     (fun o => forall s, o = Some s -> sinv s /\ s_cmm s = None /\ s_enc s = enc /\ s_keyed s = false).
Proof.
  unfold session_new. stp spec. stp spec; [|run]. stp spec. stp spec; [|run]. stp spec. stp spec; [|run].
  eapply tr_bind; [apply session_reset_tr|fpnorm; spc|]. intros [s ok] (H1 & H2 & H3 & H4 & H5 & H6 & H7). cbn in H1, H2, H3, H4, H5, H6, H7.
  destruct s as [b' c' h' t' g' copy' stage' e' keyed']. cbn in H2, H3, H4, H5, H6, H7. subst. norm. proj. destruct ok.
  - run. intros s [= <-]. cbn. auto.
  - run.
Qed.
#[local] Hint Resolve session_new_tr : mem.

Lemma session_new_from_cmm_tr enc c n :
  tr (cfp (S n) c) (session_new_from_cmm enc c)
     (fun o => match o with
               | Some s => wfp (mk_msess (s_blk s) None (s_hdr s) (s_trace s) (s_sig s) (s_copy s) (s_stage s) (s_enc s) (s_keyed s)) ++
                           cfp (S (S n)) c
               | None => cfp (S n) c
               end)
     (fun o => forall s, o = Some s -> sinv s /\ s_cmm s = Some c /\ s_enc s = enc /\ s_keyed s = false).
Proof.
  unfold session_new_from_cmm. stp spec. stp spec; [|run].
  match goal with H : forall e, Some _ = Some e -> _ |- _ => destruct (H _ eq_refl) as (H1 & H2 & H3 & H4) end.
  destruct m as [b' c' h' t' g' copy' stage' e' keyed']. cbn in H2, H3, H4. subst. norm.
  stp ltac:(apply cmm_retain_tr). run. intros s [= <-]. cbn. auto.
Qed.

Lemma session_new_from_keyring_tr enc k n :
  tr (kfp (S n) k) (session_new_from_keyring enc k)
     (fun o => match o with
               | Some s => wfp (mk_msess (s_blk s) None (s_hdr s) (s_trace s) (s_sig s) (s_copy s) (s_stage s) (s_enc s) (s_keyed s)) ++
                           match s_cmm s with Some c => [mkc (d_blk c) false 1] | None => [] end ++ kfp (S (S n)) k
               | None => kfp (S n) k
               end)
     (fun o => forall s, o = Some s -> sinv s /\ (exists c, s_cmm s = Some c /\ d_kr c = k) /\ s_enc s = enc /\ s_keyed s = false).
Proof.
  unfold session_new_from_keyring.
  stp ltac:(apply default_cmm_new_tr). stp spec; [|run]. specialize (H _ eq_refl). destruct m as [cb ck]. cbn in H. subst ck. norm.
  stp spec. stp spec.
  - match goal with H : forall e, Some _ = Some e -> _ |- _ => destruct (H _ eq_refl) as (H1 & H2 & H3 & H4) end.
    destruct m as [b' c' h' t' g' copy' stage' e' keyed']. cbn in H2, H3, H4. subst. norm. proj.
    run. intros s [= <-]. cbn. eauto 10.
  - stp ltac:(apply cmm_release_shared_tr). run.
Qed.

Lemma session_destroy_tr s : tr (wfp s) (session_destroy s) (fun _ => []) (fun _ => True).
Proof.
  unfold session_destroy. stp spec. destruct a as [s1 ok]. proj.
  destruct s1 as [b c h t g copy stage e keyed]. cbn in *. hyps. subst. norm. proj.
  match goal with |- context [ocfp ?c] => destruct c end; norm; run.
Qed.

Lemma build_header_tr h e : h_iv h = None -> h_tag h = None ->
  tr (hfp h ++ mfp e) (build_header h e) (fun r => hfp (fst (fst r)) ++ mfp (snd (fst r))) (fun _ => True).
Proof.
  destruct h as [iv tag mid suite ek x], e as [b g dk ek' t]. cbn [h_iv h_tag]. intros -> ->.
  unfold build_header. norm. proj. run.
Qed.
Lemma ctx_serialize_none_tr : tr [] (ctx_serialize None) (fun r => bfp (fst r)) (fun r => fst r = None).
Proof. unfold ctx_serialize. run. Qed.
Lemma sign_header_tr g : tr (ogfp g) (sign_header g) (fun r => ogfp g ++ bfp (fst r)) (fun _ => True).
Proof.
  unfold sign_header. stp spec. stp spec; [run|]. stp spec. stp spec; [|run].
  eapply tr_bind; [apply ctx_serialize_none_tr|spc|]. intros [o ok] E. cbn in E. subst o. norm. proj. destruct ok; proj; [|run].
  stp spec. stp spec; [run|].
  eapply tr_bind; [apply ctx_serialize_none_tr|spc|]. intros [o ok] E. cbn in E. subst o. norm. proj. destruct ok; proj; [|run].
  destruct g as [g|]; norm; run.
Qed.

Lemma enc_materials_destroy_plain_tr b g dk ek t :
  tr (mkc b false 0 :: ogfp g ++ bfp dk ++ afp efp ek ++ afp rfp t) (enc_materials_destroy (Some (mk_mmat b g dk ek t)))
     (fun _ => []) (fun _ => True).
Proof. unfold enc_materials_destroy; norm; proj; run. Qed.

(** The end of [try_gen_key]. *)
Lemma finish_gen_tr d sd e (s : msess) (ok : bool) F Q (G : msess * bool -> Prop) :
  Permutation F (Q (s, ok)) -> G (s, ok) ->
  tr (mkc d sd 0 :: omfp e ++ F)
     (match e with
      | None => ret tt
      | Some e => match e_dk e with None => ret tt | Some b => scrub b end;; enc_materials_destroy (Some e)
      end;;
      scrub d;; release_at PLocalKey d;; ret (s, ok)) Q G.
Proof.
  intros HQ HG. destruct e as [[b g dk ek t]|]; norm; proj.
  - apply tr_assoc. eapply tr_bind with (P0 := sfp dk) (Q0 := fun _ => bfp dk) (G0 := fun _ => True); [|spc|].
    { destruct dk; [apply scrub_tr|apply tr_ret; auto]. }
    intros ? _. norm. stp ltac:(apply enc_materials_destroy_plain_tr). stp spec. stp spec.
    apply tr_ret; assumption.
  - stp spec. stp spec. stp spec. apply tr_ret; assumption.
Qed.

Definition set_hdr (s : msess) (h : mhdr) : msess :=
  mk_msess (s_blk s) (s_cmm s) h (s_trace s) (s_sig s) (s_copy s) (s_stage s) (s_enc s) (s_keyed s).

Lemma try_gen_key_tr s c :
  may STransfer = false -> may SRaii = false -> spill PAesKey = true -> spill PRsaKey = true -> spill PKmsKey = true -> s_cmm s = Some c ->
  hdr_empty (s_hdr s) -> s_sig s = None -> s_copy s = None ->
  tr (wfp s) (try_gen_key s c) (fun r => wfp (fst r))
     (fun r => s_cmm (fst r) = Some c /\ s_enc (fst r) = s_enc s /\ (snd r = true -> s_stage (fst r) = GWriteHeader)).
Proof.
  intros N NR SA SR SK EC EH EG EY.
  destruct s as [b c' [iv tag mid suite ek x] t g copy stage enc keyed]. unfold hdr_empty in EH. cbn in EC, EH, EG, EY.
  destruct EH as (-> & -> & -> & -> & _). subst c' g copy.
  cbv beta iota zeta delta [try_gen_key h_iv h_tag h_mid h_suite h_edks h_ctx s_blk s_cmm s_hdr s_trace s_sig s_copy s_stage s_enc s_keyed
                            e_blk e_sig e_dk e_edks e_trace negb]. norm.
  stp spec. rename a into d.
  eapply tr_bind; [apply (generate_enc_materials_tr c 1 x N NR SA SR SK)|spc|]. intros [x1 e] _. norm. proj.
  Ltac fin d sd e := eapply tr_pre; [|apply (finish_gen_tr d sd e _ _ _ _ _ (Permutation_refl _)); cbn; repeat split; auto; try discriminate]; perm.
  destruct e as [[eb g dk ek' et]|]; norm; proj; [|fin d false (@None mmat)].
  stp spec. stp spec; [fin d false (Some (mk_mmat eb g dk ek' et))|].
  stp spec.
  eapply tr_bind; [apply (transfer_trace_tr t et N)|spc|]. intros [[t' et'] ok'] _. norm. proj.
  stp spec. stp spec; [|fin d true (Some (mk_mmat eb None dk ek' et'))].
  stp spec. stp spec; [fin d true (Some (mk_mmat eb None dk ek' et'))|].
  stp spec. stp spec. stp spec; [fin d true (Some (mk_mmat eb None dk ek' et'))|].
  eapply tr_bind; [apply build_header_tr with (h := mk_mhdr None None b0 None ek x1) (e := mk_mmat eb None dk ek' et'); reflexivity|spc|].
  intros [[h2 e2] ok2] _. norm. proj. destruct ok2; proj; [|fin d true (Some e2)].
  eapply tr_bind; [apply (sign_header_tr g)|spc|]. intros [copy ok3] _. norm. proj.
  destruct ok3; fin d true (Some e2).
Qed.

(** *** Decryption *)

Lemma list_free_unit_tr (l : alist unit) : tr (bfp (l_blk l)) (list_free l) (fun _ => []) (fun _ => True).
Proof. unfold list_free. run. Qed.
#[local] Hint Resolve list_free_unit_tr : mem.
Lemma fill_loop_tr n : forall l,
  tr (bfp (l_blk l)) (fill_loop l n) (fun o => match o with Some l => bfp (l_blk l) | None => [] end) (fun _ => True).
Proof.
  induction n as [|n IH]; intro l; cbn [fill_loop]; [run|].
  eapply tr_bind; [apply list_push_unit_tr|spc|]. intros [l'|] _; norm; [apply IH|run].
Qed.
Lemma fill_request_tr n :
  tr [] (fill_request n) (fun o => match o with Some l => bfp (l_blk l) | None => [] end) (fun _ => True).
Proof.
  unfold fill_request.
  eapply tr_bind; [apply (list_init_tr (fun _ : unit => []) 4)|spc|]. intros [[items cap blk]|] H; norm; [|run].
  destruct (H _ eq_refl) as [E _]. cbn in E. subst items. norm. apply (fill_loop_tr n (mkl [] cap blk)).
Qed.

Definition keep (s s' : msess) : Prop := s_cmm s' = s_cmm s /\ s_enc s' = s_enc s.

Lemma derive_data_key_tr s : spill PLocalKey = true ->
  tr [mkc (s_blk s) (s_keyed s) 0] (derive_data_key s) (fun r => [mkc (s_blk s) (fst r) 0]) (fun _ => True).
Proof.
  intro SL. unfold derive_data_key. stp spec. stp spec; [run|]. repeat stp ltac:(first [apply (release_at_tr may spill _ _ true 0); intros _; exact SL | spec]).
Qed.

Lemma unwrap_keys_tr s c :
  may STransfer = false -> spill PLocalKey = true -> s_cmm s = Some c -> s_sig s = None ->
  tr (wfp s) (unwrap_keys s c) (fun r => wfp (fst r))
     (fun r => keep s (fst r) /\ (snd r = true -> s_stage (fst r) = GDecryptBody)).
Proof.
  intros N SL EC EG. destruct s as [b c' h t g copy stage enc keyed]. cbn in EC, EG. subst c' g. unfold unwrap_keys, keep. norm. proj.
  stp spec. stp spec; [run|].
  stp ltac:(apply fill_request_tr). stp spec; [|run].
  eapply tr_bind; [apply (decrypt_materials_tr c 1)|spc|]. intros e EE. norm. proj.
  destruct e as [[eb g dk ek et]|]; norm; proj; [|run].
  destruct (EE _ eq_refl) as [EK _]. cbn in EK. subst ek.
  eapply tr_bind; [apply (transfer_trace_tr t et N)|spc|]. intros [[t' et'] ok'] _. norm. proj.
  stp spec. stp spec; [run|].
  eapply tr_bind; [apply (derive_data_key_tr (mk_msess b (Some c) h t' None copy stage enc keyed) SL)|spc|].
  intros [keyed' ok] _. norm. proj. destruct ok; proj; [|run].
  run. split; [auto|]. intros ->. reflexivity.
Qed.

Lemma try_parse_header_tr s c v1 n m :
  may STransfer = false -> may SParse = false -> spill PLocalKey = true -> s_cmm s = Some c -> s_sig s = None -> s_copy s = None ->
  tr (wfp s) (try_parse_header s c v1 n m) (fun r => wfp (fst r))
     (fun r => keep s (fst r) /\ (snd r = true -> s_stage (fst r) = s_stage s /\ s_sig (fst r) = None /\ s_copy (fst r) = None \/
                                                  s_stage (fst r) = GDecryptBody)).
Proof.
  intros N NP SL EC EG EY. destruct s as [b c' h t g copy stage enc keyed]. cbn in EC, EG, EY. subst c' g copy.
  unfold try_parse_header, keep. norm. proj.
  eapply tr_bind; [apply (hdr_parse_tr h v1 n m NP)|spc|]. intros [h' ok] _. norm. proj. destruct ok; proj.
  - stp spec. stp spec; [run|]. stp spec. stp spec; [|run].
    eapply tr_call; [apply (unwrap_keys_tr _ c N SL); reflexivity|spc|]. intros [s' ok] [[K1 K2] KS]. split; [perm|].
    cbn in *. auto.
  - run.
Qed.

Lemma write_trailer_tr s n : may SBigNum = false ->
  tr (wfp s) (write_trailer s n) (fun r => wfp (fst r))
     (fun r => keep s (fst r) /\ (s_stage (fst r) = s_stage s \/ s_stage (fst r) = GDone)).
Proof.
  intros N. destruct s as [b c h t g copy stage enc keyed]. unfold write_trailer, keep. norm. proj.
  destruct g as [g|]; norm; proj; [|run]. stp spec. stp spec; [run|].
  stp ltac:(apply (sign_finish_tr g n N)). run.
Qed.

Lemma check_trailer_tr s :
  tr (wfp s) (check_trailer s) (fun r => wfp (fst r))
     (fun r => keep s (fst r) /\ (s_stage (fst r) = s_stage s \/ s_stage (fst r) = GDone)).
Proof.
  destruct s as [b c h t g copy stage enc keyed]. unfold check_trailer, keep. norm. proj. run.
Qed.

Lemma body_tr s next :
  tr (wfp s) (body s next) (fun r => wfp (fst r))
     (fun r => keep s (fst r) /\ (s_stage (fst r) = s_stage s \/ s_stage (fst r) = next)).
Proof.
  destruct s as [b c h t g copy stage enc keyed]. unfold body, keep. norm. proj.
  stp spec. stp spec; [run|]. stp spec. stp spec; [|run]. stp spec. stp spec. stp spec. stp spec; [run|].
  destruct g as [g|]; norm; run.
  all: match goal with |- context [if ?x then _ else _] => destruct x end; run.
Qed.

(** What a session in each direction needs. *)
Definition dir_ok (enc : bool) : Prop :=
  if enc then may SRaii = false /\ spill PAesKey = true /\ spill PRsaKey = true /\ spill PKmsKey = true else spill PLocalKey = true.

Lemma set_stage_wfp s g : wfp (set_stage s g) = wfp s.
Proof. destruct s. reflexivity. Qed.
Lemma sinv_error s : sinv (set_stage s GError).
Proof. exact I. Qed.

Lemma process_round_tr s v1 n m t :
  may STransfer = false -> may SParse = false -> may SBigNum = false -> dir_ok (s_enc s) -> sinv s ->
  tr (wfp s) (process_round s v1 n m t) wfp (fun s' => sinv s' /\ keep s s').
Proof.
  intros NT NP NB D I. unfold process_round.
  eapply tr_bind with (P0 := wfp s) (Q0 := fun r : msess * bool => wfp (fst r))
    (G0 := fun r => keep s (fst r) /\ (snd r = true -> sinv (fst r))).
  - destruct s as [b [c|] h tr' g copy stage enc keyed]; cbn [s_stage s_cmm s_enc] in *;
      [|destruct stage; run; unfold keep; cbn; intuition discriminate].
    unfold sinv in I. cbn in I.
    destruct stage; cbn in I.
    + destruct enc; run. all: unfold keep, sinv; cbn; intuition.
    + destruct I as (I1 & I2 & I3 & ->). destruct D as (D1 & D2 & D3 & D4).
      eapply tr_call; [apply (try_gen_key_tr _ c NT D1 D2 D3 D4); auto|spc|]. intros [s' ok] (K1 & K2 & K3). cbn in K1, K2, K3.
      split; [perm|]. unfold keep. cbn. split; [auto|]. intro E. unfold sinv. rewrite (K3 E). exact Logic.I.
    + stp spec. match goal with |- context [if ?x then _ else _] => destruct x end; run. all: unfold keep, sinv; cbn; auto.
    + eapply tr_call; [apply body_tr|spc|]. intros [s' ok] [K1 K2]. cbn in K2. split; [perm|]. split; [exact K1|]. intros _.
      unfold sinv. cbn. destruct K2 as [-> | ->]; exact Logic.I.
    + eapply tr_call; [apply (write_trailer_tr _ t NB)|spc|]. intros [s' ok] [K1 K2]. cbn in K2. split; [perm|]. split; [exact K1|]. intros _.
      unfold sinv. cbn. destruct K2 as [-> | ->]; exact Logic.I.
    + destruct I as (I1 & I2 & ->).
      eapply tr_call; [apply (try_parse_header_tr _ c v1 n m NT NP D); auto|spc|]. intros [s' ok] [K1 K2]. cbn in K2.
      split; [perm|]. split; [exact K1|]. intro E. unfold sinv. cbn. cbn in E.
      destruct (K2 E) as [(-> & H1 & H2) | ->]; [|exact Logic.I]. destruct K1 as [_ K1]. cbn in K1. auto.
    + eapply tr_call; [apply body_tr|spc|]. intros [s' ok] [K1 K2]. cbn in K2. split; [perm|]. split; [exact K1|]. intros _.
      unfold sinv. cbn. destruct K2 as [-> | ->]; exact Logic.I.
    + eapply tr_call; [apply check_trailer_tr|spc|]. intros [s' ok] [K1 K2]. cbn in K2. split; [perm|]. split; [exact K1|]. intros _.
      unfold sinv. cbn. destruct K2 as [-> | ->]; exact Logic.I.
    + run. all: unfold keep, sinv; cbn; auto.
    + run. all: unfold keep, sinv; cbn; auto.
  - spc.
  - intros [s' ok] [K1 K2]. cbn in *. destruct ok.
    + run.
    + apply tr_ret; [rewrite set_stage_wfp; perm|]. split; [apply sinv_error|]. destruct s'. exact K1.
Qed.

Lemma add_context_tr s : sinv s -> tr (wfp s) (add_context s) wfp (fun s' => sinv s' /\ keep s s').
Proof.
  intro I. destruct s as [b c [iv tag mid suite ek x] t g copy stage enc keyed]. unfold add_context, keep. norm. proj.
  destruct stage; [|run..].
  stp spec. stp spec; [|run]. stp spec. stp spec; [|run].
  run.
Qed.

Definition op_ok (o : mop) : Prop := match o with OReset enc => dir_ok enc | _ => True end.

Lemma do_op_tr s o :
  may STransfer = false -> may SParse = false -> may SBigNum = false -> dir_ok (s_enc s) -> op_ok o -> sinv s ->
  tr (wfp s) (do_op s o) wfp (fun s' => sinv s' /\ s_cmm s' = s_cmm s /\ dir_ok (s_enc s')).
Proof.
  intros NT NP NB D O I. destruct o as [|v1 n m t|enc]; cbn [do_op].
  - eapply tr_call; [apply (add_context_tr _ I)|spc|]. intros s' [K [K1 K2]]. split; [perm|]. rewrite K2. auto.
  - eapply tr_call; [apply process_round_tr; auto|spc|]. intros s' [K [K1 K2]]. split; [perm|]. rewrite K2. auto.
  - eapply tr_bind; [apply session_reset_tr|spc|]. intros [s' ok] (K1 & K2 & _ & _ & _ & K3 & _). cbn in K1, K2, K3. norm. proj.
    apply tr_ret; [perm|]. rewrite K3. auto.
Qed.

Lemma do_ops_tr ops : may STransfer = false -> may SParse = false -> may SBigNum = false -> Forall op_ok ops ->
  forall s, dir_ok (s_enc s) -> sinv s ->
  tr (wfp s) (do_ops s ops) wfp (fun s' => sinv s' /\ s_cmm s' = s_cmm s /\ dir_ok (s_enc s')).
Proof.
  intros NT NP NB. induction 1 as [|o ops O _ IH]; intros s D I; cbn [do_ops].
  - apply tr_ret; auto.
  - eapply tr_bind; [apply (do_op_tr s o); auto|spc|]. intros s1 (I1 & K1 & D1). norm.
    eapply tr_call; [apply (IH s1 D1 I1)|spc|]. intros s2 (I2 & K2 & D2). split; [perm|]. rewrite K2. auto.
Qed.

Lemma do_ops_reset_tr e ops : may STransfer = false -> may SParse = false -> may SBigNum = false -> Forall op_ok ops ->
  forall s, dir_ok (s_enc s) -> sinv s ->
  tr (wfp s) (do_ops s (ops ++ [OReset e])) wfp (fun s' => s_cmm s' = s_cmm s /\ s_keyed s' = false).
Proof.
  intros NT NP NB. induction 1 as [|o ops O _ IH]; intros s D I; cbn [do_ops app].
  - cbn [do_op]. apply tr_assoc. eapply tr_bind; [apply session_reset_tr|spc|].
    intros [s' ok] (K1 & K2 & K3 & _). cbn in K1, K2, K3. norm. proj. apply tr_ret_bind. apply tr_ret; [perm|]. auto.
  - eapply tr_bind; [apply (do_op_tr s o); auto|spc|]. intros s1 (I1 & K1 & D1). norm.
    eapply tr_call; [apply (IH s1 D1 I1)|spc|]. intros s2 (K2 & K3). split; [perm|]. rewrite K2. auto.
Qed.

(** *** Keyrings made from a recipe, and how many private keys they hold *)

Lemma secrets_app a b : secrets (a ++ b) = secrets a + secrets b.
Proof. unfold secrets. rewrite filter_app, app_length. reflexivity. Qed.
Lemma secrets_bfp b : secrets (bfp b) = 0.
Proof. destruct b; reflexivity. Qed.
Lemma secrets_perm a b : Permutation a b -> secrets a = secrets b.
Proof.
  unfold secrets. induction 1 as [|x a b _ IH|x y a|a b c _ IH1 _ IH2]; cbn [filter]; auto; try congruence.
  - destruct (c_secret x); cbn [length]; congruence.
  - destruct (c_secret x), (c_secret y); reflexivity.
Qed.

Definition keys_all : list recipe -> nat :=
  fix go (l : list recipe) : nat := match l with [] => 0 | x :: r => keys x + go r end.

Lemma recipe_induct (P : recipe -> Prop) :
  P RAes -> (forall priv pub, P (RRsa priv pub)) -> (forall mrk n, P (RKms mrk n)) ->
  (forall gen kids, (forall g, gen = Some g -> P g) -> Forall P kids -> P (RMulti gen kids)) ->
  forall k, P k.
Proof.
  intros H1 H2 H4 H3. fix IH 1. intros [|priv pub|mrk n|gen kids].
  - apply H1.
  - apply H2.
  - apply H4.
  - apply H3.
    + intros g E. destruct gen as [g'|]; [|discriminate]. injection E as <-. apply IH.
    + induction kids as [|x l IHl]; constructor; [apply IH|exact IHl].
Qed.

Definition holds (n : nat) (o : option mkr) : Prop := forall k, o = Some k -> secrets (kfp 1 k) = n.

Ltac count := intros k [= <-]; cbn; unfold secrets; cbn; fold (secrets); rewrite ?filter_app, ?app_length; cbn;
  repeat match goal with |- context [filter c_secret (bfp ?b)] => is_var b; destruct b; cbn end; reflexivity.

Lemma raw_aes_keyring_holds : tr [] raw_aes_keyring_new (okfp 1) (holds 1).
Proof. unfold raw_aes_keyring_new, holds. run. count. Qed.
Lemma raw_rsa_keyring_holds priv pub : may SPem = false ->
  tr [] (raw_rsa_keyring_new priv pub) (okfp 1) (holds (if priv then 1 else 0)).
Proof. intro N. unfold raw_rsa_keyring_new, holds. run. all: count. Qed.

Lemma kms_keyring_holds mrk n : tr [] (kms_keyring_new mrk n) (okfp 1) (holds 0).
Proof. unfold kms_keyring_new, holds. run. count. Qed.

Definition add_all : list recipe -> mkr -> M (option mkr) :=
  fix go (l : list recipe) (k : mkr) : M (option mkr) :=
    match l with
    | [] => ret (Some k)
    | x :: r =>
        let* c := build x in
        match c with
        | None => kr_release k;; ret None
        | Some c => let* '(k, ok) := multi_keyring_add_child k c in
                    kr_release c;;
                    if ok then go r k else kr_release k;; ret None
        end
    end.

Lemma secrets_multi b gen kids cap lb :
  secrets (kfp 1 (MMulti b gen kids cap lb)) = secrets (kfps kids) + secrets (ogkfp gen).
Proof. rewrite kfp_multi. change (mkc b false 1 :: ?l) with ([mkc b false 1] ++ l). rewrite !secrets_app, secrets_bfp. cbn. lia. Qed.

Lemma add_all_tr l : may SChild = false -> Forall (fun r => tr [] (build r) (okfp 1) (holds (keys r))) l ->
  forall b gen kids cap lb,
  tr (kfp 1 (MMulti b gen kids cap lb)) (add_all l (MMulti b gen kids cap lb)) (okfp 1)
     (holds (secrets (kfp 1 (MMulti b gen kids cap lb)) + keys_all l)).
Proof.
  intro N. induction 1 as [|x l Hx _ IH]; intros b gen kids cap lb; cbn [add_all].
  - apply tr_ret; [reflexivity|]. intros k [= <-]. cbn [keys_all]. lia.
  - eapply tr_bind; [exact Hx|apply sp_nil|]. intros [c|] Hc.
    + specialize (Hc _ eq_refl). cbn [okfp].
      eapply tr_pre; [|apply (multi_keyring_add_child_tr b gen kids cap lb c (add_all l) _ _ [] N)].
      * rewrite app_nil_r. apply Permutation_app_comm.
      * intros cap' lb'. rewrite app_nil_r. eapply tr_call; [apply IH|apply sp_atom, tk_all|].
        intros o Ho. rewrite app_nil_r. split; [reflexivity|]. intros k E. rewrite (Ho k E), !secrets_multi, kfps_app, secrets_app.
        cbn [kfps keys_all]. rewrite app_nil_r, Hc. fold keys_all. lia.
    + cbn [okfp app]. eapply tr_bind; [apply kr_release_last_tr|apply sp_atom, tk_all|]. intros ? _. apply tr_ret; [reflexivity|].
      discriminate.
Qed.

Lemma build_tr r : may SPem = false -> may SChild = false -> tr [] (build r) (okfp 1) (holds (keys r)).
Proof.
  intros NP NC. induction r as [|priv pub|mrk n|gen kids IG IK] using recipe_induct; cbn [build keys].
  - apply raw_aes_keyring_holds.
  - apply (raw_rsa_keyring_holds priv pub NP).
  - apply kms_keyring_holds.
  - fold add_all. fold keys_all.
    eapply tr_bind with (P0 := []) (Q0 := fun o => match o with Some g => okfp 1 g | None => [] end)
      (G0 := fun o => forall g, o = Some g -> secrets (okfp 1 g) = match gen with None => 0 | Some g => keys g end);
      [|apply sp_nil|].
    + destruct gen as [g|]; [|apply tr_ret; [reflexivity|]; intros g [= <-]; reflexivity].
      eapply tr_bind; [apply (IG g eq_refl)|apply sp_nil|]. intros [k|] Hk; (apply tr_ret; [cbn; rewrite ?app_nil_r; reflexivity|]).
      * intros g' [= <-]. exact (Hk _ eq_refl).
      * discriminate.
    + intros [g|] Hg; [|apply tr_ret; [reflexivity|discriminate]]. specialize (Hg _ eq_refl).
      eapply tr_bind; [apply (multi_keyring_new_tr g 0)|rewrite app_nil_r; apply sp_atom, tk_all|]. intros o Ho. norm.
      eapply tr_bind with (P0 := match o with Some _ => okfp 2 g | None => okfp 1 g end)
        (Q0 := fun _ => match o with Some _ => okfp 1 g | None => [] end) (G0 := fun _ => True)
        (F := match o with Some k => match k with MMulti b _ kids _ lb => mkc b false 1 :: kfps kids ++ bfp lb ++ []
              | _ => [] end | None => [] end).
      * destruct g as [g|]; cbn [okfp].
        -- destruct o; [apply kr_release_more_tr|apply kr_release_last_tr].
        -- destruct o; apply tr_ret; auto.
      * destruct o as [k|]; [|apply sp_atom, tk_all].
        destruct (Ho _ eq_refl) as (b & cap & lb & ->). cbn [kfps]. cbn. sp.
      * intros ? _. destruct o as [k|]; [|apply tr_ret; [reflexivity|discriminate]].
        destruct (Ho _ eq_refl) as (b & cap & lb & ->).
        eapply tr_pre; [|eapply tr_call; [apply (add_all_tr kids NC IK b g [] cap lb)|apply sp_atom, tk_all|]].
        -- rewrite kfp_multi. cbn. destruct g; cbn; perm.
        -- intros o Hk. rewrite app_nil_r. split; [reflexivity|]. intros k E. rewrite (Hk k E), secrets_multi. cbn [kfps].
           rewrite <- Hg. destruct g; cbn; lia.
Qed.

(** *** Lives *)

Lemma secrets_flat {A} (f : A -> list cell) l : (forall x, secrets (f x) = 0) -> secrets (flat_map f l) = 0.
Proof. intro H. induction l as [|x l IH]; cbn [flat_map]; [reflexivity|]. rewrite secrets_app, H, IH. reflexivity. Qed.
Lemma secrets_cons c l : secrets (c :: l) = (if c_secret c then 1 else 0) + secrets l.
Proof. unfold secrets. cbn [filter]. destruct (c_secret c); reflexivity. Qed.
Lemma secrets_kfp n m k : secrets (kfp n k) = secrets (kfp m k).
Proof. destruct k; reflexivity. Qed.
Lemma secrets_gfp g : secrets (ogfp g) = 0.
Proof. destruct g as [[c md p set k]|]; [|reflexivity]. cbn [ogfp gfp]. rewrite secrets_cons, !secrets_app, !secrets_bfp. destruct k; reflexivity. Qed.
Lemma secrets_afp {A} (f : A -> list cell) l : (forall x, secrets (f x) = 0) -> secrets (afp f l) = 0.
Proof. intro H. destruct l. cbn [afp]. rewrite secrets_app, secrets_flat, secrets_bfp; auto. Qed.
Lemma secrets_efp e : secrets (efp e) = 0.
Proof. destruct e. cbn [efp]. rewrite !secrets_app, !secrets_bfp. reflexivity. Qed.
Lemma secrets_rfp e : secrets (rfp e) = 0.
Proof. destruct e. cbn [rfp]. rewrite !secrets_app, !secrets_bfp. reflexivity. Qed.
Lemma secrets_elfp e : secrets (elfp e) = 0.
Proof. destruct e. cbn [elfp]. rewrite !secrets_app, !secrets_bfp. reflexivity. Qed.
Lemma secrets_hfp h : secrets (hfp h) = 0.
Proof.
  destruct h as [iv tag mid suite ek [tab l]]. cbn [hfp xfp]. rewrite !secrets_app, !secrets_bfp, secrets_cons, secrets_afp, secrets_flat;
    auto using secrets_efp, secrets_elfp.
Qed.
Lemma secrets_wfp s c : s_cmm s = Some c ->
  secrets (wfp s) = secrets (kfp 1 (d_kr c)) + if s_keyed s then 1 else 0.
Proof.
  destruct s as [b c' h t g copy stage e keyed], c as [cb k]. cbn [s_cmm s_keyed d_kr]. intros ->. cbn [wfp ocfp cfp].
  rewrite secrets_cons, !secrets_app, secrets_cons, secrets_hfp, secrets_gfp, secrets_bfp, secrets_afp by (apply secrets_rfp).
  cbn. lia.
Qed.

Lemma cmm_release_more_tr c n : tr (cfp (S (S n)) c) (cmm_release c) (fun _ => cfp (S n) c) (fun _ => True).
Proof.
  destruct c as [b k]. unfold cmm_release. norm. proj. eapply tr_bind; [apply unref_tr|spc|]. intros ? ->. norm. cbn [Nat.eqb]. run.
Qed.

Definition owfp (s : option msess) : list cell := match s with None => [] | Some s => wfp s end.

Lemma start_tr via enc k :
  tr (kfp 1 k) (start via enc k) owfp
     (fun o => forall s, o = Some s -> sinv s /\ (exists c, s_cmm s = Some c /\ d_kr c = k) /\ s_enc s = enc /\ s_keyed s = false).
Proof.
  unfold start. destruct via.
  - eapply tr_bind; [apply (default_cmm_new_tr k 0)|apply sp_atom, tk_all|]. intros [c|] Hc; norm; proj.
    + specialize (Hc _ eq_refl). destruct c as [cb ck]. cbn in Hc. subst ck. proj.
      stp ltac:(apply kr_release_more_tr).
      eapply tr_bind; [apply (session_new_from_cmm_tr enc (mk_mcmm cb k) 0)|spc|]. intros o Ho.
      destruct o as [s|].
      * destruct (Ho _ eq_refl) as (I & EC & EE & EK). destruct s as [b c h t g copy stage e keyed]. cbn in EC, EE, EK. subst. norm. proj.
        eapply tr_bind; [apply (cmm_release_more_tr (mk_mcmm cb k) 0)|spc|]. intros ? _. norm.
        apply tr_ret; [perm|]. intros s [= <-]. cbn. eauto 10.
      * norm. eapply tr_bind; [apply (cmm_release_tr (mk_mcmm cb k))|spc|]. intros ? _. norm. apply tr_ret; [reflexivity|discriminate].
    + stp ltac:(apply kr_release_last_tr). apply tr_ret; [reflexivity|discriminate].
  - eapply tr_bind; [apply (session_new_from_keyring_tr enc k 0)|apply sp_atom, tk_all|]. intros [s|] Hs; rewrite app_nil_r.
    + destruct (Hs _ eq_refl) as (I & ([cb ck] & EC & EK) & EE & ED). destruct s as [b c h t g copy stage e keyed]. cbn in EC, EK, EE, ED.
      subst. norm. stp ltac:(apply kr_release_more_tr). apply tr_ret; [perm|]. intros s [= <-]. cbn. eauto 10.
    + stp ltac:(apply kr_release_last_tr). apply tr_ret; [reflexivity|discriminate].
Qed.

Lemma use_tr r via enc ops :
  may STransfer = false -> may SParse = false -> may SBigNum = false -> may SPem = false -> may SChild = false ->
  dir_ok enc -> Forall op_ok ops ->
  tr [] (use r via enc ops) owfp
     (fun o => forall s, o = Some s -> secrets (wfp s) <= keys r + 1 /\ (rested ops -> secrets (wfp s) = keys r)).
Proof.
  intros NT NPa NB NPe NC D O. unfold use.
  eapply tr_bind; [apply (build_tr r NPe NC)|apply sp_nil|]. intros [k|] Hk; [|apply tr_ret; [reflexivity|discriminate]].
  specialize (Hk _ eq_refl). cbn [okfp]. rewrite app_nil_r.
  eapply tr_bind; [apply (start_tr via enc k)|apply sp_atom, tk_all|]. intros [s|] Hs; rewrite app_nil_r;
    [|apply tr_ret; [reflexivity|discriminate]].
  destruct (Hs _ eq_refl) as (I & (c & EC & EK) & EE & ED). cbn [owfp]. rewrite <- EE in D.
  assert (HR : tr (wfp s) (do_ops s ops) wfp (fun s' => s_cmm s' = s_cmm s /\ (rested ops -> s_keyed s' = false))).
  { assert (HN : forall s', (fun s' => sinv s' /\ s_cmm s' = s_cmm s /\ dir_ok (s_enc s')) s' -> ~ rested ops ->
                            s_cmm s' = s_cmm s /\ (rested ops -> s_keyed s' = false)) by tauto.
    destruct ops as [|o l _] using rev_ind.
    - cbn [do_ops]. apply tr_ret; auto.
    - apply Forall_app in O. destruct O as [O1 _]. destruct o as [|v1 n m t|e].
      + eapply tr_call; [apply (do_ops_tr (l ++ [OContext]) NT NPa NB)|apply sp_atom, tk_all|]; auto.
        * apply Forall_app. split; [assumption|repeat constructor].
        * intros s' Hs'. rewrite app_nil_r. split; [reflexivity|]. apply HN; [exact Hs'|].
          intros [E|(b & e & E)]; [destruct l; discriminate|]. apply app_inj_tail in E. destruct E. discriminate.
      + eapply tr_call; [apply (do_ops_tr (l ++ [ORound v1 n m t]) NT NPa NB)|apply sp_atom, tk_all|]; auto.
        * apply Forall_app. split; [assumption|repeat constructor].
        * intros s' Hs'. rewrite app_nil_r. split; [reflexivity|]. apply HN; [exact Hs'|].
          intros [E|(b & e & E)]; [destruct l; discriminate|]. apply app_inj_tail in E. destruct E. discriminate.
      + eapply tr_call; [apply (do_ops_reset_tr e l NT NPa NB O1)|apply sp_atom, tk_all|]; auto.
        intros s' [H1 H2]. rewrite app_nil_r. auto. }
  eapply tr_bind; [exact HR|apply sp_atom, tk_all|].
  intros s2 (K2 & K3). rewrite app_nil_r. apply tr_ret; [reflexivity|]. intros s3 [= <-].
  rewrite (secrets_wfp s2 c) by congruence. rewrite EK, Hk. split.
  - destruct (s_keyed s2); lia.
  - intro R. rewrite (K3 R). lia.
Qed.

Lemma life_tr r via enc ops :
  may STransfer = false -> may SParse = false -> may SBigNum = false -> may SPem = false -> may SChild = false ->
  dir_ok enc -> Forall op_ok ops -> tr [] (life r via enc ops) (fun _ => []) (fun _ => True).
Proof.
  intros NT NPa NB NPe NC D O. unfold life.
  eapply tr_bind; [apply (use_tr r via enc ops); assumption|apply sp_nil|]. intros [s|] _; cbn [owfp]; rewrite app_nil_r.
  - apply session_destroy_tr.
  - apply tr_ret; auto.
Qed.

(** *** The caching CMM *)

Lemma partition_id_tr named : tr [] (partition_id named) (fun o => bfp o) (fun _ => True).
Proof. unfold partition_id. run. Qed.

Definition qfp (up : mcmm) (n : nat) (cache : nat) (m : nat) (o : option mcach) : list cell :=
  match o with
  | Some q => [mkc (q_blk q) false 1; mkc (q_part q) false 0; mkc (d_blk up) false (S (S n)); mkc cache false (S (S m))]
  | None => [mkc (d_blk up) false (S n); mkc cache false (S m)]
  end.

Lemma caching_cmm_new_from_cmm_tr cache up named n m : may SPart = false ->
  tr [mkc (d_blk up) false (S n); mkc cache false (S m)] (caching_cmm_new_from_cmm cache up named) (qfp up n cache m)
     (fun o => forall q, o = Some q -> q_up q = up /\ q_cache q = cache).
Proof.
  intro N. unfold caching_cmm_new_from_cmm, qfp. stp spec. stp spec; [run|].
  stp ltac:(apply partition_id_tr). stp spec; [|run]. stp spec. stp spec. stp spec. run. intros q [= <-]. cbn. auto.
Qed.

Lemma caching_cmm_new_from_keyring_tr cache k named n m : may SPart = false ->
  tr (kfp (S n) k ++ [mkc cache false (S m)]) (caching_cmm_new_from_keyring cache k named)
     (fun o => match o with
               | Some q => mkc (q_blk q) false 1 :: mkc (q_part q) false 0 :: mkc (d_blk (q_up q)) false 1 ::
                           kfp (S (S n)) k ++ [mkc cache false (S (S m))]
               | None => kfp (S n) k ++ [mkc cache false (S m)]
               end)
     (fun o => forall q, o = Some q -> d_kr (q_up q) = k /\ q_cache q = cache).
Proof.
  intro N. unfold caching_cmm_new_from_keyring.
  eapply tr_bind; [apply (default_cmm_new_tr k n)|spc|]. intros [u|] Hu; norm; [|run].
  specialize (Hu _ eq_refl). destruct u as [ub uk]. cbn in Hu. subst uk. proj.
  eapply tr_bind; [apply (caching_cmm_new_from_cmm_tr cache (mk_mcmm ub k) named 0 m N)|spc|]. intros [q|] Hq; cbn [qfp]; norm; proj.
  - destruct (Hq _ eq_refl) as [E1 E2]. destruct q as [qb qu qc qp]. cbn in E1, E2. subst. proj.
    unfold cmm_release. proj. apply tr_assoc. eapply tr_bind; [apply unref_tr|spc|]. intros ? ->. norm. cbn [Nat.eqb].
    run. intros q [= <-]. cbn. auto.
  - stp ltac:(apply cmm_release_shared_tr). run.
Qed.

Lemma caching_release_tr b p c cache m :
  tr (mkc b false 1 :: mkc p false 0 :: cfp 1 c ++ [mkc cache false (S (S m))]) (caching_release (mk_mcach b c cache p))
     (fun _ => [mkc cache false (S m)]) (fun _ => True).
Proof.
  unfold caching_release, cache_unref. proj. eapply tr_bind; [apply unref_tr|spc|]. intros ? ->. norm. cbn [Nat.eqb].
  stp spec. apply tr_assoc. eapply tr_bind; [apply unref_tr|spc|]. intros ? ->. norm. run.
Qed.

Lemma caching_life_tr r named : may SPem = false -> may SChild = false -> may SPart = false ->
  tr [] (caching_life r named) (fun _ => []) (fun _ => True).
Proof.
  intros NP NC NS. unfold caching_life, cache_release_last.
  eapply tr_bind; [apply (build_tr r NP NC)|apply sp_nil|]. intros [k|] _; cbn [okfp]; rewrite app_nil_r; [|apply tr_ret; auto].
  stp spec. stp spec; [|eapply tr_call; [apply kr_release_last_tr|spc|]; auto].
  stp spec.
  eapply tr_bind; [apply (caching_cmm_new_from_keyring_tr n k named 0 0 NS)|spc|]. intros [q|] Hq; norm; proj.
  - destruct (Hq _ eq_refl) as [E1 E2]. destruct q as [qb [ub uk] qc qp]. cbn in E1, E2. subst. norm. proj.
    stp ltac:(apply kr_release_more_tr).
    eapply tr_bind; [apply (caching_release_tr qb qp (mk_mcmm ub k) n 0)|spc|]. intros ? _. norm.
    eapply tr_bind; [apply unref_tr|spc|]. intros ? ->. norm. cbn [Nat.eqb]. run.
  - stp ltac:(apply kr_release_last_tr). stp spec. eapply tr_bind; [apply unref_tr|spc|]. intros ? ->. norm. cbn [Nat.eqb]. run.
Qed.

End Specs.
