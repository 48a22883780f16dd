(** Usage limits of the caching CMM (C36): proofs. *)
From Verif Require Import Base BaseProofs EncCtxModel HdrModel CryptoModel SessionModel KeyringModel
  WireSpec CacheModel CacheSpec CacheProofs CacheTheorems CachingModel CachingSpec CachingProofs.
From Coq Require Import Permutation ZArith Lia ZifyBool ZifyNat ZifyN.
Import List ListNotations.
Open Scope list_scope. Open Scope N_scope.

(** * Where a call is between the usage check and the release *)

Inductive uphase :=
| UOut
| UChecked (p : nat)
| UBytes (p : nat) (s : N)
| UBoth (p : nat) (s n : N).

Definition ustep (f : uphase) (x : xop * resp) : uphase :=
  match x with
  | (XCache (KCheck p), RBool true) => UChecked p
  | (XCache (KAddBytes p _), RNum s) => UBytes p s
  | (XCache (KAddMsgs p _), RNum n) => match f with UBytes _ s => UBoth p s n | _ => UOut end
  | (XCache (KRelease _ _), _) => UOut
  | _ => f
  end.
Definition phase (t : list (xop * resp)) : uphase := fold_left ustep t UOut.
Lemma phase_snoc : forall t x, phase (t ++ [x]) = ustep (phase t) x.
Proof. intros. unfold phase. rewrite fold_left_app. reflexivity. Qed.

Definition uptr (f : uphase) : option nat :=
  match f with UOut => None | UChecked p => Some p | UBytes p _ => Some p | UBoth p _ _ => Some p end.

(** The values the two additions returned to a call. *)
Definition added_step (is_add : cop -> option (nat * N)) (a : option (nat * N)) (x : xop * resp)
  : option (nat * N) :=
  match x with
  | (XCache o, RNum s) => match is_add o with Some (p, _) => Some (p, s) | None => a end
  | _ => a
  end.
Definition added (is_add : cop -> option (nat * N)) (t : list (xop * resp)) : option (nat * N) :=
  fold_left (added_step is_add) t None.
Lemma added_snoc : forall f t x, added f (t ++ [x]) = added_step f (added f t) x.
Proof. intros. unfold added. rewrite fold_left_app. reflexivity. Qed.

Definition add_b (o : cop) : option (nat * N) := match o with KAddBytes p n => Some (p, n) | _ => None end.
Definition add_m (o : cop) : option (nat * N) := match o with KAddMsgs p n => Some (p, n) | _ => None end.

Definition usage_rule (j : job) (t : list (xop * resp)) (o : xop) : Prop :=
  (forall p, uptr (phase t) = Some p -> holding t = Some p) /\
  match o with
  | XCache (KFind _) => phase t = UOut
  | XCache (KPutDec _ _) => phase t = UOut
  | XCache (KCheck p) => phase t = UOut
  | XCache (KAddBytes p k) => exists m rq, j = GenJob m rq /\ phase t = UChecked p
      /\ k = rq_psize rq /\ k <= cm_limit_bytes m /\ added add_b t = None
  | XCache (KAddMsgs p k) => exists m rq s, j = GenJob m rq /\ phase t = UBytes p s /\ k = 1
      /\ added add_m t = None
  | XCache (KGetEnc p _) => exists m rq s n, j = GenJob m rq /\ added add_b t = Some (p, s)
      /\ added add_m t = Some (p, n) /\ s <= cm_limit_bytes m /\ n <= cm_limit_msgs m
  | XCache (KRelease p b) =>
      match phase t with
      | UOut => True
      | UBoth q s n => q = p /\ (b = false -> exists m rq, j = GenJob m rq /\ s <= cm_limit_bytes m
                                                           /\ n <= cm_limit_msgs m)
      | _ => False
      end
  | XCache (KPutEnc _ b n _ _) => phase t = UOut /\ exists m rq, j = GenJob m rq /\ b = rq_psize rq
      /\ b <= cm_limit_bytes m /\ n = 1
  | _ => True
  end.
Definition usage_end (t : list (xop * resp)) (_ : jres) : Prop := phase t = UOut.

Ltac usage_leaf :=
  first [ exact Logic.I | reflexivity | assumption
        | match goal with
          | H : (?a <? ?b) = false |- ?b <= ?a => now apply N.ltb_ge
          | H : ((?a <? ?b) || _)%bool = false |- ?b <= ?a =>
              apply Bool.orb_false_iff in H; destruct H; now apply N.ltb_ge
          | H : (_ || (?a <? ?b))%bool = false |- ?b <= ?a =>
              apply Bool.orb_false_iff in H; destruct H; now apply N.ltb_ge
          | |- exists m rq, GenJob _ _ = _ /\ _ => do 2 eexists; split; [reflexivity|]; usage_leaf
          | |- exists m rq s, GenJob _ _ = _ /\ _ => do 3 eexists; split; [reflexivity|]; usage_leaf
          | |- exists m rq s n, GenJob _ _ = _ /\ _ => do 4 eexists; split; [reflexivity|]; usage_leaf
          | |- _ /\ _ => split; usage_leaf
          | |- _ -> _ => intros; (discriminate || usage_leaf)
          end ].
Ltac usage_A := split; [ intros ? HU; cbn in HU; (discriminate || (injection HU as <-; reflexivity))
                       | cbn [phase fold_left ustep]; usage_leaf ].
Ltac usage_F := reflexivity.

Lemma gen_usage : forall sha m rq, obeys (usage_rule (GenJob m rq)) usage_end [] (gen_prog sha m rq).
Proof.
  intros. unfold gen_prog, gen_hit, gen_miss, check_ttl, set_ttl_on_miss, update_usage, release_opt.
  cbv zeta. sx usage_A usage_F.
Qed.

Lemma dec_usage : forall sha m rq, obeys (usage_rule (DecJob m rq)) usage_end [] (dec_prog sha m rq).
Proof.
  intros. unfold dec_prog, dec_miss, check_ttl, set_ttl_on_miss, release_opt.
  cbv zeta. sx usage_A usage_F.
Qed.

Lemma job_usage : forall sha j, obeys (usage_rule j) usage_end [] (prog_of sha j).
Proof.
  intros sha [m rq|m rq|]; cbn [prog_of].
  - apply gen_usage.
  - apply dec_usage.
  - sx usage_A usage_F.
Qed.

(** * One usage counter *)


Definition pos_fun := uphase -> option (nat * N).

(** Sum of the amounts of a list of calls. *)
Definition sum_of (amount : nat -> N) (l : list nat) : N := fold_right (fun j a => amount j + a) 0 l.
Lemma sum_of_app : forall f a b, sum_of f (a ++ b) = sum_of f a + sum_of f b.
Proof.
  induction a as [|x a IH]; intros; [reflexivity|]. unfold sum_of in *. cbn [app fold_right]. rewrite IH. lia.
Qed.

Lemma NoDup_app_intro : forall {A} (a b : list A), NoDup a -> NoDup b ->
  (forall x, In x a -> In x b -> False) -> NoDup (a ++ b).
Proof.
  induction a as [|x a IH]; intros b Na Nb D; auto. inversion Na; subst. cbn. constructor.
  - intros J. apply in_app_or in J. destruct J; eauto using in_eq.
  - apply IH; auto. intros. eapply D; eauto. now right.
Qed.

Section Counter.
  Variables (io : sigio) (sha : list N -> list N) (cap : N) (jobs : nat -> job).
  (** The counter, the amount of a put, the operation that adds, and the position of a call: it will add
      ([pend]), it has added and got the value ([val]). *)
  Variables (cnt : centry -> N) (sel : N -> N -> N) (is_add : cop -> option (nat * N)).
  Variables (val : uphase -> option (nat * N)) (pend : uphase -> option nat).
  Variables (amount : nat -> N) (X I : N) (K : nat).

  Hypothesis evo : forall o p e e', evolved o p e e' -> cnt e' =
    match is_add o with
    | Some (q, k) => if Nat.eqb q p then add64 (cnt e) k else cnt e
    | None => cnt e
    end.
  Hypothesis put_cnt : forall m ub um ctx id e, put_content io (KPutEnc m ub um ctx id) e -> cnt e = sel ub um.
  Hypothesis put_cnt0 : forall m id e, put_content io (KPutDec m id) e -> cnt e = 0.
  Hypothesis put_le : forall j t m ub um ctx id, usage_rule (jobs j) t (XCache (KPutEnc m ub um ctx id)) ->
    sel ub um <= X.
  Hypothesis add_rule : forall j t o p k, usage_rule (jobs j) t (XCache o) -> is_add o = Some (p, k) ->
    uses o = Some p /\ k = amount j /\ k <= I /\ pend (phase t) = Some p /\ val (phase t) = None
    /\ added is_add t = None
    /\ forall s, pend (ustep (phase t) (XCache o, RNum s)) = None
                 /\ val (ustep (phase t) (XCache o, RNum s)) = Some (p, s).
  Hypothesis add_fits : forall o p k r, is_add o = Some (p, k) -> fits (XCache o) r -> exists s, r = RNum s.
  Hypothesis check_rule : forall j t p, usage_rule (jobs j) t (XCache (KCheck p)) ->
    pend (phase t) = None /\ val (phase t) = None
    /\ pend (UChecked p) = Some p /\ val (UChecked p) = None /\ is_add (KCheck p) = None.
  Hypothesis rel_rule : forall j t p b, usage_rule (jobs j) t (XCache (KRelease p b)) ->
    pend (phase t) = None /\ (forall q s, val (phase t) = Some (q, s) -> q = p /\ (b = false -> s <= X))
    /\ is_add (KRelease p b) = None.
  Hypothesis out_rule : pend UOut = None /\ val UOut = None.
  Hypothesis quiet_rule : forall j t o r, usage_rule (jobs j) t o -> fits o r ->
    (match o with XCache o' => is_add o' = None | _ => True end) ->
    (forall p, o <> XCache (KCheck p)) -> (forall p b, o <> XCache (KRelease p b)) ->
    pend (ustep (phase t) (o, r)) = pend (phase t) /\ val (ustep (phase t) (o, r)) = val (phase t).
  Hypothesis pos_ptr : (forall f p, pend f = Some p -> uptr f = Some p)
    /\ (forall f p s, val f = Some (p, s) -> uptr f = Some p).
  Hypothesis pend_val : forall f p, pend f = Some p -> val f = None.
  Hypothesis add_result : forall o p k ch c c' s e, is_add o = Some (p, k) -> c_store c p = Some e ->
    cstep io ch o c = Some (c', RNum s) -> exists e', c_store c' p = Some e' /\ cnt e' = s.
  Hypothesis room : X + N.of_nat K * I < two64.

  Definition pend_of (h : list event) (j : nat) := pend (phase (trace j h)).
  Definition val_of (h : list event) (j : nat) := val (phase (trace j h)).
  Definition added_of (h : list event) (j : nat) := added is_add (trace j h).

  (** Calls [l] added one after the other, starting from value [b], giving [v]. *)
  Fixpoint chain (h : list event) (p : nat) (b : N) (l : list nat) (v : N) : Prop :=
    match l with
    | [] => v = b
    | j :: l' => exists s, val_of h j = Some (p, s) /\ s = b + amount j /\ amount j <= I /\ chain h p s l' v
    end.

  Definition started_at (h : list event) (p : nat) (b0 : N) : Prop :=
    exists j m ub um ctx id ch, In (mk_ev j (XCache (KPutEnc m ub um ctx id)) (RPut (Some p)) ch) h
      /\ b0 = sel ub um.
  Definition all_added (h : list event) (p : nat) (l : list nat) : Prop :=
    NoDup l /\ forall j, In j l -> exists s, added_of h j = Some (p, s).

  Definition live_ok (h : list event) (p : nat) (v : N) : Prop :=
    exists b l, b <= X /\ NoDup l /\ chain h p b l v.
  Definition dead_ok (h : list event) (p : nat) (v : N) : Prop :=
    forall l, NoDup l -> (forall j, In j l -> pend_of h j = Some p) ->
      v + Nlen l * I <= X + N.of_nat K * I.

  Record uinv (h : list event) (c : cache) : Prop := mk_uinv {
    u_live : forall p e, c_store c p = Some e -> ce_zombie e = false -> live_ok h p (cnt e);
    u_dead : forall p e, c_store c p = Some e -> ce_zombie e = true -> dead_ok h p (cnt e);
    u_sum : forall p e b0 l, c_store c p = Some e -> started_at h p b0 -> all_added h p l ->
        b0 + sum_of amount l <= cnt e;
    u_last : forall p b0 l, started_at h p b0 -> all_added h p l -> l <> [] ->
        exists j s, In j l /\ added_of h j = Some (p, s) /\ b0 + sum_of amount l <= s;
    u_ptr : forall j p s, added_of h j = Some (p, s) -> (p < c_next c)%nat;
    u_start : forall p b0, started_at h p b0 -> (p < c_next c)%nat;
  }.

  Lemma chain_val : forall h p l b v, chain h p b l v -> forall j, In j l -> exists s, val_of h j = Some (p, s).
  Proof.
    intros h p l. induction l as [|i l IH]; intros b v C j [].
    - subst. destruct C as (s & V & _). eauto.
    - destruct C as (s & _ & _ & _ & C). eauto.
  Qed.

  Lemma chain_le : forall h p l b v, chain h p b l v -> b <= v /\ v <= b + Nlen l * I.
  Proof.
    intros h p l. induction l as [|i l IH]; intros b v C.
    - cbn in C. subst. rewrite Nlen_nil. lia.
    - destruct C as (s & _ & E & A & C). apply IH in C. rewrite Nlen_cons. nia.
  Qed.

  Lemma chain_ext : forall h h' p l b v, chain h p b l v ->
    (forall j, In j l -> val_of h' j = val_of h j) -> chain h' p b l v.
  Proof.
    intros h h' p l. induction l as [|i l IH]; intros b v C E; [exact C|].
    destruct C as (s & V & ES & A & C). exists s. rewrite E by (now left).
    split; [exact V|]. split; [exact ES|]. split; [exact A|]. apply IH; auto. intros. apply E. now right.
  Qed.

  Lemma chain_snoc : forall h p l b v j, chain h p b l v -> val_of h j = Some (p, v + amount j) ->
    amount j <= I -> chain h p b (l ++ [j]) (v + amount j).
  Proof.
    intros h p l. induction l as [|i l IH]; intros b v j C V A.
    - cbn in C. subst v. cbn [app chain]. exists (b + amount j). auto.
    - destruct C as (s & V' & ES & A' & C). cbn [app chain]. exists s. auto 10.
  Qed.

  (** Cut a chain after call [j]. *)
  Lemma chain_cut : forall h p l1 j l2 b v, chain h p b (l1 ++ j :: l2) v ->
    exists s, val_of h j = Some (p, s) /\ chain h p s l2 v.
  Proof.
    intros h p l1. induction l1 as [|i l1 IH]; intros j l2 b v C.
    - destruct C as (s & V & _ & _ & C). eauto.
    - destruct C as (s & _ & _ & _ & C). eauto.
  Qed.

  (** The calls between check and release are in progress. *)
  Lemma positioned_open : forall h c j, exec io sha locks cap jobs h c -> uptr (phase (trace j h)) <> None ->
    in_progress sha jobs h j /\ exists p, uptr (phase (trace j h)) = Some p /\ holding (trace j h) = Some p.
  Proof.
    intros h c j E U. destruct (exec_follows _ _ _ _ _ _ _ E j) as (p & F).
    pose proof (exec_obeys _ _ _ _ _ _ _ _ _ _ E (job_usage sha (jobs j)) _ F) as OB.
    destruct p as [r|o k].
    - exfalso. apply U. cbn [obeys] in OB. unfold usage_end in OB. rewrite OB. reflexivity.
    - destruct OB as ((H & _) & _). destruct (uptr (phase (trace j h))) as [p|] eqn:EP; [|contradiction].
      split.
      + split; [|eauto]. intros Q. rewrite Q in EP. discriminate.
      + eauto.
  Qed.

  Lemma holder_store : forall h c j p, exec io sha locks cap jobs h c -> holding (trace j h) = Some p ->
    exists e, c_store c p = Some e.
  Proof.
    intros h c j p E H. destruct (exec_tokens _ _ _ _ _ _ _ E) as (LG & T & ND & HT & CT).
    pose proof (exec_cok _ _ _ _ _ _ _ E) as (IV & _).
    destruct (c_store c p) as [e|] eqn:S; [eauto|]. exfalso.
    pose proof (i_none _ _ _ IV _ S) as Z. unfold outstanding in Z. apply HT in H.
    assert (J : In p (map snd T)) by (change p with (snd (j, p)); now apply in_map).
    apply (count_occ_In Nat.eq_dec) in J. specialize (CT p). lia.
  Qed.

  Lemma live_room : forall h c p v l2, exec io sha locks cap jobs h c -> overlap_at_most K sha jobs h ->
    live_ok h p v -> NoDup l2 -> (forall j, In j l2 -> pend_of h j = Some p /\ val_of h j = None) ->
    v + Nlen l2 * I <= X + N.of_nat K * I.
  Proof.
    intros h c p v l2 E OV (b & l & B & ND & C) ND2 H2.
    assert (LEN : (length (l ++ l2) <= K)%nat).
    { apply (OV h [] (l ++ l2)); [now rewrite app_nil_r| |].
      - apply NoDup_app_intro; auto. intros j J1 J2. destruct (chain_val _ _ _ _ _ C _ J1) as (s & V).
        destruct (H2 _ J2) as (_ & V2). congruence.
      - intros j J. eapply positioned_open; eauto. apply in_app_or in J. destruct J as [J|J].
        + destruct (chain_val _ _ _ _ _ C _ J) as (s & V). unfold val_of in V. apply (proj2 pos_ptr) in V. congruence.
        + destruct (H2 _ J) as (V & _). unfold pend_of in V. apply (proj1 pos_ptr) in V. congruence. }
    destruct (chain_le _ _ _ _ _ C) as (_ & LE). rewrite app_length in LEN. unfold Nlen in *.
    assert (N.of_nat (length l) + N.of_nat (length l2) <= N.of_nat K) by lia. nia.
  Qed.

  Lemma val_of_other : forall h j o r ch i, i <> j -> val_of (h ++ [mk_ev j o r ch]) i = val_of h i.
  Proof. intros. unfold val_of. now rewrite trace_snoc_other. Qed.
  Lemma pend_of_other : forall h j o r ch i, i <> j -> pend_of (h ++ [mk_ev j o r ch]) i = pend_of h i.
  Proof. intros. unfold pend_of. now rewrite trace_snoc_other. Qed.
  Lemma added_of_other : forall h j o r ch i, i <> j -> added_of (h ++ [mk_ev j o r ch]) i = added_of h i.
  Proof. intros. unfold added_of. now rewrite trace_snoc_other. Qed.

  (** Position of the stepping call and of the others after one interaction. *)
  Lemma pos_step : forall h c j o k r (ch : choice), exec io sha locks cap jobs h c ->
    follows (prog_of sha (jobs j)) (trace j h) (Do o k) -> fits o r ->
    usage_rule (jobs j) (trace j h) o.
  Proof.
    intros h c j o k r ch E FO FT.
    destruct (exec_obeys _ _ _ _ _ _ _ _ _ _ E (job_usage sha (jobs j)) _ FO) as (H & _). exact H.
  Qed.

  Lemma started_snoc : forall h j o r ch p b0, started_at (h ++ [mk_ev j o r ch]) p b0 ->
    started_at h p b0 \/ exists m ub um ctx id, o = XCache (KPutEnc m ub um ctx id) /\ r = RPut (Some p)
                                               /\ b0 = sel ub um.
  Proof.
    intros h j o r ch p b0 (j' & m & ub & um & ctx & id & ch' & J & E).
    apply in_app_or in J. destruct J as [J|[J|[]]].
    - left. exists j', m, ub, um, ctx, id, ch'. auto.
    - right. injection J as <- -> -> <-. eauto 10.
  Qed.

  Lemma added_quiet : forall h j o r ch i,
    (match o with XCache o' => is_add o' = None | _ => True end) ->
    added_of (h ++ [mk_ev j o r ch]) i = added_of h i.
  Proof.
    intros h j o r ch i Q. destruct (Nat.eq_dec i j) as [->|D]; [|now apply added_of_other].
    unfold added_of. rewrite trace_snoc_same, added_snoc. unfold added_step.
    destruct o; auto. destruct r; auto. now rewrite Q.
  Qed.

  (** An interaction that does not add: the counters keep their values. *)
  Lemma uinv_quiet : forall h c j o k ch c' r, exec io sha locks cap jobs h c -> uinv h c ->
    follows (prog_of sha (jobs j)) (trace j h) (Do o k) -> locks ch -> answers io ch o c c' r ->
    overlap_at_most K sha jobs h -> overlap_at_most K sha jobs (h ++ [mk_ev j o r ch]) ->
    (match o with XCache o' => is_add o' = None | _ => True end) ->
    uinv (h ++ [mk_ev j o r ch]) c'.
  Proof.
    intros h c j o k ch c' r E U FO LK AN OV OV' NA.
    assert (E' : exec io sha locks cap jobs (h ++ [mk_ev j o r ch]) c') by (eapply exec_step; eauto).
    assert (FT : fits o r) by (eapply answers_fits; eauto).
    pose proof (pos_step _ _ _ _ _ _ ch E FO FT) as UR.
    pose proof (exec_cok _ _ _ _ _ _ _ E') as (IV' & _).
    pose proof (exec_cok _ _ _ _ _ _ _ E) as (IV & _).
    (* old entries keep their counter *)
    assert (OLD : forall p e', c_store c' p = Some e' ->
       (exists e, c_store c p = Some e /\ cnt e' = cnt e /\ (ce_zombie e = true -> ce_zombie e' = true))
       \/ (p = c_next c /\ ce_zombie e' = false /\ c_next c' = S p /\ r = RPut (Some p)
           /\ exists o', o = XCache o' /\ put_content io o' e')).
    { intros p e' S'. destruct o as [o| | | |]; cbn [answers] in AN;
        try (destruct AN as (-> & _); left; exists e'; auto).
      pose proof (exec_facts _ _ _ _ _ _ _ _ _ _ _ _ _ E FO AN) as F.
      destruct (Nat.lt_ge_cases p (c_next c)) as [L|L].
      - destruct (sf_old _ _ _ _ _ F p e' L S') as (e & S & EV). left. exists e. split; [exact S|].
        rewrite (evo _ _ _ _ EV), NA. split; [reflexivity|]. apply EV.
      - destruct (sf_new _ _ _ _ _ F p e' L S') as (-> & R & PC). right.
        destruct (sf_put _ _ _ _ _ F _ R) as (_ & NX & _).
        split; [reflexivity|]. split; [apply PC|]. eauto 10. }
    assert (PTR : forall i p, uptr (phase (trace i h)) = Some p -> (p < c_next c)%nat).
    { intros i p U0. destruct (positioned_open h c i E) as (_ & q & U1 & HO); [congruence|].
      assert (q = p) by congruence. subst q. destruct (holder_store _ _ _ _ E HO) as (e & S).
      eapply lt_next; eauto. }
    (* positions: unchanged, or a check, or a release *)
    assert (POS : (pend_of (h ++ [mk_ev j o r ch]) j = pend_of h j /\ val_of (h ++ [mk_ev j o r ch]) j = val_of h j)
       \/ (exists p, o = XCache (KCheck p) /\ r = RBool true /\ pend_of h j = None /\ val_of h j = None
            /\ pend_of (h ++ [mk_ev j o r ch]) j = Some p /\ val_of (h ++ [mk_ev j o r ch]) j = None)
       \/ (exists p b, o = XCache (KRelease p b) /\ pend_of h j = None
            /\ (forall q s, val_of h j = Some (q, s) -> q = p /\ (b = false -> s <= X))
            /\ pend_of (h ++ [mk_ev j o r ch]) j = None /\ val_of (h ++ [mk_ev j o r ch]) j = None)).
    { unfold pend_of, val_of. rewrite !trace_snoc_same, !phase_snoc.
      assert (DEC : (exists p, o = XCache (KCheck p)) \/ (exists p b, o = XCache (KRelease p b))
                    \/ ((forall p, o <> XCache (KCheck p)) /\ forall p b, o <> XCache (KRelease p b))).
      { destruct o as [o| | | |]; [destruct o|..]; eauto;
        right; right; split; intros; discriminate. }
      destruct DEC as [(p & ->)|[(p & b & ->)|(D1 & D2)]].
      - destruct (check_rule _ _ _ UR) as (A & B & C & D & _).
        destruct r; cbn [fits] in FT; try contradiction. destruct b.
        + right. left. exists p. cbn [ustep]. auto 10.
        + left. cbn [ustep]. auto.
      - destruct (rel_rule _ _ _ _ UR) as (A & B & _). right. right. exists p, b.
        destruct out_rule as (O1 & O2). destruct r; cbn [fits] in FT; try contradiction; cbn [ustep]; auto 10.
      - left. eapply quiet_rule; eauto. }
    assert (PENDV : forall i p, pend_of (h ++ [mk_ev j o r ch]) i = Some p ->
       val_of (h ++ [mk_ev j o r ch]) i = None -> True) by auto. clear PENDV.
    constructor.
    - (* live *)
      intros p e' S' Z'. destruct (OLD p e' S') as [(e & S & CE & ZE)|(-> & _ & NX & RP & o' & -> & PC)].
      + assert (Z : ce_zombie e = false) by (destruct (ce_zombie e); auto; rewrite ZE in Z'; auto).
        rewrite CE. destruct (u_live _ _ U p e S Z) as (b & l & B & ND & C).
        assert (OTH : forall i, In i l -> i <> j -> val_of (h ++ [mk_ev j o r ch]) i = val_of h i)
          by (intros; now apply val_of_other).
        destruct POS as [(_ & PV)|[(q & -> & -> & _ & VN & _ & _)|(q & b0 & -> & _ & VR & _ & VN')]].
        * exists b, l. split; [exact B|]. split; [exact ND|]. eapply chain_ext; eauto.
          intros i J. destruct (Nat.eq_dec i j) as [->|D]; auto.
        * exists b, l. split; [exact B|]. split; [exact ND|]. eapply chain_ext; eauto.
          intros i J. destruct (Nat.eq_dec i j) as [->|D]; auto. exfalso.
          destruct (chain_val _ _ _ _ _ C _ J) as (s & V). congruence.
        * destruct (in_dec Nat.eq_dec j l) as [J|J].
          -- apply in_split in J. destruct J as (l1 & l2 & ->).
             destruct (chain_cut _ _ _ _ _ _ _ C) as (s & V & C2). destruct (VR _ _ V) as (-> & BF).
             assert (b0 = false).
             { destruct b0; auto. exfalso. cbn [answers] in AN.
               (* an invalidating release leaves no live entry *)
               assert (RU : r = RUnit).
               { cbn [cstep] in AN. rewrite S, Z in AN. cbn [andb negb] in AN. unfold locks in LK. rewrite LK in AN.
                 cbn [negb] in AN. destruct (locked_release q true c); [|discriminate]. congruence. }
               subst r.
               pose proof (exec_runs _ _ _ _ _ _ _ E') as R'. pose proof (exec_legal _ _ _ _ _ _ _ E') as L'.
               rewrite cache_ops_snoc in R', L'. cbn [ev_op ev_resp] in R', L'.
               apply (invalidated_dead _ _ _ _ _ _ R' L' (ce_id e')).
               apply (i_live _ _ _ IV'); auto. discriminate. }
             subst b0. exists s, l2. split; [auto|].
             split. { apply NoDup_remove_1 in ND. clear -ND. induction l1; cbn in ND; auto. inversion ND; auto. }
             eapply chain_ext; eauto. intros i J. apply val_of_other. intros ->.
             apply NoDup_remove_2 in ND. apply ND, in_or_app. auto.
          -- exists b, l. split; [exact B|]. split; [exact ND|]. eapply chain_ext; eauto.
             intros i J2. apply OTH; auto. intros ->. contradiction.
      + exists (cnt e'), []. split; [|split; [constructor|reflexivity]].
        destruct o' as [| m ub um ctx id | m id | | | | | | | | | |]; try (exfalso; now destruct PC as (_ & _ & PC)).
        * rewrite (put_cnt _ _ _ _ _ _ PC). eapply put_le; eauto.
        * rewrite (put_cnt0 _ _ _ PC). lia.
    - (* dead *)
      intros p e' S' Z' l ND H.
      destruct (OLD p e' S') as [(e & S & CE & ZE)|(_ & ZF & _)]; [|congruence]. rewrite CE.
      destruct (ce_zombie e) eqn:Z.
      + apply (u_dead _ _ U p e S Z l ND). intros i J. specialize (H i J).
        destruct (Nat.eq_dec i j) as [->|D].
        * destruct POS as [(PP & _)|[(q & -> & -> & _ & _ & PP & _)|(q & b0 & -> & _ & _ & PP & _)]].
          -- congruence.
          -- exfalso. assert (q = p) by congruence. subst q. cbn [answers cstep] in AN. rewrite S, Z in AN.
             cbn [negb andb] in AN. discriminate.
          -- congruence.
        * rewrite pend_of_other in H; auto.
      + (* it has just left the cache *)
        apply (live_room h c p (cnt e) l); auto. { apply (u_live _ _ U p e S Z). }
        intros i J. specialize (H i J). assert (PI : pend_of h i = Some p).
        { destruct (Nat.eq_dec i j) as [->|D].
          - destruct POS as [(PP & _)|[(q & -> & -> & _ & _ & PP & _)|(q & b0 & -> & _ & _ & PP & _)]].
            + congruence.
            + exfalso. cbn [answers cstep] in AN. destruct (c_store c q) as [e0|] eqn:SQ; [|discriminate].
              assert (c' = c) by congruence. congruence.
            + congruence.
          - rewrite pend_of_other in H; auto. }
        split; [exact PI|]. unfold pend_of, val_of in *. eapply pend_val; eauto.
    - (* sums *)
      intros p e' b0 l S' ST (ND & AL).
      assert (AL0 : all_added h p l).
      { split; [exact ND|]. intros i J. destruct (AL i J) as (s & V). rewrite added_quiet in V by exact NA. eauto. }
      destruct (OLD p e' S') as [(e & S & CE & _)|(-> & _ & NX & RP & o' & -> & PC)].
      + rewrite CE. destruct (started_snoc _ _ _ _ _ _ _ ST) as [ST0|(m & ub & um & ctx & id & -> & -> & ->)].
        * eapply (u_sum _ _ U); eauto.
        * exfalso. cbn [answers] in AN. pose proof (exec_facts _ _ _ _ _ _ _ _ _ _ _ _ _ E FO AN) as F.
          destruct (sf_put _ _ _ _ _ F _ eq_refl) as (-> & _ & _). apply (lt_next _ _ _ _ _ IV) in S. lia.
      + assert (l = []).
        { destruct l as [|i l]; auto. destruct AL0 as (_ & AL0). destruct (AL0 i (or_introl eq_refl)) as (s & V).
          apply (u_ptr _ _ U) in V. lia. }
        subst l. change (sum_of amount []) with 0.
        destruct (started_snoc _ _ _ _ _ _ _ ST) as [ST0|(m & ub & um & ctx & id & Q & _ & ->)].
        * exfalso. apply (u_start _ _ U) in ST0. lia.
        * assert (o' = KPutEnc m ub um ctx id) by congruence. subst o'. rewrite (put_cnt _ _ _ _ _ _ PC). lia.
    - (* last *)
      intros p b0 l ST (ND & AL) NE.
      assert (AL0 : all_added h p l).
      { split; [exact ND|]. intros i J. destruct (AL i J) as (s & V). rewrite added_quiet in V by exact NA. eauto. }
      destruct (started_snoc _ _ _ _ _ _ _ ST) as [ST0|(m & ub & um & ctx & id & -> & -> & ->)].
      + destruct (u_last _ _ U p b0 l ST0 AL0 NE) as (i & s & J & V & L). exists i, s.
        split; [exact J|]. split; [|exact L]. now rewrite added_quiet.
      + exfalso. cbn [answers] in AN. pose proof (exec_facts _ _ _ _ _ _ _ _ _ _ _ _ _ E FO AN) as F.
        destruct (sf_put _ _ _ _ _ F _ eq_refl) as (-> & _ & _).
        destruct l as [|i l]; auto. destruct AL0 as (_ & AL0). destruct (AL0 i (or_introl eq_refl)) as (s & V).
        apply (u_ptr _ _ U) in V. lia.
    - intros i p s V. rewrite added_quiet in V by exact NA. apply (u_ptr _ _ U) in V.
      destruct o as [o| | | |]; cbn [answers] in AN; try (destruct AN as (-> & _); exact V).
      pose proof (exec_facts _ _ _ _ _ _ _ _ _ _ _ _ _ E FO AN) as F. pose proof (sf_next _ _ _ _ _ F). lia.
    - intros p b0 ST. destruct (started_snoc _ _ _ _ _ _ _ ST) as [ST0|(m & ub & um & ctx & id & -> & -> & ->)].
      + apply (u_start _ _ U) in ST0.
        destruct o as [o| | | |]; cbn [answers] in AN; try (destruct AN as (-> & _); exact ST0).
        pose proof (exec_facts _ _ _ _ _ _ _ _ _ _ _ _ _ E FO AN) as F. pose proof (sf_next _ _ _ _ _ F). lia.
      + cbn [answers] in AN. pose proof (exec_facts _ _ _ _ _ _ _ _ _ _ _ _ _ E FO AN) as F.
        destruct (sf_put _ _ _ _ _ F _ eq_refl) as (-> & -> & _). lia.
  Qed.

  (** An addition. *)
  Lemma uinv_add : forall h c j o k ch c' r p n, exec io sha locks cap jobs h c -> uinv h c ->
    follows (prog_of sha (jobs j)) (trace j h) (Do (XCache o) k) -> locks ch ->
    cstep io ch o c = Some (c', r) ->
    overlap_at_most K sha jobs h ->
    is_add o = Some (p, n) ->
    uinv (h ++ [mk_ev j (XCache o) r ch]) c'.
  Proof.
    intros h c j o k ch c' r p n E U FO LK AN OV AD.
    assert (FT : fits (XCache o) r) by (eapply cstep_fits; eauto).
    pose proof (pos_step _ _ _ _ _ _ ch E FO FT) as UR.
    destruct (add_rule _ _ _ _ _ UR AD) as (US & -> & LI & PN & VN & AN0 & AFTER).
    destruct (add_fits _ _ _ _ AD FT) as (s & ->). destruct (AFTER s) as (PN' & VN').
    pose proof (exec_cok _ _ _ _ _ _ _ E) as (IV & _).
    pose proof (exec_facts _ _ _ _ _ _ _ _ _ _ _ _ _ E FO AN) as F.
    set (h' := h ++ [mk_ev j (XCache o) (RNum s) ch]).
    assert (PJ : pend_of h' j = None) by (unfold pend_of, h'; now rewrite trace_snoc_same, phase_snoc).
    assert (VJ : val_of h' j = Some (p, s)) by (unfold val_of, h'; now rewrite trace_snoc_same, phase_snoc).
    assert (AJ : added_of h' j = Some (p, s)).
    { unfold added_of, h'. rewrite trace_snoc_same, added_snoc. cbn [added_step]. now rewrite AD. }
    assert (VO : forall i, i <> j -> val_of h' i = val_of h i) by (intros; now apply val_of_other).
    assert (PO : forall i, i <> j -> pend_of h' i = pend_of h i) by (intros; now apply pend_of_other).
    assert (AO : forall i, i <> j -> added_of h' i = added_of h i) by (intros; now apply added_of_other).
    assert (NOPUT : (forall q, RNum s <> RPut q)) by discriminate.
    assert (ST : forall q b0, started_at h' q b0 -> started_at h q b0).
    { intros q b0 ST. destruct (started_snoc _ _ _ _ _ _ _ ST) as [H|(m & ub & um & ctx & id & _ & Q & _)]; auto.
      discriminate. }
    (* the store *)
    assert (OLD : forall q e', c_store c' q = Some e' -> exists e, c_store c q = Some e
       /\ (ce_zombie e = true -> ce_zombie e' = true)
       /\ cnt e' = (if Nat.eqb p q then add64 (cnt e) (amount j) else cnt e)).
    { intros q e' S'. destruct (Nat.lt_ge_cases q (c_next c)) as [L|L].
      - destruct (sf_old _ _ _ _ _ F q e' L S') as (e & S & EV). exists e. split; [exact S|].
        split; [apply EV|]. rewrite (evo _ _ _ _ EV), AD. reflexivity.
      - destruct (sf_new _ _ _ _ _ F q e' L S') as (_ & R & _). discriminate. }
    assert (ROOM : forall e, c_store c p = Some e -> cnt e + amount j <= X + N.of_nat K * I).
    { intros e S. assert (H1 : cnt e + Nlen [j] * I <= X + N.of_nat K * I).
      { destruct (ce_zombie e) eqn:Z.
        - apply (u_dead _ _ U p e S Z); [repeat constructor; intros []|]. intros i [<-|[]]. exact PN.
        - apply (live_room h c p); auto. { apply (u_live _ _ U p e S Z). } { repeat constructor; intros []. }
          intros i [<-|[]]. split; [exact PN|exact VN]. }
      change (Nlen [j]) with 1 in H1. lia. }
    assert (SUM : forall e, c_store c p = Some e -> s = cnt e + amount j
                  /\ exists e', c_store c' p = Some e' /\ cnt e' = s).
    { intros e S. pose proof (ROOM e S) as R. assert (AW : add64 (cnt e) (amount j) = cnt e + amount j).
      { unfold add64. apply N.mod_small. lia. }
      destruct (add_result _ _ _ _ _ _ _ _ AD S AN) as (e' & S' & RS). split.
      - destruct (OLD p e' S') as (e0 & S0 & _ & CE). rewrite Nat.eqb_refl in CE. congruence.
      - eauto. }
    assert (HS : exists e, c_store c p = Some e).
    { destruct (positioned_open h c j E) as (_ & q & U1 & HO).
      - unfold pend_of in PN. apply (proj1 pos_ptr) in PN. congruence.
      - apply (proj1 pos_ptr) in PN. assert (q = p) by congruence. subst q. eapply holder_store; eauto. }
    destruct HS as (ep & SP). destruct (SUM ep SP) as (ES & _ & _ & _).
    assert (SPLIT : forall q l, all_added h' q l -> (~ In j l /\ all_added h q l) \/
       (q = p /\ exists l1 l2, l = l1 ++ j :: l2 /\ all_added h q (l1 ++ l2))).
    { intros q l (ND & AL). destruct (in_dec Nat.eq_dec j l) as [J|J].
      - right. split. { destruct (AL j J) as (s' & V). congruence. }
        apply in_split in J. destruct J as (l1 & l2 & ->). exists l1, l2. split; [reflexivity|].
        pose proof (NoDup_remove_2 _ _ _ ND) as NJ. apply NoDup_remove_1 in ND. split; [exact ND|].
        intros i JI. destruct (AL i) as (s' & V). { apply in_app_or in JI. apply in_or_app. cbn. tauto. }
        exists s'. rewrite <- AO; auto. intros ->. contradiction.
      - left. split; [exact J|]. split; [exact ND|]. intros i JI. destruct (AL i JI) as (s' & V). exists s'.
        rewrite <- AO; auto. intros ->. contradiction. }
    assert (SUMJ : forall l1 l2, sum_of amount (l1 ++ j :: l2) = sum_of amount (l1 ++ l2) + amount j).
    { intros. rewrite !sum_of_app. unfold sum_of. cbn [fold_right]. lia. }
    constructor.
    - intros q e' S' Z'. destruct (OLD q e' S') as (e & S & ZE & CE).
      assert (Z : ce_zombie e = false) by (destruct (ce_zombie e); auto; rewrite ZE in Z'; auto).
      destruct (u_live _ _ U q e S Z) as (b & l & B & ND & C).
      assert (NJ : ~ In j l). { intros J. destruct (chain_val _ _ _ _ _ C _ J) as (s' & V). unfold val_of in V. congruence. }
      assert (C' : chain h' q b l (cnt e)).
      { eapply chain_ext; eauto. intros i J. apply VO. intros ->. contradiction. }
      destruct (Nat.eqb_spec p q) as [<-|D].
      + exists b, (l ++ [j]). split; [exact B|].
        split. { apply NoDup_app_intro; auto; [repeat constructor; intros []|]. intros x J [<-|[]]. contradiction. }
        assert (e = ep) by congruence. subst e.
        assert (EQ : cnt e' = cnt ep + amount j).
        { rewrite CE. unfold add64. apply N.mod_small. specialize (ROOM ep SP). lia. }
        rewrite EQ. apply chain_snoc; auto. rewrite VJ. now rewrite ES.
      + rewrite CE. exists b, l. auto.
    - intros q e' S' Z' l ND H. destruct (OLD q e' S') as (e & S & ZE & CE).
      assert (NJ : ~ In j l). { intros J. specialize (H j J). congruence. }
      assert (H0 : forall i, In i l -> pend_of h i = Some q).
      { intros i J. rewrite <- PO; auto. intros ->. contradiction. }
      destruct (Nat.eqb_spec p q) as [<-|D].
      + assert (e = ep) by congruence. subst e.
        assert (EQ : cnt e' = cnt ep + amount j).
        { rewrite CE. unfold add64. apply N.mod_small. specialize (ROOM ep SP). lia. }
        rewrite EQ. assert (B : cnt ep + Nlen (j :: l) * I <= X + N.of_nat K * I).
        { assert (NDJ : NoDup (j :: l)) by (constructor; auto).
          assert (HJ : forall i, In i (j :: l) -> pend_of h i = Some p) by (intros i [<-|J]; auto).
          destruct (ce_zombie ep) eqn:Z.
          - apply (u_dead _ _ U p ep SP Z); auto.
          - apply (live_room h c p); auto. { apply (u_live _ _ U p ep SP Z). }
            intros i J. split; auto. specialize (HJ i J). unfold pend_of in HJ. unfold val_of. eapply pend_val; eauto. }
        rewrite Nlen_cons in B. nia.
      + rewrite CE. destruct (ce_zombie e) eqn:Z.
        * apply (u_dead _ _ U q e S Z l ND H0).
        * apply (live_room h c q); auto. { apply (u_live _ _ U q e S Z). }
          intros i J. split; auto. specialize (H0 i J). unfold pend_of in H0. unfold val_of. eapply pend_val; eauto.
    - intros q e' b0 l S' SA AL. apply ST in SA. destruct (OLD q e' S') as (e & S & ZE & CE).
      destruct (SPLIT q l AL) as [(NJ & AL0)|(-> & l1 & l2 & -> & AL0)].
      + pose proof (u_sum _ _ U q e b0 l S SA AL0) as LE. rewrite CE. destruct (Nat.eqb_spec p q) as [<-|D]; auto.
        assert (e = ep) by congruence. subst e. unfold add64. rewrite N.mod_small; [lia|].
        specialize (ROOM ep SP). lia.
      + assert (e = ep) by congruence. subst e. pose proof (u_sum _ _ U p ep b0 _ S SA AL0) as LE.
        rewrite SUMJ, CE, Nat.eqb_refl. unfold add64. rewrite N.mod_small; [lia|].
        specialize (ROOM ep SP). lia.
    - intros q b0 l SA AL NE. apply ST in SA. destruct (SPLIT q l AL) as [(NJ & AL0)|(-> & l1 & l2 & -> & AL0)].
      + destruct (u_last _ _ U q b0 l SA AL0 NE) as (i & s' & J & V & LE). exists i, s'. split; [exact J|].
        split; [|exact LE]. rewrite AO; auto. intros ->. contradiction.
      + pose proof (u_sum _ _ U p ep b0 _ SP SA AL0) as LE. exists j, s.
        split; [apply in_or_app; cbn; auto|]. split; [exact AJ|]. rewrite SUMJ, ES. lia.
    - intros i q s' V. pose proof (sf_next _ _ _ _ _ F). destruct (Nat.eq_dec i j) as [->|D].
      + assert (q = p) by congruence. subst q. apply (lt_next _ _ _ _ _ IV) in SP. lia.
      + rewrite AO in V by auto. apply (u_ptr _ _ U) in V. lia.
    - intros q b0 SA. apply ST in SA. apply (u_start _ _ U) in SA. pose proof (sf_next _ _ _ _ _ F). lia.
  Qed.

  Lemma exec_uinv : forall h c, exec io sha locks cap jobs h c -> overlap_at_most K sha jobs h -> uinv h c.
  Proof.
    intros h c E. induction E as [|h c j o k ch c' r E IH FO PC AN]; intros OV.
    - constructor; cbn; try discriminate.
      + intros p b0 l (j & m & ub & um & ctx & id & ch & [] & _).
      + intros p b0 (j & m & ub & um & ctx & id & ch & [] & _).
    - assert (OV0 : overlap_at_most K sha jobs h).
      { intros h1 h2 l EQ. apply (OV h1 (h2 ++ [mk_ev j o r ch])). now rewrite EQ, app_assoc. }
      specialize (IH OV0). destruct o as [o| | | |]; try (eapply uinv_quiet; eauto; exact Logic.I).
      destruct (is_add o) as [[p n]|] eqn:AD.
      + eapply uinv_add; eauto.
      + eapply uinv_quiet; eauto.
  Qed.
End Counter.

(** * The two counters *)

Definition val_b (f : uphase) : option (nat * N) :=
  match f with UBytes p s => Some (p, s) | UBoth p s _ => Some (p, s) | _ => None end.
Definition pend_b (f : uphase) : option nat := match f with UChecked p => Some p | _ => None end.
Definition val_m (f : uphase) : option (nat * N) := match f with UBoth p _ n => Some (p, n) | _ => None end.
Definition pend_m (f : uphase) : option nat :=
  match f with UChecked p => Some p | UBytes p _ => Some p | _ => None end.

Ltac rule_cases UR :=
  repeat match type of UR with
  | exists _, _ => let x := fresh "x" in destruct UR as (x & UR)
  | _ /\ _ => let H := fresh "HR" in destruct UR as (H & UR)
  end.

Lemma bytes_inv : forall io sha cap jobs h c K B M,
  exec io sha locks cap jobs h c -> overlap_at_most K sha jobs h -> within_limits jobs B M ->
  B + N.of_nat K * B < two64 ->
  uinv ce_bytes (fun b _ => b) add_b val_b pend_b (fun j => size_of (jobs j)) B B K h c.
Proof.
  intros io sha cap jobs h c K B M E OV W ROOM.
  eapply (exec_uinv io sha cap jobs); try exact E; try exact OV; try exact ROOM.
  - intros o p e e' (_ & _ & _ & _ & H & _). rewrite H. destruct o; reflexivity.
  - intros m ub um ctx id e (_ & _ & _ & _ & H & _). exact H.
  - intros m id e (_ & _ & _ & _ & H & _). exact H.
  - intros j t m ub um ctx id (_ & _ & m0 & rq & EJ & -> & L & _). destruct (W _ _ _ EJ). lia.
  - intros j t o p k UR AD. destruct o; try discriminate. cbn [add_b] in AD. injection AD as -> ->.
    destruct UR as (_ & m0 & rq & EJ & PH & -> & L & AN). rewrite EJ, PH. destruct (W _ _ _ EJ).
    cbn [size_of pend_b val_b]. repeat split; auto. lia.
  - intros o p k r AD FT. destruct o; try discriminate. destruct r; try contradiction. eauto.
  - intros j t p (_ & PH). rewrite PH. repeat split.
  - intros j t p b (_ & UR). destruct (phase t) eqn:PH; try contradiction; repeat split; try discriminate; cbn [val_b].
    + destruct UR as (-> & _). cbn in H. congruence.
    + intros ->. destruct UR as (_ & UR). destruct (UR eq_refl) as (m0 & rq & EJ & L & _). destruct (W _ _ _ EJ).
      assert (s0 = s) by (cbn in H; congruence). subst. lia.
  - split; reflexivity.
  - intros j t o r (_ & UR) FT NA NC NR. destruct o as [o| | | |]; [|split; reflexivity..].
    destruct o; cbn [add_b] in NA; try discriminate; cbn [ustep]; try (split; reflexivity);
      try (exfalso; eapply NC; reflexivity); try (exfalso; eapply NR; reflexivity).
    destruct UR as (m0 & rq & s & EJ & PH & _). rewrite PH. destruct r; try contradiction. split; reflexivity.
  - split.
    + intros [|?|? ?|? ? ?] q; cbn; congruence.
    + intros [|?|? ?|? ? ?] q s'; cbn; congruence.
  - intros [|?|? ?|? ? ?] q; cbn; congruence.
  - intros o p k ch c1 c2 s e AD S ST. destruct o; try discriminate. cbn [add_b] in AD. injection AD as -> ->.
    cbn [cstep] in ST. rewrite S in ST. injection ST as <- <-. eexists. split.
    + cbn. rewrite upd_same. reflexivity.
    + reflexivity.
Qed.

Lemma msgs_inv : forall io sha cap jobs h c K B M,
  exec io sha locks cap jobs h c -> overlap_at_most K sha jobs h -> within_limits jobs B M -> 1 <= M ->
  M + N.of_nat K * 1 < two64 ->
  uinv ce_msgs (fun _ n => n) add_m val_m pend_m (fun _ => 1) M 1 K h c.
Proof.
  intros io sha cap jobs h c K B M E OV W M1 ROOM.
  eapply (exec_uinv io sha cap jobs); try exact E; try exact OV; try exact ROOM.
  - intros o p e e' (_ & _ & _ & _ & _ & H & _). rewrite H. destruct o; reflexivity.
  - intros m ub um ctx id e (_ & _ & _ & _ & _ & H). exact H.
  - intros m id e (_ & _ & _ & _ & _ & H). exact H.
  - intros j t m ub um ctx id (_ & _ & m0 & rq & EJ & -> & L & ->). lia.
  - intros j t o p k UR AD. destruct o; try discriminate. cbn [add_m] in AD. injection AD as -> ->.
    destruct UR as (_ & m0 & rq & s & EJ & PH & -> & AN). rewrite PH.
    cbn [pend_m val_m]. repeat split; auto. lia.
  - intros o p k r AD FT. destruct o; try discriminate. destruct r; try contradiction. eauto.
  - intros j t p (_ & PH). rewrite PH. repeat split.
  - intros j t p b (_ & UR). destruct (phase t) eqn:PH; try contradiction; repeat split; try discriminate; cbn [val_m].
    + destruct UR as (-> & _). cbn in H. congruence.
    + intros ->. destruct UR as (_ & UR). destruct (UR eq_refl) as (m0 & rq & EJ & _ & L). destruct (W _ _ _ EJ).
      assert (s0 = n) by (cbn in H; congruence). subst. lia.
  - split; reflexivity.
  - intros j t o r (_ & UR) FT NA NC NR. destruct o as [o| | | |]; [|split; reflexivity..].
    destruct o; cbn [add_m] in NA; try discriminate; cbn [ustep]; try (split; reflexivity);
      try (exfalso; eapply NC; reflexivity); try (exfalso; eapply NR; reflexivity).
    destruct UR as (m0 & rq & EJ & PH & _). rewrite PH. destruct r; try contradiction. split; reflexivity.
  - split.
    + intros [|?|? ?|? ? ?] q; cbn; congruence.
    + intros [|?|? ?|? ? ?] q s'; cbn; congruence.
  - intros [|?|? ?|? ? ?] q; cbn; congruence.
  - intros o p k ch c1 c2 s e AD S ST. destruct o; try discriminate. cbn [add_m] in AD. injection AD as -> ->.
    cbn [cstep] in ST. rewrite S in ST. injection ST as <- <-. eexists. split.
    + cbn. rewrite upd_same. reflexivity.
    + reflexivity.
Qed.

(** * What a served call knew *)

Lemma added_mono : forall io sha P cap jobs h c j t1 t2 p s f, exec io sha P cap jobs h c ->
  (f = add_b \/ f = add_m) -> trace j h = t1 ++ t2 -> added f t1 = Some (p, s) ->
  added f (trace j h) = Some (p, s).
Proof.
  intros io sha P cap jobs h c j t1 t2 p s f E FF. revert t1. induction t2 as [|x t2 IH]; intros t1 EQ A.
  - rewrite app_nil_r in EQ. now rewrite EQ.
  - apply (IH (t1 ++ [x])).
    + now rewrite <- app_assoc.
    + rewrite added_snoc. unfold added_step. destruct x as [o r]. destruct o as [o| | | |]; auto.
      destruct r; auto. destruct (f o) as [[q k]|] eqn:FO; auto. exfalso.
      destruct (exec_follows _ _ _ _ _ _ _ E j) as (pr & FO').
      pose proof (follows_obeyed _ _ _ _ _ (job_usage sha (jobs j)) FO' (trace_fits _ _ _ _ _ _ _ E j) _ _ _ _ EQ) as (_ & UR).
      destruct FF as [-> | ->]; destruct o; try discriminate.
      * destruct UR as (m0 & rq & _ & _ & _ & _ & AN). congruence.
      * destruct UR as (m0 & rq & s0 & _ & _ & _ & AN). congruence.
Qed.

Lemma served_known : forall io sha P cap jobs h c j p, exec io sha P cap jobs h c -> served h j p ->
  exists m rq s n, jobs j = GenJob m rq /\ added add_b (trace j h) = Some (p, s)
    /\ added add_m (trace j h) = Some (p, n) /\ s <= cm_limit_bytes m /\ n <= cm_limit_msgs m.
Proof.
  intros io sha P cap jobs h c j p E (ctx & ctx' & mt & J). apply in_split in J. destruct J as (t1 & t2 & EQ).
  destruct (exec_follows _ _ _ _ _ _ _ E j) as (pr & FO).
  pose proof (follows_obeyed _ _ _ _ _ (job_usage sha (jobs j)) FO (trace_fits _ _ _ _ _ _ _ E j) _ _ _ _ EQ) as (_ & UR).
  destruct UR as (m & rq & s & n & EJ & AB & AM & L1 & L2). exists m, rq, s, n.
  split; [exact EJ|]. split; [eapply added_mono; eauto|]. split; [eapply added_mono; eauto|]. auto.
Qed.

Lemma usage_limits : forall io sha cap jobs h c K B M,
  exec io sha locks cap jobs h c -> overlap_at_most K sha jobs h -> within_limits jobs B M ->
  (N.of_nat K + 1) * B < two64 -> 1 <= M -> M + N.of_nat K < two64 ->
  forall p j0 mat b n ctx id ch, In (mk_ev j0 (XCache (KPutEnc mat b n ctx id)) (RPut (Some p)) ch) h ->
  forall l, l <> [] -> NoDup l -> (forall j, In j l -> served h j p) ->
  (exists j m rq, In j l /\ jobs j = GenJob m rq /\ b + total_size jobs l <= cm_limit_bytes m)
  /\ (exists j m rq, In j l /\ jobs j = GenJob m rq /\ n + Nlen l <= cm_limit_msgs m).
Proof.
  intros io sha cap jobs h c K B M E OV W RB M1 RM p j0 mat b n ctx id ch PUT l NE ND SV. split.
  - assert (ROOM : B + N.of_nat K * B < two64) by lia.
    pose proof (bytes_inv io sha cap jobs h c K B M E OV W ROOM) as U.
    destruct (u_last _ _ _ _ _ _ _ _ _ _ _ U p b l) as (j & s & J & V & LE); auto.
    + exists j0, mat, b, n, ctx, id, ch. auto.
    + split; [exact ND|]. intros j J. destruct (served_known _ _ _ _ _ _ _ _ _ E (SV j J)) as (m & rq & s & n' & _ & A & _).
      eauto.
    + destruct (served_known _ _ _ _ _ _ _ _ _ E (SV j J)) as (m & rq & s' & n' & EJ & A & _ & L1 & _).
      exists j, m, rq. split; [exact J|]. split; [exact EJ|]. unfold added_of in V.
      assert (s' = s) by congruence. subst s'. change (total_size jobs l) with (sum_of (fun j => size_of (jobs j)) l).
      lia.
  - assert (PN : n = 1).
    { apply in_split in PUT. destruct PUT as (h1 & h2 & EQ).
      subst h. change (h1 ++ mk_ev j0 (XCache (KPutEnc mat b n ctx id)) (RPut (Some p)) ch :: h2)
          with (h1 ++ [mk_ev j0 (XCache (KPutEnc mat b n ctx id)) (RPut (Some p)) ch] ++ h2) in E.
        rewrite app_assoc in E. destruct (exec_prefix _ _ _ _ _ _ _ _ E) as (c1 & E1).
        destruct (exec_snoc_inv _ _ _ _ _ _ _ _ E1) as (c0 & k & E0 & FO & _). cbn in FO.
        destruct (exec_obeys _ _ _ _ _ _ _ _ _ _ E0 (job_usage sha (jobs j0)) _ FO) as ((_ & _ & m0 & rq & _ & _ & _ & H) & _).
        exact H. }
    subst n.
    assert (ROOM : M + N.of_nat K * 1 < two64) by lia.
    pose proof (msgs_inv io sha cap jobs h c K B M E OV W M1 ROOM) as U.
    destruct (u_last _ _ _ _ _ _ _ _ _ _ _ U p 1 l) as (j & s & J & V & LE); auto.
    + exists j0, mat, b, 1, ctx, id, ch. auto.
    + split; [exact ND|]. intros j J. destruct (served_known _ _ _ _ _ _ _ _ _ E (SV j J)) as (m & rq & s & n' & _ & _ & A & _).
      eauto.
    + destruct (served_known _ _ _ _ _ _ _ _ _ E (SV j J)) as (m & rq & s' & n' & EJ & _ & A & _ & L1).
      exists j, m, rq. split; [exact J|]. split; [exact EJ|]. unfold added_of in V.
      assert (n' = s) by congruence. subst n'.
      assert (sum_of (fun _ => 1) l = Nlen l).
      { clear. induction l as [|x l IH]; [reflexivity|]. rewrite Nlen_cons. unfold sum_of in *. cbn [fold_right]. lia. }
      lia.
Qed.
