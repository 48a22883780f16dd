(** Proofs about KMS clients and their suppliers. *)
From Verif Require Import Base AlgModel EncCtxModel HdrModel FrameModel CryptoModel SessionModel KeyringModel KmsModel ClientModel WireSpec SessionSpec KeyringSpec BaseProofs KmsSpec ClientSpec ArnProofs KmsProofs MrkProofs.
From Coq Require Import String ZArith Arith Lia.
Import List.
Open Scope list_scope.
Open Scope N_scope.

(** ** Safety of programs against an invariant of the caches *)

(** [safe P Q p]: whatever the answers, given that clients from a cache or newly made for a region satisfy [P] of it, and so do those
    inserted; requests satisfy [Q]. *)
Fixpoint safe {A} (Q : client -> kms_request -> Prop) (p : prog A) : Prop :=
  match p with
  | Ret _ | Throw => True
  | Look _ r k => forall o, (forall c, o = Some c -> cl_region c = r) -> safe Q (k o)
  | New r k => forall c, cl_region c = r -> safe Q (k c)
  | Ask _ _ _ => False
  | Send c rq k => Q c rq /\ forall o, safe Q (k o)
  | Put _ r c k => cl_region c = r /\ safe Q k
  | MkCache k => forall n, safe Q (k n)
  end.

Definition inv1 (Q : client -> kms_request -> Prop) (st : cstate) : Prop :=
  (forall n r c, cs_cache st n r = Some c -> cl_region c = r) /\ (forall c rq o, In (ESend c rq o) (cs_log st) -> Q c rq).

Lemma bind_cache_cases : forall m n r c n' r' d, bind_cache m n r c n' r' = Some d -> (n' = n /\ r' = r /\ d = c) \/ m n' r' = Some d.
Proof.
  intros m n r c n' r' d H. unfold bind_cache in H. destruct (Nat.eqb n' n) eqn:E1; [|right; exact H]. destruct (bytes_eqb r' r) eqn:E2; [|right; exact H].
  cbn in H. left. apply Nat.eqb_eq in E1. apply bytes_eqb_spec in E2. injection H as ->. auto.
Qed.

Lemma step_safe : forall A Q a (p : prog A) st p' st', step a p st = (p', st') -> safe Q p -> inv1 Q st -> safe Q p' /\ inv1 Q st'.
Proof.
  intros A Q a p [m mk nx lg] p' st' S W [I1 I2]. cbn in *. destruct p as [x| |n r k|r k|n r k|c rq k|n r c k|k]; cbn in *; injection S as <- <-; cbn.
  - split; [exact I|split; assumption].
  - split; [exact I|split; assumption].
  - split; [|split; assumption]. apply W. intros c E. exact (I1 n r c E).
  - split; [apply W; reflexivity|]. split; [exact I1|]. intros c rq o Z. apply in_app_or in Z. destruct Z as [Z|[Z|[]]]; [exact (I2 c rq o Z)|discriminate].
  - destruct W.
  - destruct W as [W1 W2]. split; [apply W2|]. split; [exact I1|]. intros c' rq' o Z. apply in_app_or in Z. destruct Z as [Z|[Z|[]]]; [exact (I2 c' rq' o Z)|].
    injection Z as <- <- _. exact W1.
  - destruct W as [W1 W2]. split; [exact W2|]. split.
    + intros n' r' d E. apply bind_cache_cases in E. destruct E as [(-> & -> & ->)|E]; [exact W1|exact (I1 n' r' d E)].
    + intros c' rq' o Z. apply in_app_or in Z. destruct Z as [Z|[Z|[]]]; [exact (I2 c' rq' o Z)|discriminate].
  - split; [apply W|split; assumption].
Qed.

Lemma upd_thread_forall : forall A (P : A -> Prop) l i p, Forall P l -> P p -> Forall P (upd_thread i p l).
Proof.
  intros A P. induction l as [|x l IH]; intros [|i] p H Hp; cbn; try constructor; inversion H; subst; auto.
Qed.
Lemma nth_forall : forall A (P : A -> Prop) l i p, Forall P l -> nth_error l i = Some p -> P p.
Proof. intros A P l i p H E. apply nth_error_In in E. rewrite Forall_forall in H. exact (H _ E). Qed.

(** An invariant of programs and states that steps keep is kept by runs. *)
Lemma crun_inv : forall A (G : prog A -> cstate -> Prop) (J : cstate -> Prop) (R : reply -> Prop),
  (forall a p st p' st', R a -> step a p st = (p', st') -> J st -> G p st -> J st' /\ G p' st' /\ forall q, G q st -> G q st') ->
  forall sched ts st ts' st', Forall (fun x => R (snd x)) sched -> crun sched ts st = (ts', st') -> J st -> Forall (fun p => G p st) ts ->
  J st' /\ Forall (fun p => G p st') ts'.
Proof.
  intros A G J R K. induction sched as [|[i a] sched IH]; intros ts st ts' st' HR E HJ HG; cbn in E.
  - injection E as <- <-. auto.
  - inversion HR as [|? ? HR1 HR2]; subst; cbn in HR1. destruct (nth_error ts i) as [p|] eqn:N; [|exact (IH _ _ _ _ HR2 E HJ HG)].
    destruct (step a p st) as [p' st1] eqn:S. destruct (K a p st p' st1 HR1 S HJ (nth_forall _ _ _ _ _ HG N)) as (J1 & G1 & M).
    apply (IH _ _ _ _ HR2 E J1). apply upd_thread_forall; [|exact G1]. eapply Forall_impl; [|exact HG]. intros q. apply M.
Qed.

(** ** The library's programs are safe *)
Definition Q_region (c : client) (rq : kms_request) : Prop := region_or_none (kq_key rq) (cl_region c).

Lemma attempt_safe : forall A (Q : client -> kms_request -> Prop) (s : supplier) r rq (none refused : prog A) ok,
  supplies (fun r' => forall c, cl_region c = r' -> Q c rq) s -> (forall c, cl_region c = r -> Q c rq) ->
  safe Q none -> safe Q refused -> (forall x, safe Q (ok x)) -> safe Q (attempt s r rq none refused ok).
Proof.
  intros A Q s r rq none refused ok S H N R K. unfold attempt, get_client. destruct s as [[c|]|n|n]; cbn in *.
  - split; [apply S; reflexivity|]. intros [x|]; cbn; auto.
  - exact N.
  - intros [c|] HC; cbn.
    + split; [apply H, HC; reflexivity|]. intros [x|]; cbn; auto.
    + intros c HC'. split; [apply H, HC'|]. intros [x|]; cbn; auto.
  - destruct S.
Qed.

Lemma supplies_impl : forall (P P' : list N -> Prop) s, (forall r, P r -> P' r) -> supplies P s -> supplies P' s.
Proof. intros P P' [[c|]|n|n] H S; cbn in *; auto. Qed.

Lemma names_or_none : forall s r, names_region s r -> region_or_none s r. Proof. intros s r H. left. exact H. Qed.

Lemma kms_dec_safe : forall A k s ctx edks log (fin : list kms_call -> dec_end -> prog A),
  supplies (stays_in (KKms k s)) s -> (forall l r, safe Q_region (fin l r)) -> safe Q_region (kms_dec_p k s ctx log edks fin).
Proof.
  intros A k s ctx. induction edks as [|e edks IH]; intros log fin S F; cbn; [apply F|].
  destruct (kms_select k e) as [r|] eqn:E; [|apply IH; assumption].
  apply kms_select_spec in E. destruct E as (_ & [P _] & NR).
  apply attempt_safe; auto.
  - eapply supplies_impl; [|exact S]. cbn. intros r' [NE H] c <-. unfold Q_region; cbn. apply H, P, NE.
  - intros c <-. unfold Q_region; cbn. left. exact NR.
Qed.

Lemma kms_enc_safe : forall A k s ev ctx plain ids i log edks tr (fin : list kms_call -> list edk -> list trace_rec -> krc -> prog A),
  supplies (fun r => forall id, In id ids -> region_or_none id r) s -> (forall l e t r, safe Q_region (fin l e t r)) ->
  safe Q_region (kms_enc_p k s ev ctx plain i log ids edks tr fin).
Proof.
  intros A k s ev ctx plain. induction ids as [|id ids IH]; intros i log edks tr fin S F; cbn [kms_enc_p]; [apply F|].
  apply attempt_safe; auto.
  - eapply supplies_impl; [|exact S]. cbn. intros r' H c <-. unfold Q_region; cbn. apply H. left. reflexivity.
  - intros c E. unfold Q_region; cbn. rewrite E. apply parse_region_or_none.
  - intros x. destruct (append_edk _ edks x) as [edks' [e|]]; [apply F|]. apply IH; [|exact F]. eapply supplies_impl; [|exact S]. cbn. auto.
Qed.

Lemma kms_on_encrypt_safe : forall A k s ev ctx alg a (fin : list kms_call -> kargs * krc -> prog A),
  supplies (stays_in (KKms k s)) s -> (forall l r, safe Q_region (fin l r)) -> safe Q_region (kms_on_encrypt_p k s ev ctx alg a fin).
Proof.
  intros A k s ev ctx alg a fin S F. unfold kms_on_encrypt_p. destruct (kk_ids k) as [|gen others] eqn:I; [apply F|].
  assert (S' : supplies (fun r => forall id, In id (gen :: others) -> region_or_none id r) s).
  { eapply supplies_impl; [|exact S]. cbn [stays_in]. rewrite I. intros r [_ H]. exact H. }
  destruct (kv_fail ev 0); [apply F|]. destruct (kv_fail ev 1); [apply F|]. destruct (ka_key a) as [b|].
  - apply kms_enc_safe; [exact S'|]. intros. apply F.
  - destruct (alg_lookup alg) as [p|]; [|apply F]. cbv zeta. apply attempt_safe; auto.
    + eapply supplies_impl; [|exact S']. cbn. intros r H c <-. unfold Q_region; cbn. apply H. left. reflexivity.
    + intros c E. unfold Q_region; cbn. rewrite E. apply parse_region_or_none.
    + intros x. destruct (append_edk _ _ x) as [edks [e|]]; [apply F|]. destruct (kv_fail ev 3); [apply F|].
      apply kms_enc_safe; [|intros; apply F]. eapply supplies_impl; [|exact S']. cbn. auto.
Qed.

Lemma arn_names : forall s p r ac res, kms_arn s p r ac res -> names_region s r.
Proof.
  intros s p r ac res ((-> & C1 & C2 & C3 & C4) & P & R & AC). exists p, (ac ++ text ":" ++ res).
  split; [|auto]. reflexivity.
Qed.

Lemma mrk_eligible_region : forall k e r key s, proper_region (KMrk k s) -> mrk_eligible k e r key ->
  region_or_none key r /\ forall r', stays_in (KMrk k s) r' -> region_or_none key r'.
Proof.
  intros k e r key s PR H. inversion H; subst; cbn in *.
  - split.
    + left. match goal with C : carries_key_arn _ _ _ _ _ |- _ => destruct C as (_ & K & _) end.
      match goal with E : edk_provider_info e = _ |- _ => rewrite E in K end. eapply arn_names; eassumption.
    + intros r' [X _]. auto.
  - split; [left; eapply arn_names; eassumption|]. intros r' [X _]. auto.
  - match goal with C : carries_key_arn _ _ _ _ _ |- _ => destruct C as (_ & K & _) end.
    split; [left; eapply arn_names; eassumption|]. intros r' [_ X]. rewrite <- X by assumption. left; eapply arn_names; eassumption.
  - match goal with C : carries_key_arn _ _ _ _ _ |- _ => destruct C as (_ & ((_ & C1 & _) & _) & _) end.
    destruct PR as [R1 R2]; [assumption|].
    assert (NR : names_region (text "arn:" ++ p ++ text ":kms:" ++ mk_region k ++ text ":" ++ ac ++ text ":" ++ res) (mk_region k)).
    { exists p, (ac ++ text ":" ++ res). auto. }
    split; [left; exact NR|]. intros r' [_ X]. rewrite <- X by assumption. left. exact NR.
Qed.

Lemma mrk_dec_safe : forall A k s ctx len edks failed log (fin : list kms_call -> mrk_end -> prog A),
  proper_region (KMrk k s) -> supplies (stays_in (KMrk k s)) s -> (forall l r, safe Q_region (fin l r)) -> safe Q_region (mrk_dec_p k s ctx len failed log edks fin).
Proof.
  intros A k s ctx len. induction edks as [|e edks IH]; intros failed log fin PR S F; cbn [mrk_dec_p]; [apply F|].
  destruct (mrk_select k e) as [[r key]|] eqn:E; [|apply IH; assumption].
  apply mrk_select_spec in E. destruct (mrk_eligible_region _ _ _ _ s PR E) as [E1 E2].
  cbv zeta. apply attempt_safe; auto.
  - eapply supplies_impl; [|exact S]. intros r' H c <-. unfold Q_region; cbn [kq_key]. apply E2, H.
  - intros c <-. unfold Q_region; cbn [kq_key]. exact E1.
  - intros x. destruct len as [n|]; [|apply F]. destruct (_ || _)%bool; [apply IH; auto|apply F].
Qed.

Lemma mrk_on_encrypt_safe : forall A k s ev ctx alg a (fin : list kms_call -> kargs * krc -> prog A),
  supplies (stays_in (KMrk k s)) s -> (forall l r, safe Q_region (fin l r)) -> safe Q_region (mrk_on_encrypt_p k s ev ctx alg a fin).
Proof.
  intros A k s ev ctx alg a fin S F. unfold mrk_on_encrypt_p. destruct (is_empty (mk_id k)) eqn:I; [apply F|].
  assert (NE : mk_id k <> []) by (intro X; rewrite X in I; discriminate).
  destruct (kv_fail ev 0); [apply F|]. destruct (kv_fail ev 1); [apply F|]. cbv zeta.
  assert (W : forall o, supplies (fun r' => forall c, cl_region c = r' -> Q_region c (mk_kms_request (parse_region (mk_id k)) (mk_id k) o ctx (mk_grants k))) s).
  { intro o. eapply supplies_impl; [|exact S]. intros r' [H _] c <-. exact (H NE). }
  assert (V : forall o c, cl_region c = parse_region (mk_id k) -> Q_region c (mk_kms_request (parse_region (mk_id k)) (mk_id k) o ctx (mk_grants k))).
  { intros o c E. unfold Q_region; cbn [kq_key]. rewrite E. apply parse_region_or_none. }
  destruct (ka_key a) as [b|].
  - apply attempt_safe; auto.
  - destruct (alg_lookup alg) as [p|]; [|apply F]. apply attempt_safe; auto.
Qed.

Lemma use_safe : forall A kr u (fin : prog A), proper_region kr -> supplies (stays_in kr) (supplier_of kr) -> safe Q_region fin -> safe Q_region (use_p kr u fin).
Proof.
  intros A [k s|k s] [ev ctx alg a|ev edks ctx alg a] fin PR S F; cbn in S |- *.
  - apply kms_on_encrypt_safe; auto.
  - apply kms_dec_safe; auto.
  - apply mrk_on_encrypt_safe; auto.
  - unfold mrk_on_decrypt_p. destruct (negb _); [exact F|]. apply mrk_dec_safe; auto.
Qed.

(** Builders yield consistent keyrings. *)
Definition fine (kr : kms_kr) : Prop := proper_region kr /\ supplies (stays_in kr) (supplier_of kr).

Lemma get_safe : forall A Q (ok : list N -> Prop) s r (k : option client -> callable -> prog A), supplies ok s ->
  (forall c, ok (cl_region c) \/ cl_region c = r -> safe Q (k (Some c) CNoop)) -> safe Q (k None CNoop) ->
  (forall n c, cl_region c = r -> safe Q (k (Some c) (CStore n r c))) -> safe Q (get_client s r k).
Proof.
  intros A Q ok [[c|]|n|n] r k S H1 H2 H3; cbn in *; auto.
  - intros [c|] HC; cbn; [apply H1; right; apply HC; reflexivity|]. intros c HC'. apply H3, HC'.
Qed.

Lemma build_supplier_safe : forall A (ok : list N -> Prop) ids c sup (fin : supplier -> prog A), given ok c sup ->
  (forall id, ids = [id] -> ok (parse_region id)) -> (forall s, supplies ok s -> safe Q_region (fin s)) -> safe Q_region (build_supplier ids c sup fin).
Proof.
  intros A ok ids c sup fin G P F. unfold build_supplier. destruct c as [c|]; [apply F; exact G|].
  assert (D : safe Q_region match sup with Some s => fin s | None => MkCache (fun n => fin (SCaching n)) end).
  { destruct sup as [s|]; [apply F; exact G|]. cbn. intros n. apply F. exact I. }
  destruct ids as [|id [|id2 ids]]; try exact D. cbv zeta. specialize (P id eq_refl). destruct sup as [s|].
  - apply get_safe with (ok := ok); [exact G| | |]; cbn.
    + intros c [H|H]; apply F; cbn; [exact H|rewrite H; exact P].
    + apply F. exact I.
    + intros n c H. split; [exact H|]. apply F. cbn. rewrite H. exact P.
  - cbn. intros c H. apply F. cbn. rewrite H. exact P.
Qed.

Lemma mrk_build_eq : forall g id k, mrk_build g id = Some k -> k = mk_mrk id [] None g /\ id <> [].
Proof.
  intros g id k H. unfold mrk_build in H. destruct id as [|x id]; cbn in H; [discriminate|]. destruct (is_valid_kms_identifier _); cbn in H; [|discriminate].
  injection H as <-. split; [reflexivity|discriminate].
Qed.
Lemma fine_mrk : forall g id k c, mrk_build g id = Some k -> region_or_none id (cl_region c) -> fine (KMrk k (SSingle (Some c))).
Proof.
  intros g id k c H R. apply mrk_build_eq in H. destruct H as [-> NE]. split; cbn; [intros E; contradiction|]. split; [auto|intros E; contradiction].
Qed.

Lemma children_safe : forall A s g ids done (fin : option (list kms_kr) -> prog A),
  supplies (fun r => forall id, In id ids -> region_or_none id r) s -> Forall fine done ->
  safe Q_region (fin None) -> (forall l, Forall fine l -> safe Q_region (fin (Some l))) -> safe Q_region (children_p s g ids done fin).
Proof.
  intros A s g. induction ids as [|id ids IH]; intros done fin S D F1 F2; cbn [children_p]; [apply F2, D|].
  cbv zeta. destruct (is_empty (parse_region id)); [exact F1|].
  assert (K : forall c f, (forall id', In id' (id :: ids) -> region_or_none id' (cl_region c)) \/ cl_region c = parse_region id ->
    safe Q_region ((fun (c : option client) (_ : callable) => match c, mrk_build g id with Some c, Some k => children_p s g ids (done ++ [KMrk k (SSingle (Some c))]) fin | _, _ => fin None end) (Some c) f)).
  { intros c f H. cbn. destruct (mrk_build g id) as [k|] eqn:B; [|exact F1]. apply IH; auto.
    - eapply supplies_impl; [|exact S]. cbn. auto.
    - apply Forall_app. split; [exact D|]. constructor; [|constructor]. apply (fine_mrk _ _ _ _ B). destruct H as [H|H]; [apply H; left; reflexivity|].
      rewrite H. apply parse_region_or_none. }
  apply get_safe with (ok := fun r => forall id', In id' (id :: ids) -> region_or_none id' r); [exact S| | |].
  - intros c H. exact (K c CNoop H).
  - exact F1.
  - intros n c H. exact (K c CNoop (or_intror H)).
Qed.

Lemma regions_safe : forall A s g f regions done (fin : option (list kms_kr) -> prog A),
  (forall r, In r regions -> ~ In 58 r) -> supplies (fun r => forall r', In r' regions -> r' = r) s -> Forall fine done ->
  safe Q_region (fin None) -> (forall l, Forall fine l -> safe Q_region (fin (Some l))) -> safe Q_region (regions_p s g f regions done fin).
Proof.
  intros A s g f. induction regions as [|r regions IH]; intros done fin T S D F1 F2; cbn [regions_p]; [apply F2, D|].
  assert (K : forall c (y : callable), (forall r', In r' (r :: regions) -> r' = cl_region c) \/ cl_region c = r ->
    safe Q_region ((fun (c : option client) (_ : callable) => match c, mrk_build_discovery g r f with Some c, Some k => regions_p s g f regions (done ++ [KMrk k (SSingle (Some c))]) fin | _, _ => fin None end) (Some c) y)).
  { intros c y H. cbn. unfold mrk_build_discovery. destruct (is_empty r) eqn:B; [exact F1|]. apply IH; auto.
    - intros r' I. apply T. right. exact I.
    - eapply supplies_impl; [|exact S]. cbn. auto.
    - apply Forall_app. split; [exact D|]. constructor; [|constructor]. split; cbn.
      + intros _. split; [intro X; rewrite X in B; discriminate|]. apply T. left. reflexivity.
      + split; [contradiction|]. intros _. destruct H as [H|H]; [apply H; left; reflexivity|auto]. }
  apply get_safe with (ok := fun r0 => forall r', In r' (r :: regions) -> r' = r0); [exact S| | |].
  - intros c H. exact (K c CNoop H).
  - exact F1.
  - intros n c H. exact (K c CNoop (or_intror H)).
Qed.

Lemma or_default_safe : forall A ok sup (fin : supplier -> prog A), given ok None sup -> (forall s, supplies ok s -> safe Q_region (fin s)) -> safe Q_region (or_default sup fin).
Proof. intros A ok [s|] fin G F; cbn; [apply F, G|]. intros n. apply F. exact I. Qed.

Lemma build_safe : forall A b (fin : option (list kms_kr) -> prog A), consistent_build b ->
  safe Q_region (fin None) -> (forall l, Forall fine l -> safe Q_region (fin (Some l))) -> safe Q_region (build_p b fin).
Proof.
  intros A b fin C F1 F2. destruct b as [c sup g gen others|c sup g f|c sup g id|c sup g region f|sup g gen ids|sup g regions f|c sup g region]; cbn [build_p consistent_build] in *.
  - destruct (kms_build g gen others) as [k|] eqn:B; [|exact F1]. unfold kms_build in B. destruct (existsb _ _); [discriminate|]. injection B as <-.
    apply build_supplier_safe with (ok := fun r => forall id, In id (gen :: others) -> region_or_none id r); [exact C| |].
    + intros id E. injection E as -> ->. intros id' [<-|[]]. apply parse_region_or_none.
    + intros s S. apply F2. constructor; [|constructor]. split; [exact I|]. eapply supplies_impl; [|exact S]. intros r H. split; [discriminate|exact H].
  - apply build_supplier_safe with (ok := fun _ => False); [exact C|discriminate|]. intros s S. apply F2. constructor; [|constructor]. split; [exact I|].
    eapply supplies_impl; [|exact S]. intros r [].
  - destruct (mrk_build g id) as [k|] eqn:B; [|exact F1]. apply mrk_build_eq in B. destruct B as [-> NE].
    apply build_supplier_safe with (ok := region_or_none id); [exact C| |].
    + intros id' E. injection E as <-. apply parse_region_or_none.
    + intros s S. apply F2. constructor; [|constructor]. split; [intros E; contradiction|]. eapply supplies_impl; [|exact S]. intros r H.
      split; [auto|intros E; contradiction].
  - destruct C as [R H]. destruct c as [c|]; [|exact F1]. destruct sup; [exact F1|]. unfold mrk_build_discovery. destruct (is_empty region); [exact F1|].
    apply F2. constructor; [|constructor]. split; [intros _; exact R|]. cbn. split; [contradiction|]. intros _. symmetry. apply H. reflexivity.
  - destruct (match gen with Some g0 => is_empty g0 | None => false end); [exact F1|]. destruct (existsb is_empty ids); [exact F1|].
    destruct (match match gen with Some g0 => g0 :: ids | None => ids end with [] => true | _ => false end); [exact F1|].
    destruct (Nat.ltb _ _); [exact F1|].
    eapply or_default_safe; [exact C|]. intros s S. destruct gen as [g0|].
    + assert (S' : supplies (fun r => forall id, In id ids -> region_or_none id r) s) by (eapply supplies_impl; [|exact S]; cbn; auto).
      eapply get_safe; [exact S| | |]; cbn.
      * intros c H. destruct (mrk_build g g0) as [k|] eqn:B; [|exact F1]. apply children_safe; auto. constructor; [|constructor].
        apply (fine_mrk _ _ _ _ B). destruct H as [H|H]; [apply H; auto|rewrite H; apply parse_region_or_none].
      * exact F1.
      * intros n c H. destruct (mrk_build g g0) as [k|] eqn:B; [|exact F1]. apply children_safe; auto. constructor; [|constructor].
        apply (fine_mrk _ _ _ _ B). rewrite H; apply parse_region_or_none.
    + apply children_safe; auto. eapply supplies_impl; [|exact S]; cbn; auto.
  - destruct (match regions with [] => true | _ => false end); [exact F1|]. destruct (existsb is_empty regions); [exact F1|].
    destruct C as [T C]. eapply or_default_safe; [exact C|]. intros s S. apply regions_safe; auto.
  - destruct C as [R H]. destruct c as [c|]; [|exact F1]. destruct sup; [exact F1|].
    apply F2. constructor; [|constructor]. split; [intros _; exact R|]. cbn. split; [contradiction|]. intros _. symmetry. apply H. reflexivity.
Qed.

Lemma uses_safe : forall A l us (fin : prog A), Forall fine l -> safe Q_region fin -> safe Q_region (uses_p l us fin).
Proof.
  intros A l. induction us as [|[i u] us IH]; intros fin L F; cbn; [exact F|]. destruct (nth_error l i) as [kr|] eqn:N; [|apply IH; auto].
  destruct (nth_forall _ _ _ _ _ L N) as [P S]. apply use_safe; auto.
Qed.

Lemma thread_safe : forall ts, Forall consistent ts -> safe Q_region (thread ts).
Proof.
  induction ts as [|t ts IH]; intros H; cbn; [exact I|]. inversion H as [|? ? H1 H2]; subst. destruct t as [kr u|b us]; cbn in H1 |- *.
  - destruct H1. apply use_safe; auto.
  - apply build_safe; [exact H1|auto|]. intros l L. apply uses_safe; auto.
Qed.

Lemma right_region : forall k0 j0 tss sched ts st, Forall (Forall consistent) tss -> crun sched (map thread tss) (cs_init k0 j0) = (ts, st) ->
  (forall c rq o, In (ESend c rq o) (cs_log st) -> region_or_none (kq_key rq) (cl_region c)) /\ (forall n r c, cs_cache st n r = Some c -> cl_region c = r).
Proof.
  intros k0 j0 tss sched ts st C R.
  destruct (crun_inv unit (fun p _ => safe Q_region p) (inv1 Q_region) (fun _ => True)) with (sched := sched) (ts := map thread tss) (st := (cs_init k0 j0)) (ts' := ts) (st' := st) as [[J1 J2] _].
  - intros a p s p' s' _ S J G. destruct (step_safe _ _ _ _ _ _ _ S G J) as [G' J']. auto.
  - apply Forall_forall. auto.
  - exact R.
  - split; cbn; [discriminate|intros c rq o []].
  - apply Forall_map. eapply Forall_impl; [|exact C]. apply thread_safe.
  - auto.
Qed.
