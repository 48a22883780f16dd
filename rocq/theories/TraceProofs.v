(** What the keyring trace says about trees of keyrings: proofs. *)
From Verif Require Import Base AlgModel EncCtxModel HdrModel FrameModel CryptoModel SessionModel KeyringModel KmsModel
  BaseProofs WireSpec SessionSpec StreamSpec LiveSpec KeyringSpec KmsSpec StackSpec TreeSpec TraceSpec EncCtxProofs HdrProofs CodecTheorems
  KeyringProofs RawKeyringProofs ArnProofs KmsProofs MrkProofs StackProofs StackTheorems StackKeyrings TreeProofs.
From Coq Require Import Permutation ZArith ZifyBool ZifyNat ZifyN.
Import List.
Open Scope list_scope.
Open Scope N_scope.

(** ** Subsequences *)
Lemma subseq_refl : forall A (l : list A), subseq l l.
Proof. intros A l. induction l; constructor; auto. Qed.
Lemma subseq_nil : forall A (l : list A), subseq [] l.
Proof. intros A l. induction l; constructor; auto. Qed.
Lemma subseq_app : forall A (l m l2 m2 : list A), subseq l m -> subseq l2 m2 -> subseq (l ++ l2) (m ++ m2).
Proof. intros A l m l2 m2 S1 S2. induction S1; cbn [app]; [exact S2|constructor; auto|constructor; auto]. Qed.
Lemma subseq_trans : forall A (l m n : list A), subseq l m -> subseq m n -> subseq l n.
Proof.
  intros A l m n S1 S2. revert l S1. induction S2 as [|x m n S IH|x m n S IH]; intros l S1; [exact S1| |constructor; auto].
  inversion S1; subst; constructor; auto.
Qed.
Lemma subseq_prefix : forall A (l m : list A), subseq l (l ++ m).
Proof. intros A l m. rewrite <- (app_nil_r l) at 1. apply subseq_app; [apply subseq_refl|apply subseq_nil]. Qed.

Lemma transfer_sub : forall A grow (src dest dest' src' : list A) ok, transfer_list grow dest src = (dest', src', ok) ->
  exists p, dest' = dest ++ p /\ subseq p src /\ ((forall n, grow n = true) -> p = src).
Proof.
  intros A grow src dest dest' src' ok H. unfold transfer_list in H. destruct (transfer_loop grow dest src) as [d o] eqn:T.
  assert (D : d = dest') by (destruct o; congruence). subst d. clear H. revert dest T. induction src as [|x src IH]; intros dest T; cbn [transfer_loop] in T.
  - injection T as <- <-. exists []. rewrite app_nil_r. split; auto. split; [constructor|auto].
  - unfold push_back in T. destruct (grow (List.length dest)) eqn:G.
    + destruct (IH _ T) as (p & E & S & F). exists (x :: p). rewrite E, <- app_assoc. split; [reflexivity|]. split; [now constructor|]. intros X. now rewrite (F X).
    + injection T as <- <-. exists []. rewrite app_nil_r. split; auto. split; [apply subseq_nil|]. intros X. congruence.
Qed.

(** ** Encryption *)
Definition no_key (o : option kbuf) : bool := match o with None => true | Some _ => false end.
Definition traces (ke : keyring) (pl : list (leaf * list N)) (mem : Prop) : Prop := forall ctx alg a a', keyring_on_encrypt ke ctx alg a = (a', KrOk) ->
  exists recs, ka_trace a' = ka_trace a ++ recs /\ subseq recs (wrap_records (no_key (ka_key a)) pl) /\ (mem -> recs = wrap_records (no_key (ka_key a)) pl) /\
    (pl = [] -> ka_key a' = ka_key a).

Lemma add_one : forall ok t ns name f, exists recs, add_record ok t ns name f = t ++ recs /\ subseq recs [mk_trace_rec ns name f] /\ (ok = true -> recs = [mk_trace_rec ns name f]).
Proof.
  intros ok t ns name f. unfold add_record. destruct ok; [exists [mk_trace_rec ns name f]|exists []].
  - split; auto. split; [apply subseq_refl|auto].
  - rewrite app_nil_r. split; auto. split; [apply subseq_nil|discriminate].
Qed.

Lemma raw_traces : forall cr rs x, traces (raw_keyring cr rs x) [(LRaw x, [])] (leaf_records (LRaw x)).
Proof.
  intros cr rs [r ke] ctx alg a a' H. apply on_encrypt_inv in H as [_ H]. destruct (H eq_refl) as ((f & Ef & H') & _). clear H.
  unfold raw_keyring in Ef. cbn [fst snd] in Ef. destruct r as [k|k]; cbn in Ef; injection Ef as <-; cbn [wrap_records map leaf_records].
  - unfold raw_aes_on_encrypt in H'. destruct (alg_lookup alg) as [p|]; [|discriminate]. destruct (genrandom ke 0 _) as [iv|]; [|discriminate]. cbv zeta in H'.
    assert (X : exists b, ka_key a' = Some b /\ ka_trace a' = add_record (no_failure (ke_fail ke 8)) (ka_trace a) (ra_ns k) (ra_name k) (if no_key (ka_key a) then 11 else 10)).
    { destruct (ka_key a) as [b|].
      - destruct (aes_wrap _ _ _ _ _ _ _ _) as [edks []]; [|discriminate]. injection H' as <-. cbn [ka_key ka_trace no_key]. eauto.
      - destruct (ke_fail ke 1); [discriminate|]. destruct (genrandom ke 2 _) as [dk|]; [|discriminate].
        destruct (aes_wrap _ _ _ _ _ _ _ _) as [edks []]; [|discriminate]. injection H' as <-. cbn [ka_key ka_trace no_key]. eauto. }
    destruct X as (b & K & T). destruct (add_one (no_failure (ke_fail ke 8)) (ka_trace a) (ra_ns k) (ra_name k) (if no_key (ka_key a) then 11 else 10)) as (recs & E & S & F).
    exists recs. split; [congruence|]. unfold wrap_record. cbn [fst]. destruct (no_key (ka_key a)); (split; [exact S|]; split; [intros [M _]; apply F; now rewrite M|discriminate]).
  - unfold raw_rsa_on_encrypt in H'. destruct (rr_pub k) as [pub|]; [|discriminate]. cbv zeta in H'.
    assert (X : exists b, ka_key a' = Some b /\ ka_trace a' = add_record (no_failure (ke_fail ke 5)) (ka_trace a) (rr_ns k) (rr_name k) (if no_key (ka_key a) then 3 else 2)).
    { destruct (ka_key a) as [b|].
      - destruct (rsa_wrap _ _ _ _ _ _) as [edks []]; [|discriminate]. injection H' as <-. cbn [ka_key ka_trace no_key]. eauto.
      - destruct (alg_lookup alg) as [p|]; [|discriminate]. destruct (ke_fail ke 0); [discriminate|]. destruct (genrandom ke 1 _) as [dk|]; [|discriminate].
        destruct (rsa_wrap _ _ _ _ _ _) as [edks []]; [|discriminate]. injection H' as <-. cbn [ka_key ka_trace no_key]. eauto. }
    destruct X as (b & K & T). destruct (add_one (no_failure (ke_fail ke 5)) (ka_trace a) (rr_ns k) (rr_name k) (if no_key (ka_key a) then 3 else 2)) as (recs & E & S & F).
    exists recs. split; [congruence|]. unfold wrap_record. cbn [fst]. destruct (no_key (ka_key a)); (split; [exact S|]; split; [intros [M _]; apply F; now rewrite M|discriminate]).
Qed.

Definition kms_record (id : list N) : trace_rec := mk_trace_rec KEY_PROVIDER_STR (key_name id) 10.
Lemma enc_loop_traces : forall k ev ctx p ids i edks tr log edks' tr', kms_enc_loop k ev ctx p i ids edks tr = (log, (edks', tr', KrOk)) ->
  exists recs, tr' = tr ++ recs /\ subseq recs (map kms_record ids) /\ ((forall n, kv_record ev n = true) -> recs = map kms_record ids).
Proof.
  intros k ev ctx p. induction ids as [|id ids IH]; intros i edks tr log edks' tr' H; cbn [kms_enc_loop map] in *; rewrite ?c_string_name in H.
  - injection H as <- <- <-. exists []. rewrite app_nil_r. split; auto. split; [constructor|auto].
  - destruct (kv_client ev i (parse_region id)); cbn [negb] in H; [|discriminate].
    destruct (kv_call ev i _) as [z|]; [|discriminate]. unfold append_edk in H. destruct (kv_fail ev (4 + i)%nat); [discriminate|].
    match type of H with (let (log, out) := kms_enc_loop k ev ctx p ?I ids ?E ?T in _) = _ => destruct (kms_enc_loop k ev ctx p I ids E T) as [lg [[es ts] r]] eqn:L end.
    injection H as <- <- <- ->. destruct (IH _ _ _ _ _ _ L) as (recs & E & S & F).
    destruct (add_one (kv_record ev i) tr KEY_PROVIDER_STR (key_name id) (N.lor FLAG_ENCRYPTED FLAG_SIGNED_CTX)) as (r1 & E1 & S1 & F1). rewrite E1 in E.
    exists (r1 ++ recs). rewrite E, <- app_assoc. split; [reflexivity|]. split; [exact (subseq_app _ _ [kms_record id] _ _ S1 S)|].
    intros M. now rewrite (F M), (F1 (M i)).
Qed.
Lemma finish_traces : forall ev a key er edks tr rc a', kms_finish ev a key er edks tr rc = (a', KrOk) ->
  rc = KrOk /\ ka_key a' = key /\ exists recs, ka_trace a' = ka_trace a ++ recs /\ subseq recs tr /\ ((forall n, kv_trace ev n = true) -> recs = tr).
Proof.
  intros ev a key er edks tr rc a' H. unfold kms_finish in H. destruct rc; try discriminate.
  destruct (transfer_list (kv_edks ev) (ka_edks a) edks) as [[d s] ok]. destruct ok; [|discriminate].
  destruct (transfer_list (kv_trace ev) (ka_trace a) tr) as [[d2 s2] ok2] eqn:T. injection H as <-. cbn. split; auto. split; auto. now apply transfer_sub in T.
Qed.

Lemma map_wrap : forall k ev ids, map (wrap_record false) (map (pair (LKms k ev)) ids) = map kms_record ids.
Proof. intros k ev ids. rewrite map_map. reflexivity. Qed.
Lemma kms_traces : forall k ev, traces (kms_keyring k ev) (map (pair (LKms k ev)) (kk_ids k)) (leaf_records (LKms k ev)).
Proof.
  intros k ev ctx alg a a' H. apply on_encrypt_inv in H as [_ H]. destruct (H eq_refl) as ((f & Ef & H') & _). clear H.
  injection Ef as <-. unfold kms_on_encrypt in H'. destruct (kk_ids k) as [|gen others]; rewrite ?c_string_name in H'.
  { cbn [snd] in H'. injection H' as <-. exists []. rewrite app_nil_r. split; auto. split; [constructor|auto]. }
  destruct (kv_fail ev 0); [discriminate|]. destruct (kv_fail ev 1); [discriminate|]. cbn [map wrap_records leaf_records]. rewrite map_wrap. destruct (ka_key a) as [b|] eqn:KA; cbn [no_key].
  - destruct (kms_enc_loop k ev ctx (kb_bytes b) 0 (gen :: others) [] []) as [lg [[es ts] r]] eqn:L. cbn [snd] in H'.
    apply finish_traces in H' as (-> & K & recs & E & S & F). destruct (enc_loop_traces _ _ _ _ _ _ _ _ _ _ _ L) as (r1 & E1 & S1 & F1). cbn [app] in E1. subst ts.
    exists recs. split; [exact E|]. split; [exact (subseq_trans _ _ _ _ S S1)|]. split; [|discriminate]. intros [M1 M2]. rewrite (F M2). exact (F1 M1).
  - destruct (alg_lookup alg) as [q|] eqn:AL; [|discriminate]. destruct (kv_client ev 0 (parse_region gen)); cbn [negb] in H'; [|discriminate].
    destruct (kv_call ev 0 _) as [z|] eqn:CA; [|discriminate]. unfold append_edk in H'. destruct (kv_fail ev 2); [discriminate|]. destruct (kv_fail ev 3); [discriminate|].
    match type of H' with context [kms_enc_loop k ev ctx ?P 1 others ?E ?T] => destruct (kms_enc_loop k ev ctx P 1 others E T) as [lg [[es ts] r]] eqn:L end.
    cbn [snd] in H'. apply finish_traces in H' as (-> & K & recs & E & S & F). destruct (enc_loop_traces _ _ _ _ _ _ _ _ _ _ _ L) as (r1 & E1 & S1 & F1).
    destruct (add_one (kv_record ev 0) [] KEY_PROVIDER_STR (key_name gen) (N.lor FLAG_GENERATED (N.lor FLAG_ENCRYPTED FLAG_SIGNED_CTX))) as (r0 & E0 & S0 & F0).
    rewrite E0 in E1. cbn [app] in E1. subst ts. exists recs. split; [exact E|].
    split; [exact (subseq_trans _ _ _ _ S (subseq_app _ _ [wrap_record true (LKms k ev, gen)] _ _ S0 S1))|]. split; [|discriminate].
    intros [M1 M2]. rewrite (F M2), (F1 M1), (F0 (M1 0%nat)). reflexivity.
Qed.
Lemma mrk_traces : forall k ev, traces (mrk_keyring k ev) [(LMrk k ev, mk_id k)] (leaf_records (LMrk k ev)).
Proof.
  intros k ev ctx alg a a' H. apply on_encrypt_inv in H as [_ H]. destruct (H eq_refl) as ((f & Ef & H') & _). clear H.
  injection Ef as <-. unfold mrk_on_encrypt in H'. rewrite !c_string_name in H'. destruct (is_empty (mk_id k)); [discriminate|].
  destruct (kv_fail ev 0); [discriminate|]. destruct (kv_fail ev 1); [discriminate|]. cbn [map wrap_records leaf_records]. destruct (ka_key a) as [b|] eqn:KA; cbn [no_key].
  - destruct (kv_client ev 0 (parse_region (mk_id k))); cbn [negb] in H'; [|discriminate].
    destruct (kv_call ev 0 _) as [z|] eqn:CA; [|discriminate]. destruct (is_valid_kms_key_arn (kx_key z)); cbn [negb] in H'; [|discriminate].
    unfold append_edk in H'. destruct (kv_fail ev 4); [discriminate|]. cbn [snd] in H'. apply finish_traces in H' as (_ & K & recs & E & S & F).
    destruct (add_one (kv_record ev 0) [] KEY_PROVIDER_STR (key_name (mk_id k)) (N.lor FLAG_ENCRYPTED FLAG_SIGNED_CTX)) as (r0 & E0 & S0 & F0). rewrite E0 in S, F. cbn [app] in S, F.
    exists recs. split; [exact E|]. split; [exact (subseq_trans _ _ _ _ S S0)|]. split; [|discriminate]. intros [M1 M2]. rewrite (F M2). exact (F0 (M1 0%nat)).
  - destruct (alg_lookup alg) as [q|] eqn:AL; [|discriminate]. destruct (kv_client ev 0 (parse_region (mk_id k))); cbn [negb] in H'; [|discriminate].
    destruct (kv_call ev 0 _) as [z|] eqn:CA; [|discriminate]. destruct (Nlen (kx_plain z) =? _); cbn [negb] in H'; [|discriminate].
    destruct (is_valid_kms_key_arn (kx_key z)); cbn [negb] in H'; [|discriminate]. unfold append_edk in H'.
    destruct (kv_fail ev 2); [discriminate|]. destruct (kv_fail ev 3); [discriminate|]. cbn [snd] in H'. apply finish_traces in H' as (_ & K & recs & E & S & F).
    destruct (add_one (kv_record ev 0) [] KEY_PROVIDER_STR (key_name (mk_id k)) (N.lor FLAG_GENERATED (N.lor FLAG_ENCRYPTED FLAG_SIGNED_CTX))) as (r0 & E0 & S0 & F0). rewrite E0 in S, F. cbn [app] in S, F.
    exists recs. split; [exact E|]. split; [exact (subseq_trans _ _ _ _ S S0)|]. split; [|discriminate]. intros [M1 M2]. rewrite (F M2). exact (F0 (M1 0%nat)).
Qed.
Lemma leaf_traces : forall cr rs x, traces (leaf_keyring cr rs x) (map (pair x) (keys_of x)) (leaf_records x).
Proof. intros cr rs [x|k ev|k ev]; [apply raw_traces|apply kms_traces|apply mrk_traces]. Qed.

Lemma wrap_all : forall l, wrap_records false l = map (wrap_record false) l.
Proof. intros [|q l]; reflexivity. Qed.
Lemma wrap_app : forall new l m, (l = [] -> new = false) -> wrap_records new (l ++ m) = wrap_records new l ++ map (wrap_record false) m.
Proof. intros new [|q l] m N; cbn [app wrap_records]; [rewrite (N eq_refl); apply wrap_all|]. now rewrite map_app. Qed.

Lemma list_traces : forall cr rs l, Forall (fun t => traces (tree_keyring cr rs t) (places t) (tree_records t)) l ->
  forall ctx alg a a' b, ka_key a = Some b -> encrypt_on_list (map (tree_keyring cr rs) l) ctx alg a = (a', KrOk) ->
  exists recs, ka_trace a' = ka_trace a ++ recs /\ subseq recs (map (wrap_record false) (flat_map places l)) /\
    (fold_right (fun t P => tree_records t /\ P) True l -> recs = map (wrap_record false) (flat_map places l)) /\
    (flat_map places l = [] -> ka_key a' = ka_key a).
Proof.
  intros cr rs l F ctx alg. induction F as [|t l R F IH]; intros a a' b K H; cbn [map encrypt_on_list flat_map fold_right] in *.
  - injection H as <-. exists []. rewrite app_nil_r. split; auto. split; [constructor|auto].
  - destruct (keyring_on_encrypt (tree_keyring cr rs t) ctx alg a) as [a1 rc] eqn:E. destruct rc; try discriminate.
    destruct (R ctx alg a a1 E) as (r1 & E1 & S1 & F1 & N1). rewrite K in S1, F1, N1. cbn [no_key] in S1, F1. rewrite wrap_all in S1, F1.
    apply on_encrypt_inv in E as [_ E]. destruct (E eq_refl) as (_ & _ & _ & B). destruct (B b K) as (b1 & K1 & _).
    destruct (IH a1 a' b1 K1 H) as (r2 & E2 & S2 & F2 & N2). exists (r1 ++ r2). rewrite E2, E1, app_assoc, map_app. split; [reflexivity|].
    split; [now apply subseq_app|]. split; [intros [M1 M2]; now rewrite (F1 M1), (F2 M2)|].
    intros Z. apply app_eq_nil in Z as [Z1 Z2]. rewrite (N2 Z2), (N1 Z1), K. reflexivity.
Qed.

Lemma tree_traces : forall cr rs t, traces (tree_keyring cr rs t) (places t) (tree_records t).
Proof.
  intros cr rs t. induction t as [x|g l mem IHg IHl] using tree_ind2.
  - unfold places. cbn [leaves flat_map tree_keyring tree_records]. rewrite app_nil_r. apply leaf_traces.
  - intros ctx alg a a' H. rewrite places_multi. apply on_encrypt_inv in H as [_ H]. destruct (H eq_refl) as ((f & Ef & H') & _). clear H.
    cbn [tree_keyring multi_keyring kr_encrypt] in Ef. injection Ef as <-. unfold multi_on_encrypt in H'.
    destruct (mm_init mem); [discriminate|]. cbn [m_generator m_children] in H'. cbv zeta in H'.
    set (my := mk_kargs (ka_key a) [] []) in *. set (gp := match g with Some g => places g | None => [] end).
    assert (GEN : exists my1, match (match g with Some g => Some (tree_keyring cr rs g) | None => None end) with
        | None => (my, KrOk) | Some g => keyring_on_encrypt g ctx alg my end = (my1, KrOk) /\
      subseq (ka_trace my1) (wrap_records (no_key (ka_key a)) gp) /\ (match g with Some g => tree_records g | None => True end -> ka_trace my1 = wrap_records (no_key (ka_key a)) gp) /\
      (gp = [] -> ka_key my1 = ka_key a)).
    { unfold gp. destruct g as [g|].
      - destruct (keyring_on_encrypt (tree_keyring cr rs g) ctx alg my) as [my1 rc] eqn:E. destruct rc; try discriminate. exists my1. split; auto.
        destruct (IHg g eq_refl ctx alg my my1 E) as (recs & E1 & S1 & F1 & N1). cbn [my ka_trace ka_key app] in *. rewrite E1. auto.
      - exists my. split; auto. cbn [my ka_trace ka_key wrap_records]. split; [constructor|auto]. }
    destruct GEN as (my1 & E1 & S1 & F1 & N1). rewrite E1 in H'. destruct (ka_key my1) as [b|] eqn:K1; [|discriminate].
    destruct (encrypt_on_list (map (tree_keyring cr rs) l) ctx alg my1) as [my2 rc2] eqn:E2. destruct rc2; try discriminate.
    destruct (list_traces _ _ _ IHl ctx alg my1 my2 b K1 E2) as (r2 & T2 & S2 & F2 & N2).
    destruct (transfer_list (mm_edks mem) (ka_edks a) (ka_edks my2)) as [[edks rest] ok]. destruct ok; [|discriminate].
    destruct (transfer_list (mm_trace mem) (ka_trace a) (ka_trace my2)) as [[tr rest2] ok2] eqn:T. injection H' as <-. cbn [ka_key ka_trace].
    apply transfer_sub in T as (p & -> & SP & FP). exists p. split; [reflexivity|].
    assert (NG : gp = [] -> no_key (ka_key a) = false) by (intros Z; rewrite <- (N1 Z); reflexivity).
    rewrite (wrap_app _ _ _ NG). rewrite T2 in SP, FP. split; [exact (subseq_trans _ _ _ _ SP (subseq_app _ _ _ _ _ S1 S2))|].
    split; [cbn [tree_records]; intros (M1 & M2 & M3); now rewrite (FP M1), (F1 M2), (F2 M3)|].
    intros Z. apply app_eq_nil in Z as [Z1 Z2]. rewrite (N2 Z2), K1, <- (N1 Z1). reflexivity.
Qed.

Lemma C78_encrypt_lemma : forall cr rs t ctx alg a a', keyring_on_encrypt (tree_keyring cr rs t) ctx alg a = (a', KrOk) ->
  let all := wrap_records (match ka_key a with None => true | Some _ => false end) (places t) in
  exists recs, ka_trace a' = ka_trace a ++ recs /\ subseq recs all /\ (tree_records t -> recs = all).
Proof. intros cr rs t ctx alg a a' H. destruct (tree_traces cr rs t ctx alg a a' H) as (recs & E & S & F & _). exists recs. auto. Qed.

(** Failed encryption: the trace is as it was. *)
Lemma failed_wrapper : forall k f ctx alg a a' e, kr_encrypt k = Some f -> keyring_on_encrypt k ctx alg a = (a', KrErr e) ->
  a' = a \/ f ctx alg a = (a', KrErr e) \/
  (f ctx alg a = (a', KrOk) /\ match ka_key a, ka_key a' with None, None => False | None, Some b => key_len_ok alg b = false | Some b0, Some b => same_buf b0 b = false | Some _, None => True end) \/
  (exists e', f ctx alg a = (a', KrErr e')).
Proof.
  intros k f ctx alg a a' e Ef H. unfold keyring_on_encrypt in H. rewrite Ef in H.
  assert (X : (let (a', rc) := f ctx alg a in
      match rc with
      | KrUB => (a', KrUB)
      | _ =>
        match ka_key a, ka_key a' with
        | None, None => (a', rc)
        | None, Some b => if key_len_ok alg b then (a', rc) else (a', KrErr E_BAD_STATE)
        | Some b0, Some b => if same_buf b0 b then (a', rc) else (a', KrErr E_BAD_STATE)
        | Some _, None => (a', KrErr E_BAD_STATE)
        end
      end) = (a', KrErr e) \/ a' = a).
  { destruct (ka_key a), (ka_edks a); auto. right. congruence. }
  clear H. destruct X as [H| ->]; [|now left]. destruct (f ctx alg a) as [a1 rc] eqn:F.
  assert (a1 = a') by (destruct rc, (ka_key a), (ka_key a1); try congruence; match type of H with (if ?c then _ else _) = _ => destruct c end; congruence). subst a1.
  right. destruct rc as [|e'|]; [|right; right; eauto|discriminate]. right. left. split; auto.
  destruct (ka_key a) as [b0|], (ka_key a') as [b|]; auto.
  - destruct (same_buf b0 b); [discriminate|auto].
  - destruct (key_len_ok alg b); [discriminate|auto].
  - discriminate.
Qed.

Definition keeps (ke : keyring) : Prop := forall ctx alg a a' e, keyring_on_encrypt ke ctx alg a = (a', KrErr e) -> ka_trace a' = ka_trace a.
Lemma same_buf_refl : forall b, same_buf b b = true.
Proof. intros b. unfold same_buf. now rewrite !N.eqb_refl. Qed.
Lemma finish_keeps : forall ev a key er edks tr rc a' e, kms_finish ev a key er edks tr rc = (a', KrErr e) -> ka_trace a' = ka_trace a.
Proof.
  intros ev a key er edks tr rc a' e H. unfold kms_finish in H. destruct rc; [|injection H as <- _; reflexivity|discriminate].
  destruct (transfer_list (kv_edks ev) (ka_edks a) edks) as [[d s] ok]. destruct ok.
  - destruct (transfer_list (kv_trace ev) (ka_trace a) tr) as [[d2 s2] ok2]. discriminate.
  - injection H as <- _. reflexivity.
Qed.
(** What the check of line 125-133 of materials.c asks of a keyring. *)
Definition passes (alg : N) (a a' : kargs) : Prop :=
  match ka_key a, ka_key a' with
  | None, None => True
  | None, Some b => key_len_ok alg b = true
  | Some b0, Some b => same_buf b0 b = true
  | Some _, None => False
  end.
Lemma keeps_by : forall k f, kr_encrypt k = Some f ->
  (forall ctx alg a a' e, f ctx alg a = (a', KrErr e) -> ka_trace a' = ka_trace a) ->
  (forall ctx alg a a', f ctx alg a = (a', KrOk) -> (ka_key a = None -> ka_edks a = []) -> passes alg a a') -> keeps k.
Proof.
  intros k f Ef FE FO ctx alg a a' e H.
  assert (G : (ka_key a = None -> ka_edks a = []) \/ a' = a).
  { destruct (ka_key a) eqn:K; [left; discriminate|]. destruct (ka_edks a) eqn:E; [now left|]. right. rewrite on_encrypt_guard in H by congruence. congruence. }
  destruct G as [G|G]; [|now rewrite G]. destruct (failed_wrapper _ _ _ _ _ _ _ Ef H) as [->|[F|[[F C]|[e' F]]]]; [reflexivity|exact (FE _ _ _ _ _ F)| |exact (FE _ _ _ _ _ F)].
  exfalso. pose proof (FO _ _ _ _ F G) as P. unfold passes in P. destruct (ka_key a), (ka_key a'); try congruence; auto.
Qed.

Lemma kms_keeps : forall k ev, sane_kms ev -> keeps (kms_keyring k ev).
Proof.
  intros k ev SK. eapply keeps_by; [reflexivity| |].
  - intros ctx alg a a' e H. cbn beta in H. unfold kms_on_encrypt in H. destruct (kk_ids k) as [|gen others]; [discriminate|].
    destruct (kv_fail ev 0); [cbn [snd] in H; congruence|]. destruct (kv_fail ev 1); [cbn [snd] in H; congruence|]. destruct (ka_key a) as [b|].
    + destruct (kms_enc_loop k ev ctx (kb_bytes b) 0 (gen :: others) [] []) as [lg [[es ts] r]]. cbn [snd] in H. exact (finish_keeps _ _ _ _ _ _ _ _ _ H).
    + destruct (alg_lookup alg) as [q|]; [|cbn [snd] in H; congruence]. destruct (kv_client ev 0 (parse_region gen)); cbn [negb] in H; [|cbn [snd] in H; congruence].
      destruct (kv_call ev 0 _) as [z|]; [|cbn [snd] in H; congruence]. unfold append_edk in H. destruct (kv_fail ev 2); [cbn [snd] in H; congruence|]. destruct (kv_fail ev 3); [cbn [snd] in H; congruence|].
      match type of H with context [kms_enc_loop k ev ctx ?P 1 others ?E ?T] => destruct (kms_enc_loop k ev ctx P 1 others E T) as [lg [[es ts] r]] end.
      cbn [snd] in H. exact (finish_keeps _ _ _ _ _ _ _ _ _ H).
  - intros ctx alg a a' H _. cbn beta in H. unfold kms_on_encrypt in H. unfold passes. destruct (kk_ids k) as [|gen others].
    { cbn [snd] in H. injection H as <-. destruct (ka_key a); [apply same_buf_refl|exact I]. }
    destruct (kv_fail ev 0); [discriminate|]. destruct (kv_fail ev 1); [discriminate|]. destruct (ka_key a) as [b|] eqn:KA.
    + destruct (kms_enc_loop k ev ctx (kb_bytes b) 0 (gen :: others) [] []) as [lg [[es ts] r]]. cbn [snd] in H.
      apply finish_traces in H as (_ & -> & _). apply same_buf_refl.
    + destruct (alg_lookup alg) as [q|] eqn:AL; [|discriminate]. destruct (kv_client ev 0 (parse_region gen)); cbn [negb] in H; [|discriminate].
      destruct (kv_call ev 0 _) as [z|] eqn:CA; [|discriminate]. unfold append_edk in H. destruct (kv_fail ev 2); [discriminate|]. destruct (kv_fail ev 3); [discriminate|].
      match type of H with context [kms_enc_loop k ev ctx ?P 1 others ?E ?T] => destruct (kms_enc_loop k ev ctx P 1 others E T) as [lg [[es ts] r]] end.
      cbn [snd] in H. apply finish_traces in H as (_ & -> & _). destruct (SK _ _ _ CA) as (_ & _ & _ & _ & G). destruct (G _ eq_refl) as [G1 _].
      unfold dup_key, key_len_ok. destruct (kx_plain z) as [|c p]; [exact I|]. rewrite AL. cbn [kb_bytes]. now rewrite G1, N.eqb_refl.
Qed.
Lemma mrk_keeps : forall k ev, sane_kms ev -> keeps (mrk_keyring k ev).
Proof.
  intros k ev SK. eapply keeps_by; [reflexivity| |].
  - intros ctx alg a a' e H. cbn beta in H. unfold mrk_on_encrypt in H. destruct (is_empty (mk_id k)); [cbn [snd] in H; congruence|].
    destruct (kv_fail ev 0); [cbn [snd] in H; congruence|]. destruct (kv_fail ev 1); [cbn [snd] in H; congruence|]. destruct (ka_key a) as [b|].
    + destruct (kv_client ev 0 (parse_region (mk_id k))); cbn [negb] in H; [|cbn [snd] in H; congruence].
      destruct (kv_call ev 0 _) as [z|]; [|cbn [snd] in H; congruence]. destruct (is_valid_kms_key_arn (kx_key z)); cbn [negb] in H; [|cbn [snd] in H; congruence].
      unfold append_edk in H. destruct (kv_fail ev 4); [cbn [snd] in H; congruence|]. cbn [snd] in H. exact (finish_keeps _ _ _ _ _ _ _ _ _ H).
    + destruct (alg_lookup alg) as [q|]; [|cbn [snd] in H; congruence]. destruct (kv_client ev 0 (parse_region (mk_id k))); cbn [negb] in H; [|cbn [snd] in H; congruence].
      destruct (kv_call ev 0 _) as [z|]; [|cbn [snd] in H; congruence]. destruct (Nlen (kx_plain z) =? _); cbn [negb] in H; [|cbn [snd] in H; congruence].
      destruct (is_valid_kms_key_arn (kx_key z)); cbn [negb] in H; [|cbn [snd] in H; congruence].
      unfold append_edk in H. destruct (kv_fail ev 2); [cbn [snd] in H; congruence|]. destruct (kv_fail ev 3); [cbn [snd] in H; congruence|].
      cbn [snd] in H. exact (finish_keeps _ _ _ _ _ _ _ _ _ H).
  - intros ctx alg a a' H _. cbn beta in H. unfold mrk_on_encrypt in H. unfold passes. destruct (is_empty (mk_id k)); [discriminate|].
    destruct (kv_fail ev 0); [discriminate|]. destruct (kv_fail ev 1); [discriminate|]. destruct (ka_key a) as [b|] eqn:KA.
    + destruct (kv_client ev 0 (parse_region (mk_id k))); cbn [negb] in H; [|discriminate].
      destruct (kv_call ev 0 _) as [z|]; [|discriminate]. destruct (is_valid_kms_key_arn (kx_key z)); cbn [negb] in H; [|discriminate].
      unfold append_edk in H. destruct (kv_fail ev 4); [discriminate|]. cbn [snd] in H. apply finish_traces in H as (_ & -> & _). apply same_buf_refl.
    + destruct (alg_lookup alg) as [q|] eqn:AL; [|discriminate]. destruct (kv_client ev 0 (parse_region (mk_id k))); cbn [negb] in H; [|discriminate].
      destruct (kv_call ev 0 _) as [z|] eqn:CA; [|discriminate]. destruct (Nlen (kx_plain z) =? _); cbn [negb] in H; [|discriminate].
      destruct (is_valid_kms_key_arn (kx_key z)); cbn [negb] in H; [|discriminate].
      unfold append_edk in H. destruct (kv_fail ev 2); [discriminate|]. destruct (kv_fail ev 3); [discriminate|].
      cbn [snd] in H. apply finish_traces in H as (_ & -> & _). destruct (SK _ _ _ CA) as (_ & _ & _ & _ & G). destruct (G _ eq_refl) as [G1 _].
      unfold dup_key, key_len_ok. destruct (kx_plain z) as [|c p]; [exact I|]. rewrite AL. cbn [kb_bytes]. now rewrite G1, N.eqb_refl.
Qed.

Lemma list_passes : forall l ctx alg a a' b, ka_key a = Some b -> encrypt_on_list l ctx alg a = (a', KrOk) ->
  exists b', ka_key a' = Some b' /\ kb_meta b' = kb_meta b /\ Nlen (kb_bytes b') = Nlen (kb_bytes b).
Proof.
  induction l as [|k l IH]; intros ctx alg a a' b K H; cbn [encrypt_on_list] in H; [injection H as <-; eauto|].
  destruct (keyring_on_encrypt k ctx alg a) as [a1 rc] eqn:E. destruct rc; try discriminate.
  apply on_encrypt_inv in E as [_ E]. destruct (E eq_refl) as (_ & _ & _ & B). destruct (B b K) as (b1 & K1 & M1 & L1).
  destruct (IH _ _ _ _ _ K1 H) as (b2 & K2 & M2 & L2). exists b2. split; auto. split; congruence.
Qed.
Lemma multi_keeps : forall m mem, keeps (multi_keyring m mem).
Proof.
  intros m mem. eapply keeps_by; [reflexivity| |].
  - intros ctx alg a a' e H. cbn beta in H. unfold multi_on_encrypt in H. destruct (mm_init mem); [congruence|]. cbv zeta in H.
    match type of H with (let (_, _) := ?X in _) = _ => destruct X as [my1 rc1] end.
    destruct rc1; [|injection H as <- _; reflexivity|discriminate]. destruct (ka_key my1) as [b|] eqn:K; [|injection H as <- _; reflexivity].
    destruct (encrypt_on_list (m_children m) ctx alg my1) as [my2 rc2]. destruct rc2; [|injection H as <- _; reflexivity|discriminate].
    destruct (transfer_list (mm_edks mem) (ka_edks a) (ka_edks my2)) as [[d s] ok]. destruct ok; [|injection H as <- _; reflexivity].
    destruct (transfer_list (mm_trace mem) (ka_trace a) (ka_trace my2)) as [[d2 s2] ok2]. discriminate.
  - intros ctx alg a a' H _. cbn beta in H. unfold multi_on_encrypt in H. destruct (mm_init mem); [discriminate|]. cbv zeta in H.
    destruct (match m_generator m with None => (mk_kargs (ka_key a) [] [], KrOk) | Some g => keyring_on_encrypt g ctx alg (mk_kargs (ka_key a) [] []) end) as [my1 rc1] eqn:G.
    destruct rc1; try discriminate. destruct (ka_key my1) as [b|] eqn:K; [|discriminate].
    destruct (encrypt_on_list (m_children m) ctx alg my1) as [my2 rc2] eqn:L. destruct rc2; try discriminate.
    destruct (list_passes _ _ _ _ _ _ K L) as (b2 & K2 & M2 & L2).
    destruct (transfer_list (mm_edks mem) (ka_edks a) (ka_edks my2)) as [[d s] ok]. destruct ok; [|discriminate].
    destruct (transfer_list (mm_trace mem) (ka_trace a) (ka_trace my2)) as [[d2 s2] ok2]. injection H as <-. unfold passes. cbn [ka_key]. rewrite K2.
    destruct (m_generator m) as [g|].
    + apply on_encrypt_inv in G as [_ G]. destruct (G eq_refl) as (_ & _ & N1 & S1). cbn [ka_key] in N1, S1. destruct (ka_key a) as [b0|].
      * destruct (S1 b0 eq_refl) as (b1 & K1 & M1 & L1). assert (b1 = b) by congruence. subst b1. unfold same_buf. now rewrite M2, M1, L2, L1, !N.eqb_refl.
      * destruct (N1 b eq_refl K) as [SU LN]. apply key_len_ok_spec. split; congruence.
    + injection G as <-. cbn [ka_key] in K. rewrite K. unfold same_buf. now rewrite M2, L2, !N.eqb_refl.
Qed.
Lemma C78_failure_lemma : forall cr rs t ctx alg a a' e, Forall writer_ok (leaves t) ->
  keyring_on_encrypt (tree_keyring cr rs t) ctx alg a = (a', KrErr e) -> ka_trace a' = ka_trace a.
Proof.
  intros cr rs t ctx alg a a' e WO H. destruct t as [x|g l mem].
  - inversion WO as [|y l X _]; subst. destruct x as [[[k|k] ke]|k ev|k ev]; cbn [tree_keyring leaf_keyring raw_keyring fst snd] in H.
    + destruct X as (_ & [RS _] & _). cbn [snd] in RS. now rewrite (C43_failure_lemma _ _ _ _ _ _ _ _ RS H).
    + destruct X as (_ & [RS _] & _). cbn [snd] in RS. now rewrite (C45_failure_lemma _ _ _ _ _ _ _ _ RS H).
    + destruct X as [_ X]. exact (kms_keeps k ev X _ _ _ _ _ H).
    + exact (mrk_keeps k ev X _ _ _ _ _ H).
  - exact (multi_keeps _ _ _ _ _ _ _ H).
Qed.

(** ** Decryption *)
Definition found (cr : crypto) (rs : rsa) (alg : N) (ctx : enc_ctx) (edks : list edk) (d d' : dargs) (ys : list leaf) : Prop :=
  da_key d' = None /\ da_trace d' = da_trace d \/
  exists y e b recs, In y ys /\ In e edks /\ da_key d' = Some b /\ unwraps cr rs y ctx alg e (kb_bytes b) /\
    da_trace d' = da_trace d ++ recs /\ subseq recs [unwrap_record y e] /\ (leaf_records y -> recs = [unwrap_record y e]).
Definition tells (cr : crypto) (rs : rsa) (kd : keyring) (alg : N) (ys : list leaf) : Prop := forall ctx edks d d' rc,
  suite alg -> distinct_keys ctx -> Forall edk_is_bytes edks -> da_key d = None ->
  keyring_on_decrypt kd edks ctx alg d = (d', rc) -> found cr rs alg ctx edks d d' ys.

Lemma kms_loop_tells : forall k ev ctx edks i log key pl, kms_dec_loop k ev ctx i edks = (log, DcFound key pl) ->
  exists e r j z, In e edks /\ kms_eligible k e r /\ key = edk_provider_info e /\
    kv_call ev j (decrypt_request (kk_grants k) ctx e r (edk_provider_info e)) = Some z /\ kx_key z = edk_provider_info e /\ kx_plain z = pl.
Proof.
  intros k ev ctx. induction edks as [|e edks IH]; intros i log key pl H; cbn [kms_dec_loop] in H; [discriminate|].
  assert (SKIP : forall i log, kms_dec_loop k ev ctx i edks = (log, DcFound key pl) -> exists e0 r j z, In e0 (e :: edks) /\ kms_eligible k e0 r /\ key = edk_provider_info e0 /\
    kv_call ev j (decrypt_request (kk_grants k) ctx e0 r (edk_provider_info e0)) = Some z /\ kx_key z = edk_provider_info e0 /\ kx_plain z = pl).
  { intros i0 lg L. destruct (IH _ _ _ _ L) as (e0 & r & j & z & I & X). exists e0, r, j, z. split; [now right|exact X]. }
  destruct (kms_select k e) as [reg|] eqn:SEL; [|exact (SKIP _ _ H)]. destruct (kv_client ev i reg); cbn [negb] in H; [|exact (SKIP _ _ H)].
  destruct (kv_call ev i _) as [z|] eqn:CA.
  - destruct (bytes_eqb (kx_key z) (edk_provider_info e)) eqn:B; [|discriminate]. injection H as <- <- <-. apply bytes_eqb_spec in B.
    exists e, reg, i, z. split; [now left|]. split; [now apply kms_select_spec|]. auto.
  - destruct (kms_dec_loop k ev ctx (S i) edks) as [lg r] eqn:L. injection H as <- ->. exact (SKIP _ _ L).
Qed.
Lemma mrk_loop_tells : forall k ev ctx len edks i failed log key pl, mrk_dec_loop k ev ctx len failed i edks = (log, MkFound key pl) ->
  exists e r id j z, In e edks /\ mrk_eligible k e r id /\ key = edk_provider_info e /\
    kv_call ev j (decrypt_request (mk_grants k) ctx e r id) = Some z /\ kx_key z = id /\ kx_plain z = pl.
Proof.
  intros k ev ctx len. induction edks as [|e edks IH]; intros i failed log key pl H; cbn [mrk_dec_loop] in H; [discriminate|].
  assert (SKIP : forall i failed log, mrk_dec_loop k ev ctx len failed i edks = (log, MkFound key pl) -> exists e0 r id j z, In e0 (e :: edks) /\ mrk_eligible k e0 r id /\ key = edk_provider_info e0 /\
    kv_call ev j (decrypt_request (mk_grants k) ctx e0 r id) = Some z /\ kx_key z = id /\ kx_plain z = pl).
  { intros i0 fl lg L. destruct (IH _ _ _ _ _ L) as (e0 & r & id & j & z & I & X). exists e0, r, id, j, z. split; [now right|exact X]. }
  destruct (mrk_select k e) as [[reg id]|] eqn:SEL; [|exact (SKIP _ _ _ H)]. destruct (kv_client ev i reg); cbn [negb] in H; [|exact (SKIP _ _ _ H)].
  destruct (kv_call ev i _) as [z|] eqn:CA.
  - destruct len as [n|]; [|discriminate]. destruct (negb (Nlen (kx_plain z) =? n) || negb (bytes_eqb (kx_key z) id)) eqn:B.
    + destruct (mrk_dec_loop k ev ctx (Some n) true (S i) edks) as [lg r] eqn:L. injection H as <- ->. exact (SKIP _ _ _ L).
    + injection H as <- <- <-. apply orb_false_elim in B as [_ B]. apply negb_false_iff, bytes_eqb_spec in B.
      exists e, reg, id, i, z. split; [now left|]. split; [now apply mrk_select_spec|]. auto.
  - match type of H with (let (_, _) := ?X in _) = _ => destruct X as [lg r] eqn:L end. injection H as <- ->. exact (SKIP _ _ _ L).
Qed.

Lemma decrypt_wrapper : forall k f edks ctx alg d d' rc, keyring_on_decrypt k edks ctx alg d = (d', rc) ->
  da_key d = None -> kr_decrypt k = Some f -> fst (f edks ctx alg d) = d'.
Proof.
  intros k f edks ctx alg d d' rc H DK Ef. unfold keyring_on_decrypt in H. rewrite DK, Ef in H. destruct (f edks ctx alg d) as [a1 r]. cbn [fst].
  destruct r, (da_key a1); try congruence; destruct (key_len_ok alg k0); congruence.
Qed.
Lemma leaf_tells : forall cr rs y alg, crypto_sizes cr -> reader_ok y -> solid y -> tells cr rs (leaf_keyring cr rs y) alg [y].
Proof.
  intros cr rs y alg CS RO SO ctx edks d d' rc SU D EB DK H. unfold found. destruct y as [[[k|k] ke]|k ev|k ev]; cbn [leaf_keyring raw_keyring fst snd] in H.
  - destruct RO as [RO _]. cbn [fst] in RO.
    assert (BA : Forall (fun e => bytes_ok (edk_provider_info e)) edks) by (eapply Forall_impl; [|exact EB]; intros e E; apply E).
    pose proof (decrypt_wrapper _ _ _ _ _ _ _ _ H DK eq_refl) as X. unfold raw_aes_on_decrypt in X.
    destruct (serialize_aad_init (ke_fail ke 0) ctx) as [aad|x] eqn:A; [|left; cbn [fst] in X; now subst d'].
    apply aad_spec in A as (M0 & F2 & ->). destruct (lookup_suite _ SU) as [q L]. rewrite L in X.
    destruct (ke_fail ke 1) as [x|] eqn:M1; [left; cbn [fst] in X; now subst d'|].
    destruct (C43_search_lemma cr k ke edks ctx alg d (proj1 RO) SU D F2 BA M0 M1 CS DK) as (d2 & R & S).
    assert (d2 = d') by congruence. subst d2. destruct (aes_first_edk _ _ _ _ _) as [dk|]; cbn [fst] in X; [|left; now subst d'].
    right. rewrite <- X in S. cbn [da_key da_trace kb_bytes] in S. destruct S as (_ & l1 & e & l2 & EQ & O & _).
    destruct (add_one (no_failure (ke_fail ke 2)) (da_trace d) (ra_ns k) (ra_name k) (N.lor FLAG_DECRYPTED FLAG_VERIFIED_CTX)) as (recs & E & SB & FU).
    exists (LRaw (RawAes k, ke)), e, (mk_kbuf (ke_meta ke) dk), recs. rewrite <- X. cbn [da_key da_trace kb_bytes]. split; [now left|].
    split; [rewrite EQ; apply in_or_app; right; now left|]. split; [reflexivity|]. split; [exact O|]. split; [exact E|]. split; [exact SB|].
    intros [_ M2]. apply FU. now rewrite M2.
  - destruct RO as [RO _]. cbn [fst] in RO.
    pose proof (decrypt_wrapper _ _ _ _ _ _ _ _ H DK eq_refl) as X. unfold raw_rsa_on_decrypt in X.
    destruct (rr_priv k) as [priv|] eqn:PR; [|left; cbn [fst] in X; now subst d']. rewrite DK in X.
    destruct (C45_search_lemma rs k ke priv edks ctx alg d (proj1 RO) PR SU DK) as (d2 & rc2 & R & S).
    assert (d2 = d') by congruence. subst d2. destruct (rsa_first_edk _ _ _ _) as [dk|]; cbn [fst] in X; [|left; now subst d'].
    right. rewrite <- X in S. cbn [da_key da_trace kb_bytes] in S. destruct S as (_ & _ & l1 & e & l2 & EQ & O & _).
    destruct (add_one (no_failure (ke_fail ke 0)) (da_trace d) (rr_ns k) (rr_name k) FLAG_DECRYPTED) as (recs & E & SB & FU).
    exists (LRaw (RawRsa k, ke)), e, (mk_kbuf (ke_meta ke) dk), recs. rewrite <- X. cbn [da_key da_trace kb_bytes]. split; [now left|].
    split; [rewrite EQ; apply in_or_app; right; now left|]. split; [reflexivity|]. split; [exists priv; split; [exact PR|exact O]|]. split; [exact E|]. split; [exact SB|].
    intros [_ M2]. apply FU. now rewrite M2.
  - pose proof (decrypt_wrapper _ _ _ _ _ _ _ _ H DK eq_refl) as X. cbn beta in X. unfold kms_on_decrypt in X.
    destruct (kms_dec_loop k ev ctx 0 edks) as [log r] eqn:L. cbn [snd] in X. destruct r as [|key pl|]; [left; cbn [fst] in X; now subst d'| |left; cbn [fst] in X; now subst d'].
    destruct (kv_fail ev 0); cbn [fst] in X; [left; now subst d'|]. destruct (kms_loop_tells _ _ _ _ _ _ _ _ L) as (e & r & j & z & Ie & EL & -> & CA & KZ & PZ).
    assert (NE : pl <> []) by (rewrite <- PZ; eapply SO; [reflexivity|exact CA|reflexivity]).
    destruct (add_one (kv_record ev 0) (da_trace d) KEY_PROVIDER_STR (key_name (edk_provider_info e)) (N.lor FLAG_DECRYPTED FLAG_VERIFIED_CTX)) as (recs & E & SB & FU).
    right. exists (LKms k ev), e, (mk_kbuf (kv_meta ev) pl), recs. rewrite <- X, c_string_name. cbn [da_key da_trace kb_bytes]. split; [now left|]. split; [exact Ie|].
    split; [unfold dup_key; destruct pl; congruence|]. split; [exists r, (edk_provider_info e), j, z; cbn [may_ask]; auto|]. split; [exact E|]. split; [exact SB|].
    intros [M _]. exact (FU (M 0%nat)).
  - pose proof (decrypt_wrapper _ _ _ _ _ _ _ _ H DK eq_refl) as X. cbn beta in X. unfold mrk_on_decrypt in X. rewrite DK in X. cbn [key_bytes is_empty negb] in X. cbv zeta in X.
    match type of X with context [mrk_dec_loop k ev ctx ?Z false 0 edks] => destruct (mrk_dec_loop k ev ctx Z false 0 edks) as [log r] eqn:L end.
    cbn [snd] in X. destruct r as [f|key pl|]; [left; cbn [fst] in X; now subst d'| |left; cbn [fst] in X; now subst d'].
    destruct (kv_fail ev 0); cbn [fst] in X; [left; now subst d'|]. destruct (mrk_loop_tells _ _ _ _ _ _ _ _ _ _ L) as (e & r & id & j & z & Ie & EL & -> & CA & KZ & PZ).
    assert (NE : pl <> []) by (rewrite <- PZ; eapply SO; [reflexivity|exact CA|reflexivity]).
    destruct (add_one (kv_record ev 0) (da_trace d) KEY_PROVIDER_STR (key_name (edk_provider_info e)) (N.lor FLAG_DECRYPTED FLAG_VERIFIED_CTX)) as (recs & E & SB & FU).
    right. exists (LMrk k ev), e, (mk_kbuf (kv_meta ev) pl), recs. rewrite <- X, c_string_name. cbn [da_key da_trace kb_bytes]. split; [now left|]. split; [exact Ie|].
    split; [unfold dup_key; destruct pl; congruence|]. split; [exists r, id, j, z; cbn [may_ask]; auto|]. split; [exact E|]. split; [exact SB|].
    intros [M _]. exact (FU (M 0%nat)).
Qed.

Lemma found_more : forall cr rs alg ctx edks d d' ys zs, found cr rs alg ctx edks d d' ys -> (forall y, In y ys -> In y zs) -> found cr rs alg ctx edks d d' zs.
Proof.
  intros cr rs alg ctx edks d d' ys zs [F|(y & e & b & recs & I & X)] Z; [now left|]. right. exists y, e, b, recs. split; [now apply Z|exact X].
Qed.
Lemma list_tells : forall cr rs alg l ctx edks, Forall (fun t => tells cr rs (tree_keyring cr rs t) alg (leaves t)) l ->
  suite alg -> distinct_keys ctx -> Forall edk_is_bytes edks -> forall d d' failed rc, da_key d = None ->
  decrypt_on_list (map (tree_keyring cr rs) l) edks ctx alg failed d = (d', rc) -> found cr rs alg ctx edks d d' (flat_map leaves l).
Proof.
  intros cr rs alg l ctx edks F SU D EB. induction F as [|t l R F IH]; intros d d' failed rc DK H; cbn [map decrypt_on_list flat_map] in *.
  - injection H as <- _. left. auto.
  - destruct (keyring_on_decrypt (tree_keyring cr rs t) edks ctx alg d) as [d1 r1] eqn:E. pose proof (R _ _ _ _ _ SU D EB DK E) as X.
    assert (X1 : found cr rs alg ctx edks d d1 (leaves t ++ flat_map leaves l)) by (apply (found_more _ _ _ _ _ _ _ _ _ X); intros y I; apply in_or_app; now left).
    destruct (da_key d1) as [b|] eqn:K1.
    { destruct r1; injection H as <- _; exact X1. }
    destruct X as [[_ T]|(y & e & b & recs & _ & _ & B & _)]; [|congruence].
    assert (NEXT : forall fl, decrypt_on_list (map (tree_keyring cr rs) l) edks ctx alg fl d1 = (d', rc) -> found cr rs alg ctx edks d d' (leaves t ++ flat_map leaves l)).
    { intros fl N. pose proof (IH _ _ _ _ K1 N) as Y. unfold found in Y. rewrite T in Y. apply (found_more _ _ _ _ _ _ _ _ _ Y). intros y I. apply in_or_app. now right. }
    destruct r1; [exact (NEXT _ H)|exact (NEXT _ H)|]. injection H as <- _. exact X1.
Qed.
Lemma tree_tells : forall cr rs alg t, crypto_sizes cr -> Forall reader_ok (leaves t) -> Forall solid (leaves t) -> tells cr rs (tree_keyring cr rs t) alg (leaves t).
Proof.
  intros cr rs alg t CS. induction t as [x|g l mem IHg IHl] using tree_ind2; intros RO SO.
  - inversion RO; inversion SO; subst. now apply leaf_tells.
  - intros ctx edks d d' rc SU D EB DK H. cbn [leaves] in *. apply Forall_app in RO as [RG RL]. apply Forall_app in SO as [SG SL].
    assert (FL : Forall (fun t => tells cr rs (tree_keyring cr rs t) alg (leaves t)) l).
    { clear -RL SL IHl. induction IHl as [|t l H F IH]; constructor; cbn [flat_map] in RL, SL; apply Forall_app in RL as [R1 R2]; apply Forall_app in SL as [S1 S2]; auto. }
    cbn [tree_keyring] in H. pose proof (decrypt_wrapper _ _ _ _ _ _ _ _ H DK eq_refl) as X. cbn beta in X. unfold multi_on_decrypt in X. cbn [m_generator m_children] in X.
    destruct g as [g|].
    + destruct (decrypt_on_list (tree_keyring cr rs g :: map (tree_keyring cr rs) l) edks ctx alg KrOk d) as [d1 r1] eqn:E. cbn [fst] in X. subst d1.
      refine (list_tells cr rs alg (g :: l) ctx edks _ SU D EB _ _ _ _ DK E). constructor; [exact (IHg g eq_refl RG SG)|exact FL].
    + destruct (decrypt_on_list (map (tree_keyring cr rs) l) edks ctx alg KrOk d) as [d1 r1] eqn:E. cbn [fst] in X. subst d1.
      exact (list_tells cr rs alg l ctx edks FL SU D EB _ _ _ _ DK E).
Qed.
Lemma C78_decrypt_lemma : forall cr rs t ctx alg edks d d' rc, crypto_sizes cr -> Forall reader_ok (leaves t) -> Forall solid (leaves t) ->
  suite alg -> distinct_keys ctx -> Forall edk_is_bytes edks -> da_key d = None ->
  keyring_on_decrypt (tree_keyring cr rs t) edks ctx alg d = (d', rc) ->
  da_key d' = None /\ da_trace d' = da_trace d \/
  exists y e b recs, In y (leaves t) /\ In e edks /\ da_key d' = Some b /\ unwraps cr rs y ctx alg e (kb_bytes b) /\
    da_trace d' = da_trace d ++ recs /\ subseq recs [unwrap_record y e] /\ (leaf_records y -> recs = [unwrap_record y e]).
Proof. intros cr rs t ctx alg edks d d' rc CS RO SO SU D EB DK H. exact (tree_tells cr rs alg t CS RO SO _ _ _ _ _ SU D EB DK H). Qed.
