(** Keyrings of any shape: proofs. *)
From Verif Require Import Base AlgModel EncCtxModel HdrModel FrameModel CryptoModel SessionModel KeyringModel KmsModel
  BaseProofs WireSpec SessionSpec StreamSpec LiveSpec KeyringSpec KmsSpec StackSpec TreeSpec EncCtxProofs HdrProofs CodecTheorems
  KeyringProofs RawKeyringProofs ArnProofs KmsProofs MrkProofs StackProofs StackTheorems StackKeyrings.
From Coq Require Import Permutation String ZArith ZifyBool ZifyNat ZifyN.
Import List.
Open Scope list_scope.
Open Scope N_scope.

Lemma tree_ind2 : forall P : tree -> Prop, (forall x, P (TLeaf x)) ->
  (forall g l mem, (forall t, g = Some t -> P t) -> Forall P l -> P (TMulti g l mem)) -> forall t, P t.
Proof.
  intros P HL HM. fix IH 1. intros [x|g l mem]; [apply HL|]. apply HM.
  - intros t E. destruct g as [g|]; [|discriminate]. injection E as <-. apply IH.
  - induction l as [|t l IHl]; constructor; [apply IH|exact IHl].
Qed.

(** ** Reading *)
Definition leaf_safe (cr : crypto) (rs : rsa) (y : leaf) (ctx : enc_ctx) (alg : N) (e : edk) (p : list N) : Prop :=
  match y with
  | LRaw (RawAes k, _) => forall dk, aes_opens cr k ctx alg e dk -> dk = p
  | LRaw (RawRsa k, _) => forall priv dk, rr_priv k = Some priv -> rsa_opens rs k priv e dk -> dk = p
  | LKms k ev => forall r key j z, may_ask y e r key -> kv_call ev j (decrypt_request (kk_grants k) ctx e r key) = Some z -> kx_key z = key /\ kx_plain z = p
  | LMrk k ev => forall r key j z, may_ask y e r key -> kv_call ev j (decrypt_request (mk_grants k) ctx e r key) = Some z -> kx_key z = key /\ kx_plain z = p
  end.
Definition leaf_must (cr : crypto) (rs : rsa) (y : leaf) (ctx : enc_ctx) (alg : N) (e : edk) (p : list N) : Prop :=
  match y with
  | LRaw (RawAes k, ke) => kenv_works ke /\ ctx_fits ctx /\ aes_opens cr k ctx alg e p
  | LRaw (RawRsa k, _) => exists priv, rr_priv k = Some priv /\ rsa_opens rs k priv e p
  | LKms k ev => calm ev /\ exists r key, may_ask y e r key /\ forall j, kv_call ev j (decrypt_request (kk_grants k) ctx e r key) <> None
  | LMrk k ev => calm ev /\ exists r key, may_ask y e r key /\ forall j, kv_call ev j (decrypt_request (mk_grants k) ctx e r key) <> None
  end.

(** A keyring that opens no EDK wrongly, given those it may not open wrongly and those it must open. *)
Definition reads (kd : keyring) (alg : N) (safe must : enc_ctx -> edk -> list N -> Prop) : Prop := forall ctx edks p d,
  suite alg -> distinct_keys ctx -> Nlen p = suite_key_len alg -> Forall edk_is_bytes edks -> da_key d = None ->
  (forall e, In e edks -> safe ctx e p) ->
  exists d' rc, keyring_on_decrypt kd edks ctx alg d = (d', rc) /\ rc <> KrUB /\
    (da_key d' = None \/ rc = KrOk /\ exists b', da_key d' = Some b' /\ kb_bytes b' = p) /\
    ((exists e, In e edks /\ must ctx e p) -> da_key d' <> None).

Lemma kms_loop_reads : forall cr rs k ev ctx alg p edks i log r, kms_dec_loop k ev ctx i edks = (log, r) ->
  (forall e, In e edks -> leaf_safe cr rs (LKms k ev) ctx alg e p) ->
  match r with
  | DcWrong => False
  | DcFound _ pl => pl = p
  | DcNone => forall e, In e edks -> ~ leaf_must cr rs (LKms k ev) ctx alg e p
  end.
Proof.
  intros cr rs k ev ctx alg p. induction edks as [|e edks IH]; intros i log r H SF; cbn [kms_dec_loop] in H.
  - injection H as <- <-. intros e [].
  - assert (S' : forall e, In e edks -> leaf_safe cr rs (LKms k ev) ctx alg e p) by (intros; apply SF; now right).
    pose proof (SF e (or_introl eq_refl)) as SE. cbn [leaf_safe may_ask] in SE.
    assert (SKIP : forall r, ~ leaf_must cr rs (LKms k ev) ctx alg e p ->
      match r with DcWrong => False | DcFound _ pl => pl = p | DcNone => forall e, In e edks -> ~ leaf_must cr rs (LKms k ev) ctx alg e p end ->
      match r with DcWrong => False | DcFound _ pl => pl = p | DcNone => forall e0, In e0 (e :: edks) -> ~ leaf_must cr rs (LKms k ev) ctx alg e0 p end).
    { intros r0 N. destruct r0; auto. intros X e0 [<-|I]; auto. }
    destruct (kms_select k e) as [reg|] eqn:SEL.
    + pose proof SEL as EL. apply kms_select_spec in EL.
      assert (UNIQ : forall r0, kms_eligible k e r0 -> r0 = reg) by (intros r0 X; apply kms_select_spec in X; congruence).
      destruct (kv_client ev i reg) eqn:CL; cbn [negb] in H.
      * destruct (kv_call ev i _) as [z|] eqn:CA.
        -- destruct (SE reg _ i z (conj EL eq_refl) CA) as [K P]. rewrite K, bytes_eqb_refl in H. injection H as <- <-. exact P.
        -- destruct (kms_dec_loop k ev ctx (S i) edks) as [lg r0] eqn:L. injection H as <- <-. apply SKIP; [|eapply IH; eauto].
           intros [_ (r1 & key & [E1 ->] & A)]. rewrite (UNIQ _ E1) in A. exact (A i CA).
      * apply SKIP; [|eapply IH; eauto]. intros [[C _] (r1 & key & [E1 _] & _)]. rewrite (C i reg) in CL. discriminate.
    + apply SKIP; [|eapply IH; eauto]. intros [_ (r1 & key & [E1 _] & _)]. apply kms_select_spec in E1. congruence.
Qed.
Lemma mrk_loop_reads : forall cr rs k ev ctx alg p edks i failed log r, mrk_dec_loop k ev ctx (mrk_len alg) failed i edks = (log, r) ->
  suite alg -> Nlen p = suite_key_len alg ->
  (forall e, In e edks -> leaf_safe cr rs (LMrk k ev) ctx alg e p) ->
  match r with
  | MkUB => False
  | MkFound _ pl => pl = p
  | MkNone _ => forall e, In e edks -> ~ leaf_must cr rs (LMrk k ev) ctx alg e p
  end.
Proof.
  intros cr rs k ev ctx alg p. induction edks as [|e edks IH]; intros i failed log r H SU PL SF; cbn [mrk_dec_loop] in H.
  - injection H as <- <-. intros e [].
  - assert (S' : forall e, In e edks -> leaf_safe cr rs (LMrk k ev) ctx alg e p) by (intros; apply SF; now right).
    pose proof (SF e (or_introl eq_refl)) as SE. cbn [leaf_safe may_ask] in SE.
    assert (SKIP : forall r, ~ leaf_must cr rs (LMrk k ev) ctx alg e p ->
      match r with MkUB => False | MkFound _ pl => pl = p | MkNone _ => forall e, In e edks -> ~ leaf_must cr rs (LMrk k ev) ctx alg e p end ->
      match r with MkUB => False | MkFound _ pl => pl = p | MkNone _ => forall e0, In e0 (e :: edks) -> ~ leaf_must cr rs (LMrk k ev) ctx alg e0 p end).
    { intros r0 N. destruct r0; auto. intros X e0 [<-|I]; auto. }
    destruct (mrk_select k e) as [[reg key]|] eqn:SEL.
    + pose proof SEL as EL. apply mrk_select_spec in EL.
      assert (UNIQ : forall r0 k0, mrk_eligible k e r0 k0 -> r0 = reg /\ k0 = key) by (intros r0 k0 X; apply mrk_select_spec in X; split; congruence).
      destruct (kv_client ev i reg) eqn:CL; cbn [negb] in H.
      * destruct (kv_call ev i _) as [z|] eqn:CA.
        -- destruct (SE reg _ i z EL CA) as [K P]. unfold mrk_len in H. destruct (lookup_suite _ SU) as [q AL]. rewrite AL in H.
           destruct (lookup_len _ _ AL) as (_ & CK & _). rewrite CK, P, PL, N.eqb_refl, K, bytes_eqb_refl in H. cbn [negb orb] in H. injection H as <- <-. reflexivity.
        -- destruct (mrk_dec_loop k ev ctx (mrk_len alg) _ (S i) edks) as [lg r0] eqn:L. injection H as <- <-. apply SKIP; [|eapply IH; eauto].
           intros [_ (r1 & k1 & E1 & A)]. destruct (UNIQ _ _ E1) as [-> ->]. exact (A i CA).
      * apply SKIP; [|eapply IH; eauto]. intros [[C _] _]. rewrite (C i reg) in CL. discriminate.
    + apply SKIP; [|eapply IH; eauto]. intros [_ (r1 & k1 & E1 & _)]. apply mrk_select_spec in E1. congruence.
Qed.

(** The part of a KMS keyring's decryption after its loop. *)
Lemma answer_reads : forall alg p ev d tr rc, suite alg -> Nlen p = suite_key_len alg -> da_key d = None ->
  rc = match kv_fail ev 0 with Some e => (mk_dargs None (da_trace d), KrErr e) | None => (mk_dargs (dup_key (kv_meta ev) p) tr, KrOk) end ->
  exists d' r, (let (a', rc) := rc in match rc with KrUB => (a', KrUB) | _ => match da_key a' with None => (a', rc) | Some b => if key_len_ok alg b then (a', rc) else (a', KrErr E_BAD_CIPHERTEXT) end end) = (d', r)
    /\ r <> KrUB /\ (da_key d' = None \/ r = KrOk /\ exists b', da_key d' = Some b' /\ kb_bytes b' = p) /\ (calm ev -> da_key d' <> None).
Proof.
  intros alg p ev d tr rc SU PL DK ->. destruct (kv_fail ev 0) as [e|] eqn:F.
  - cbn [da_key]. do 2 eexists. split; [reflexivity|]. split; [discriminate|]. split; [now left|]. intros (_ & X & _). rewrite X in F. discriminate.
  - cbn [da_key]. unfold dup_key. destruct p as [|c p]; [now destruct (key_len_nz alg)|].
    assert (KO : key_len_ok alg (mk_kbuf (kv_meta ev) (c :: p)) = true) by (apply key_len_ok_spec; auto). rewrite KO.
    do 2 eexists. split; [reflexivity|]. split; [discriminate|]. split; [right; split; auto; eexists; cbn; split; reflexivity|]. intros _. discriminate.
Qed.

Lemma leaf_reads : forall cr rs y alg, crypto_sizes cr -> reader_ok y ->
  reads (leaf_keyring cr rs y) alg (fun ctx e p => leaf_safe cr rs y ctx alg e p) (fun ctx e p => leaf_must cr rs y ctx alg e p).
Proof.
  intros cr rs y alg CS RO ctx edks p d SU D PL EB DK SAFE. destruct y as [[[k|k] ke]|k ev|k ev]; cbn [leaf_keyring raw_keyring fst snd].
  - destruct RO as [RO _]. cbn [fst] in RO.
    assert (BA : Forall (fun e => bytes_ok (edk_provider_info e)) edks) by (eapply Forall_impl; [|exact EB]; intros e E; apply E).
    destruct (serialize_aad_init (ke_fail ke 0) ctx) as [aad|x] eqn:A.
    + apply aad_spec in A as (M0 & F2 & ->). destruct (ke_fail ke 1) as [x|] eqn:M1.
      * exists d, (KrErr x). split.
        { unfold keyring_on_decrypt. rewrite DK. cbn [kr_decrypt raw_aes_keyring]. unfold raw_aes_on_decrypt.
          assert (AA : serialize_aad_init (ke_fail ke 0) ctx = Ok (wire_ctx (ctx_sort ctx))) by (apply aad_spec; auto). rewrite AA.
          destruct (lookup_suite _ SU) as [q L]. rewrite L, M1. now rewrite DK. }
        split; [discriminate|]. split; [now left|]. intros (e & _ & KW & _). rewrite (KW 1%nat) in M1. discriminate.
      * destruct (C43_search_lemma cr k ke edks ctx alg d (proj1 RO) SU D F2 BA M0 M1 CS DK) as (d' & R & S).
        exists d', KrOk. split; [exact R|]. split; [discriminate|]. destruct (da_key d') as [b'|] eqn:DB.
        -- split; [|intros; discriminate]. right. split; auto. exists b'. split; auto. destruct S as (_ & m1 & e1 & m2 & EQ & O1 & _).
           assert (J : In e1 edks) by (rewrite EQ; apply in_or_app; right; now left). exact (SAFE _ J _ O1).
        -- split; [now left|]. intros (e & Je & _ & _ & O). destruct S as [_ S]. exfalso. exact (S _ _ Je O).
    + exists d, (KrErr x). split.
      { unfold keyring_on_decrypt. rewrite DK. cbn [kr_decrypt raw_aes_keyring]. unfold raw_aes_on_decrypt. rewrite A. now rewrite DK. }
      split; [discriminate|]. split; [now left|]. intros (e & _ & KW & F & _).
      assert (AA : serialize_aad_init (ke_fail ke 0) ctx = Ok (wire_ctx (ctx_sort ctx))) by (apply aad_spec; auto). congruence.
  - destruct RO as [RO _]. cbn [fst] in RO. destruct (rr_priv k) as [priv|] eqn:PR.
    + destruct (C45_search_lemma rs k ke priv edks ctx alg d (proj1 RO) PR SU DK) as (d' & rc & R & S).
      exists d', rc. split; [exact R|]. destruct (da_key d') as [b'|] eqn:DB.
      * destruct S as (RC & _ & m1 & e1 & m2 & EQ & O1 & _).
        assert (BR : kb_bytes b' = p).
        { assert (J : In e1 edks) by (rewrite EQ; apply in_or_app; right; now left). exact (SAFE _ J _ _ PR O1). }
        rewrite BR, PL, N.eqb_refl in RC. rewrite RC. split; [discriminate|]. split; [|intros; discriminate]. right. eauto.
      * destruct S as (-> & _ & S). split; [discriminate|]. split; [now left|]. intros (e & Je & priv' & PR' & O). assert (priv' = priv) by congruence. subst.
        exfalso. exact (S _ _ Je O).
    + exists d, (KrErr E_BAD_STATE). split; [apply C45_missing_lemma; auto|]. split; [discriminate|]. split; [now left|].
      intros (e & _ & priv' & PR' & _). congruence.
  - unfold keyring_on_decrypt. rewrite DK. cbn [kms_keyring kr_decrypt]. unfold kms_on_decrypt. destruct (kms_dec_loop k ev ctx 0 edks) as [log r] eqn:L.
    pose proof (kms_loop_reads cr rs _ _ _ alg p _ _ _ _ L SAFE) as X. cbn [snd]. destruct r as [|key pl|]; [| |destruct X].
    + rewrite DK. exists d, KrOk. split; [reflexivity|]. split; [discriminate|]. split; [now left|]. intros (e & I & M) _. exact (X e I M).
    + subst pl. edestruct (answer_reads alg p ev d) as (d' & r & E1 & E2 & E3 & E4); [exact SU|exact PL|exact DK|reflexivity|].
      exists d', r. split; [exact E1|]. split; [exact E2|]. split; [exact E3|]. intros (e & _ & C & _). exact (E4 C).
  - unfold keyring_on_decrypt. rewrite DK. cbn [mrk_keyring kr_decrypt]. unfold mrk_on_decrypt. rewrite DK. cbn [key_bytes is_empty negb].
    fold (mrk_len alg). destruct (mrk_dec_loop k ev ctx (mrk_len alg) false 0 edks) as [log r] eqn:L.
    pose proof (mrk_loop_reads cr rs _ _ _ alg p _ _ _ _ _ L SU PL SAFE) as X. cbn [snd]. destruct r as [f|key pl|]; [| |destruct X].
    + exists d, (if f then KrErr E_KMS_FAILURE else KrOk). split; [destruct f; now rewrite DK|]. split; [destruct f; discriminate|]. split; [now left|].
      intros (e & I & M) _. exact (X e I M).
    + subst pl. edestruct (answer_reads alg p ev d) as (d' & r & E1 & E2 & E3 & E4); [exact SU|exact PL|exact DK|reflexivity|].
      exists d', r. split; [exact E1|]. split; [exact E2|]. split; [exact E3|]. intros (e & _ & C & _). exact (E4 C).
Qed.

Definition tree_safe (cr : crypto) (rs : rsa) (alg : N) (t : tree) (ctx : enc_ctx) (e : edk) (p : list N) : Prop :=
  forall y, In y (leaves t) -> leaf_safe cr rs y ctx alg e p.
Definition tree_must (cr : crypto) (rs : rsa) (alg : N) (t : tree) (ctx : enc_ctx) (e : edk) (p : list N) : Prop :=
  exists y, In y (leaves t) /\ leaf_must cr rs y ctx alg e p.

Lemma list_reads : forall cr rs alg l ctx edks p, Forall (fun t => reads (tree_keyring cr rs t) alg (tree_safe cr rs alg t) (tree_must cr rs alg t)) l ->
  suite alg -> distinct_keys ctx -> Nlen p = suite_key_len alg -> Forall edk_is_bytes edks ->
  (forall t e, In t l -> In e edks -> tree_safe cr rs alg t ctx e p) -> forall d failed, da_key d = None -> failed <> KrUB ->
  exists d' rc, decrypt_on_list (map (tree_keyring cr rs) l) edks ctx alg failed d = (d', rc) /\ rc <> KrUB /\
    (da_key d' = None \/ rc = KrOk /\ exists b', da_key d' = Some b' /\ kb_bytes b' = p) /\
    ((exists t e, In t l /\ In e edks /\ tree_must cr rs alg t ctx e p) -> da_key d' <> None).
Proof.
  intros cr rs alg l ctx edks p F SU D PL EB. induction F as [|t l R F IH]; intros SAFE d failed DK NF; cbn [map decrypt_on_list].
  - exists d, failed. split; [reflexivity|]. split; [exact NF|]. split; [now left|]. intros (t & e & [] & _).
  - destruct (R ctx edks p d SU D PL EB DK (fun e I => SAFE t e (or_introl eq_refl) I)) as (d1 & rc & E & U & OUT & MUST). rewrite E.
    destruct OUT as [N|[-> [b' [B1 B2]]]].
    + rewrite N. assert (NF2 : match rc with KrOk => failed | _ => rc end <> KrUB) by (destruct rc; congruence).
      destruct (IH (fun t0 e I => SAFE t0 e (or_intror I)) d1 _ N NF2) as (d' & rc' & E2 & U2 & O2 & M2).
      exists d', rc'. split; [destruct rc; [exact E2|exact E2|congruence]|]. split; [exact U2|]. split; [exact O2|].
      intros (t0 & e & [<-|I] & Ie & M); [exfalso; apply MUST; eauto|]. apply M2. eauto.
    + rewrite B1. exists d1, KrOk. split; [reflexivity|]. split; [discriminate|]. split; [right; eauto|]. intros _. congruence.
Qed.

Lemma tree_reads : forall cr rs alg t, crypto_sizes cr -> Forall reader_ok (leaves t) ->
  reads (tree_keyring cr rs t) alg (tree_safe cr rs alg t) (tree_must cr rs alg t).
Proof.
  intros cr rs alg t CS. induction t as [x|g l mem IHg IHl] using tree_ind2; intros RO.
  - intros ctx edks p d SU D PL EB DK SAFE. inversion RO; subst.
    destruct (leaf_reads cr rs x alg CS ltac:(auto) ctx edks p d SU D PL EB DK) as (d' & rc & E1 & E2 & E3 & E4).
    + intros e I. apply (SAFE e I). now left.
    + exists d', rc. split; [exact E1|]. split; [exact E2|]. split; [exact E3|]. intros (e & I & y & [<-|[]] & M). apply E4. eauto.
  - intros ctx edks p d SU D PL EB DK SAFE. cbn [leaves] in RO. apply Forall_app in RO as [RG RL].
    set (l' := match g with Some g => g :: l | None => l end).
    assert (FL : Forall (fun t => reads (tree_keyring cr rs t) alg (tree_safe cr rs alg t) (tree_must cr rs alg t)) l).
    { clear -RL IHl. induction IHl as [|t l H F IH]; constructor; cbn [flat_map] in RL; apply Forall_app in RL as [R1 R2]; auto. }
    assert (FL' : Forall (fun t => reads (tree_keyring cr rs t) alg (tree_safe cr rs alg t) (tree_must cr rs alg t)) l').
    { unfold l'. destruct g as [g|]; auto. }
    assert (LV : forall y, In y (leaves (TMulti g l mem)) <-> exists t, In t l' /\ In y (leaves t)).
    { intros y. cbn [leaves]. rewrite in_app_iff, in_flat_map. unfold l'. destruct g as [g|]; cbn [In].
      - split; [intros [I|(t & I & J)]; eauto|]. intros (t & [<-|I] & J); eauto.
      - split; [intros [[]|(t & I & J)]; eauto|]. intros (t & I & J); eauto. }
    destruct (list_reads cr rs alg l' ctx edks p FL' SU D PL EB) with (d := d) (failed := KrOk) as (d' & rc & E1 & E2 & E3 & E4); [|exact DK|discriminate|].
    { intros t e I J y Iy. apply (SAFE e J). apply LV. eauto. }
    assert (DEC : keyring_on_decrypt (tree_keyring cr rs (TMulti g l mem)) edks ctx alg d =
      let (a', rc) := decrypt_on_list (map (tree_keyring cr rs) l') edks ctx alg KrOk d in
      match rc with KrUB => (a', KrUB) | _ => match da_key a' with None => (a', rc) | Some b => if key_len_ok alg b then (a', rc) else (a', KrErr E_BAD_CIPHERTEXT) end end).
    { unfold keyring_on_decrypt. rewrite DK. cbn [tree_keyring multi_keyring kr_decrypt]. unfold multi_on_decrypt. cbn [m_generator m_children]. unfold l'.
      destruct g; reflexivity. }
    exists d', rc. split; [|split; [exact E2|split; [exact E3|]]].
    + rewrite DEC, E1. destruct E3 as [N|[-> [b' [B1 B2]]]]; [rewrite N; destruct rc; congruence|]. rewrite B1.
      assert (KO : key_len_ok alg b' = true) by (apply key_len_ok_spec; split; congruence). now rewrite KO.
    + intros (e & I & y & J & M). apply E4. apply LV in J as (t & J1 & J2). exists t, e. split; [exact J1|]. split; [exact I|]. exists y. auto.
Qed.

(** ** Writing *)
(** What [x] makes of the data key for its key [s]. *)
Definition wrote (cr : crypto) (rs : rsa) (x : leaf) (s : list N) (ctx : enc_ctx) (alg : N) (p : list N) (e : edk) : Prop :=
  match x with
  | LRaw x => made cr rs (fst x) ctx alg p e
  | LKms _ ev | LMrk _ ev => exists i rq z, kv_call ev i rq = Some z /\ kq_key rq = s /\ kq_ctx rq = ctx /\ wrapped_plain rq z = Some p /\ e = answer_edk z
  end.

Definition good_key (alg : N) (b : kbuf) : Prop := Nlen (kb_bytes b) = suite_key_len alg /\ bytes_ok (kb_bytes b).
Definition writes (cr : crypto) (rs : rsa) (ke : keyring) (pl : list (leaf * list N)) (alg : N) : Prop := forall ctx a a',
  (forall b, ka_key a = Some b -> good_key alg b) -> keyring_on_encrypt ke ctx alg a = (a', KrOk) ->
  exists es, ka_edks a' = ka_edks a ++ es /\
    match ka_key a' with
    | Some b => (forall b0, ka_key a = Some b0 -> b = b0) /\ good_key alg b /\
        Forall2 (fun q e => wrote cr rs (fst q) (snd q) ctx alg (kb_bytes b) e) pl es
    | None => ka_key a = None /\ es = [] /\ pl = []
    end.

Lemma enc_loop_wrote : forall k ev ctx p ids i edks tr log edks' tr', kms_enc_loop k ev ctx p i ids edks tr = (log, (edks', tr', KrOk)) ->
  exists es, edks' = edks ++ es /\
    Forall2 (fun s e => exists i rq z, kv_call ev i rq = Some z /\ kq_key rq = s /\ kq_ctx rq = ctx /\ wrapped_plain rq z = Some p /\ e = answer_edk z) ids es.
Proof.
  intros k ev ctx p. induction ids as [|id ids IH]; intros i edks tr log edks' tr' H; cbn [kms_enc_loop] in H.
  - injection H as <- <- <-. exists []. rewrite app_nil_r. auto.
  - destruct (kv_client ev i (parse_region id)); cbn [negb] in H; [|discriminate].
    destruct (kv_call ev i _) as [z|] eqn:CA; [|discriminate]. unfold append_edk in H. destruct (kv_fail ev (4 + i)%nat); [discriminate|].
    match type of H with (let (log, out) := kms_enc_loop k ev ctx p ?I ids ?E ?T in _) = _ => destruct (kms_enc_loop k ev ctx p I ids E T) as [lg [[es ts] r]] eqn:L end.
    injection H as <- <- <- ->. destruct (IH _ _ _ _ _ _ L) as (es1 & -> & F). exists (answer_edk z :: es1). rewrite <- app_assoc. split; [reflexivity|].
    constructor; [|exact F]. exists i. eexists. exists z. split; [exact CA|]. repeat split.
Qed.

Lemma kms_writes : forall cr rs k ev alg, sane_kms ev -> writes cr rs (kms_keyring k ev) (map (pair (LKms k ev)) (kk_ids k)) alg.
Proof.
  intros cr rs k ev alg SK ctx a a' PRE H. apply on_encrypt_inv in H as [_ H]. destruct (H eq_refl) as ((f & Ef & H') & _ & KL & _). clear H.
  injection Ef as <-. unfold kms_on_encrypt in H'. 
  assert (MP : forall p ids es, Forall2 (fun s e => exists i rq z, kv_call ev i rq = Some z /\ kq_key rq = s /\ kq_ctx rq = ctx /\ wrapped_plain rq z = Some p /\ e = answer_edk z) ids es ->
    Forall2 (fun q e => wrote cr rs (fst q) (snd q) ctx alg p e) (map (pair (LKms k ev)) ids) es).
  { intros p ids es F. induction F; cbn [map]; constructor; auto. }
  destruct (kk_ids k) as [|gen others].
  { cbn [snd] in H'. injection H' as <-. exists []. rewrite app_nil_r. split; auto. destruct (ka_key a) as [b|]; [|auto].
    split; [congruence|]. split; [now apply PRE|]. constructor. }
  destruct (kv_fail ev 0); [discriminate|]. destruct (kv_fail ev 1); [discriminate|]. destruct (ka_key a) as [b|] eqn:KA.
  - destruct (kms_enc_loop k ev ctx (kb_bytes b) 0 (gen :: others) [] []) as [lg [[es ts] r]] eqn:L. cbn [snd] in H'.
    apply finish_ok in H'. destruct H' as (-> & K' & E' & _). destruct (enc_loop_wrote _ _ _ _ _ _ _ _ _ _ _ L) as (es1 & -> & F).
    exists es1. split; [exact E'|]. rewrite K'. split; [congruence|]. split; [now apply PRE|]. now apply MP.
  - destruct (alg_lookup alg) as [q|] eqn:AL; [|discriminate]. destruct (kv_client ev 0 (parse_region gen)); cbn [negb] in H'; [|discriminate].
    destruct (kv_call ev 0 _) as [z|] eqn:CA; [|discriminate]. unfold append_edk in H'. destruct (kv_fail ev 2); [discriminate|]. destruct (kv_fail ev 3); [discriminate|].
    match type of H' with context [kms_enc_loop k ev ctx ?P 1 others ?E ?T] => destruct (kms_enc_loop k ev ctx P 1 others E T) as [lg [[es ts] r]] eqn:L end.
    cbn [snd] in H'. apply finish_ok in H'. destruct H' as (-> & K' & E' & _).
    destruct (SK _ _ _ CA) as (_ & _ & _ & _ & G). destruct (G _ eq_refl) as [G1 G2]. destruct (lookup_len _ _ AL) as (SU & _ & DL). rewrite DL in G1.
    unfold dup_key in K', L. destruct (kx_plain z) as [|c p] eqn:PZ; [now destruct (key_len_nz alg)|]. cbn [key_bytes kb_bytes] in L.
    destruct (enc_loop_wrote _ _ _ _ _ _ _ _ _ _ _ L) as (es1 & -> & F). cbn [app] in E'. exists (answer_edk z :: es1). split; [exact E'|].
    rewrite K'. split; [discriminate|]. split; [split; [exact G1|exact G2]|]. cbn [map]. constructor; [|now apply MP].
    cbn [fst snd kb_bytes wrote]. exists 0%nat. eexists. exists z. split; [exact CA|]. split; [reflexivity|]. split; [reflexivity|]. split; [unfold wrapped_plain; cbn [kq_op]; now rewrite PZ|reflexivity].
Qed.
Lemma mrk_writes : forall cr rs k ev alg, sane_kms ev -> writes cr rs (mrk_keyring k ev) [(LMrk k ev, mk_id k)] alg.
Proof.
  intros cr rs k ev alg SK ctx a a' PRE H. apply on_encrypt_inv in H as [_ H]. destruct (H eq_refl) as ((f & Ef & H') & _ & KL & _). clear H.
  injection Ef as <-. unfold mrk_on_encrypt in H'. destruct (is_empty (mk_id k)); [discriminate|].
  destruct (kv_fail ev 0); [discriminate|]. destruct (kv_fail ev 1); [discriminate|]. destruct (ka_key a) as [b|] eqn:KA.
  - destruct (kv_client ev 0 (parse_region (mk_id k))); cbn [negb] in H'; [|discriminate].
    destruct (kv_call ev 0 _) as [z|] eqn:CA; [|discriminate]. destruct (is_valid_kms_key_arn (kx_key z)); cbn [negb] in H'; [|discriminate].
    unfold append_edk in H'. destruct (kv_fail ev 4); [discriminate|]. cbn [snd app] in H'. apply finish_ok in H'. destruct H' as (_ & K' & E' & _).
    eexists. split; [exact E'|]. rewrite K'. split; [congruence|]. split; [now apply PRE|]. constructor; [|constructor].
    exists 0%nat. eexists. exists z. split; [exact CA|]. repeat split.
  - destruct (alg_lookup alg) as [q|] eqn:AL; [|discriminate]. destruct (kv_client ev 0 (parse_region (mk_id k))); cbn [negb] in H'; [|discriminate].
    destruct (kv_call ev 0 _) as [z|] eqn:CA; [|discriminate]. destruct (Nlen (kx_plain z) =? _); cbn [negb] in H'; [|discriminate].
    destruct (is_valid_kms_key_arn (kx_key z)); cbn [negb] in H'; [|discriminate]. unfold append_edk in H'.
    destruct (kv_fail ev 2); [discriminate|]. destruct (kv_fail ev 3); [discriminate|]. cbn [snd app] in H'. apply finish_ok in H'. destruct H' as (_ & K' & E' & _).
    destruct (SK _ _ _ CA) as (_ & _ & _ & _ & G). destruct (G _ eq_refl) as [G1 G2]. destruct (lookup_len _ _ AL) as (SU & _ & DL). rewrite DL in G1.
    unfold dup_key in K'. destruct (kx_plain z) as [|c p] eqn:PZ; [now destruct (key_len_nz alg)|].
    eexists. split; [exact E'|]. rewrite K'. split; [discriminate|]. split; [split; [exact G1|exact G2]|]. constructor; [|constructor].
    cbn [fst snd kb_bytes wrote]. exists 0%nat. eexists. exists z. split; [exact CA|]. split; [reflexivity|]. split; [reflexivity|]. split; [unfold wrapped_plain; cbn [kq_op]; now rewrite PZ|reflexivity].
Qed.
Lemma leaf_writes : forall cr rs x alg, crypto_sizes cr -> writer_ok x -> writes cr rs (leaf_keyring cr rs x) (map (pair x) (keys_of x)) alg.
Proof.
  intros cr rs x alg CS WO. destruct x as [x|k ev|k ev]; cbn [leaf_keyring keys_of].
  - destruct WO as (W1 & W2 & _). intros ctx a a' PRE H. destruct (raw_encrypt cr rs x ctx alg a a' CS W1 W2 PRE H) as (b & e & K & SM & ED & BL & BB & M).
    exists [e]. split; [exact ED|]. rewrite K. split; [exact SM|]. split; [split; auto|]. cbn [map]. constructor; [exact M|constructor].
  - apply kms_writes, WO.
  - apply mrk_writes, WO.
Qed.

Lemma list_writes : forall cr rs alg l, Forall (fun t => writes cr rs (tree_keyring cr rs t) (places t) alg) l ->
  forall ctx a a' b, ka_key a = Some b -> good_key alg b -> encrypt_on_list (map (tree_keyring cr rs) l) ctx alg a = (a', KrOk) ->
  ka_key a' = Some b /\ exists es, ka_edks a' = ka_edks a ++ es /\
    Forall2 (fun q e => wrote cr rs (fst q) (snd q) ctx alg (kb_bytes b) e) (flat_map places l) es.
Proof.
  intros cr rs alg l F. induction F as [|t l R F IH]; intros ctx a a' b K G H; cbn [map encrypt_on_list flat_map] in *.
  - injection H as <-. split; auto. exists []. rewrite app_nil_r. auto.
  - destruct (keyring_on_encrypt (tree_keyring cr rs t) ctx alg a) as [a1 rc] eqn:E. destruct rc; try discriminate.
    destruct (R ctx a a1 ltac:(congruence) E) as (es & ED & X). destruct (ka_key a1) as [b1|] eqn:K1; [|destruct X; congruence].
    destruct X as (SM & _ & M). rewrite (SM _ K) in *. destruct (IH ctx a1 a' b K1 G H) as (K2 & es2 & E2 & M2). split; auto.
    exists (es ++ es2). rewrite E2, ED, app_assoc. split; [reflexivity|]. now apply Forall2_app.
Qed.

Lemma places_multi : forall g l mem, places (TMulti g l mem) = match g with Some g => places g | None => [] end ++ flat_map places l.
Proof.
  intros g l mem. unfold places. cbn [leaves]. rewrite flat_map_app. f_equal; [destruct g; reflexivity|].
  induction l as [|t l IH]; cbn [flat_map]; [reflexivity|]. now rewrite flat_map_app, IH.
Qed.

Lemma tree_writes : forall cr rs alg t, crypto_sizes cr -> Forall writer_ok (leaves t) -> writes cr rs (tree_keyring cr rs t) (places t) alg.
Proof.
  intros cr rs alg t CS. induction t as [x|g l mem IHg IHl] using tree_ind2; intros WO.
  - inversion WO; subst. unfold places. cbn [leaves flat_map tree_keyring]. rewrite app_nil_r. now apply leaf_writes.
  - intros ctx a a' PRE H. rewrite places_multi. cbn [leaves] in WO. apply Forall_app in WO as [WG WL].
    assert (FL : Forall (fun t => writes cr rs (tree_keyring cr rs t) (places t) alg) l).
    { clear -WL IHl. induction IHl as [|t l H F IH]; constructor; cbn [flat_map] in WL; apply Forall_app in WL as [R1 R2]; auto. }
    apply on_encrypt_inv in H as [_ H]. destruct (H eq_refl) as ((f & Ef & H') & _ & _). clear H.
    cbn [tree_keyring multi_keyring kr_encrypt] in Ef. injection Ef as <-. unfold multi_on_encrypt in H'.
    destruct (mm_init mem); [discriminate|]. cbn [m_generator m_children] in H'. cbv zeta in H'.
    set (my := mk_kargs (ka_key a) [] []) in *.
    assert (GEN : exists my1, match (match g with Some g => Some (tree_keyring cr rs g) | None => None end) with
        | None => (my, KrOk) | Some g => keyring_on_encrypt g ctx alg my end = (my1, KrOk) /\
      forall b, ka_key my1 = Some b -> (forall b0, ka_key a = Some b0 -> b = b0) /\ good_key alg b /\
        Forall2 (fun q e => wrote cr rs (fst q) (snd q) ctx alg (kb_bytes b) e) (match g with Some g => places g | None => [] end) (ka_edks my1)).
    { destruct g as [g|].
      - destruct (keyring_on_encrypt (tree_keyring cr rs g) ctx alg my) as [my1 rc] eqn:E. destruct rc; try discriminate. exists my1. split; auto.
        intros b K. destruct (IHg g eq_refl WG ctx my my1 PRE E) as (es & ED & X). rewrite K in X. cbn [my ka_edks app] in ED. rewrite ED. exact X.
      - exists my. split; auto. intros b K. cbn [my ka_key ka_edks] in *. split; [congruence|]. split; [auto|constructor]. }
    destruct GEN as (my1 & E1 & X1). rewrite E1 in H'. destruct (ka_key my1) as [b|] eqn:K1; [|discriminate]. destruct (X1 b eq_refl) as (SM & G & M1).
    destruct (encrypt_on_list (map (tree_keyring cr rs) l) ctx alg my1) as [my2 rc2] eqn:E2. destruct rc2; try discriminate.
    destruct (list_writes _ _ _ _ FL ctx my1 my2 b K1 G E2) as (K2 & es & ED & M2).
    destruct (transfer_list (mm_edks mem) (ka_edks a) (ka_edks my2)) as [[edks rest] ok] eqn:T. destruct ok; [|discriminate].
    destruct (transfer_list (mm_trace mem) (ka_trace a) (ka_trace my2)) as [[tr rest2] ok2]. injection H' as <-. cbn [ka_key ka_edks].
    destruct (C51_transfer_lemma _ _ _ _ _ _ _ T) as [T1 _]. destruct (T1 eq_refl) as [-> _]. exists (ka_edks my2). split; [reflexivity|].
    rewrite K2. split; [exact SM|]. split; [exact G|]. rewrite ED. now apply Forall2_app.
Qed.

(** ** What is written is read *)
Lemma wrote_bytes : forall cr rs x s ctx alg p e, crypto_bytes cr -> rsa_bytes rs -> crypto_sizes cr -> writer_ok x -> suite alg ->
  Nlen p = suite_key_len alg -> bytes_ok p -> wrote cr rs x s ctx alg p e -> edk_is_bytes e /\ edk_fits e.
Proof.
  intros cr rs x s ctx alg p e CB RB CS WO SU PL PB W.
  assert (PT : bytes_ok (text "aws-kms") /\ fits16 (text "aws-kms")) by (split; [repeat (apply Forall_cons; [reflexivity|]); apply Forall_nil|unfold fits16; vm_compute; congruence]).
  destruct x as [x|k ev|k ev].
  - eapply made_bytes; eauto. apply WO.
  - destruct WO as [_ SK]. destruct W as (i & rq & z & CA & _ & _ & _ & ->). destruct (SK _ _ _ CA) as (A1 & A2 & A3 & A4 & _).
    unfold edk_is_bytes, edk_fits, answer_edk. cbn [edk_provider_id edk_provider_info edk_ciphertext]. destruct PT. auto.
  - destruct W as (i & rq & z & CA & _ & _ & _ & ->). destruct (WO _ _ _ CA) as (A1 & A2 & A3 & A4 & _).
    unfold edk_is_bytes, edk_fits, answer_edk. cbn [edk_provider_id edk_provider_info edk_ciphertext]. destruct PT. auto.
Qed.

Lemma wrote_service : forall cr rs x s ctx alg p e ev, service x = Some ev -> wrote cr rs x s ctx alg p e ->
  exists i rq z, kv_call ev i rq = Some z /\ kq_key rq = s /\ kq_ctx rq = ctx /\ wrapped_plain rq z = Some p /\ e = answer_edk z.
Proof. intros cr rs x s ctx alg p e ev S W. destruct x as [x|k ev'|k ev']; [discriminate| |]; injection S as <-; exact W. Qed.

Lemma may_ask_undoing : forall y z r key g rq ctx2, reader_ok y -> may_ask y (answer_edk z) r key -> Permutation ctx2 (kq_ctx rq) ->
  undoing rq z (decrypt_request g ctx2 (answer_edk z) r key).
Proof.
  intros y z r key g rq ctx2 RO A P. unfold undoing, decrypt_request. cbn [kq_op kq_ctx kq_key answer_edk edk_ciphertext]. split; [reflexivity|]. split; [exact P|].
  destruct y as [y|k ev|k ev]; cbn [may_ask] in A; [destruct A|left; apply A|]. now apply (eligible_key _ _ _ _ A) in RO.
Qed.
Lemma raw_ns_addressed : forall r e, addressed r e -> edk_provider_id e = raw_ns r.
Proof. intros [k|k] e A; apply A. Qed.
Lemma may_ask_ns : forall y e r key, may_ask y e r key -> edk_provider_id e = text "aws-kms".
Proof.
  intros [y|k ev|k ev] e r key A; cbn [may_ask] in A; [destruct A|apply A|].
  destruct A as [p r0 ac res N C|p r0 ac res p' r' ac' res' N C|p r0 ac res N C|p r0 ac res key N C]; apply C.
Qed.

Lemma service_cases : forall x, (exists y, x = LRaw y) \/ (exists ev, service x = Some ev).
Proof. intros [x|k ev|k ev]; cbn; eauto. Qed.

Lemma safe_service : forall cr rs y ev ctx alg e p, service y = Some ev ->
  (forall r key j z g, may_ask y e r key -> kv_call ev j (decrypt_request g ctx e r key) = Some z -> kx_key z = key /\ kx_plain z = p) ->
  leaf_safe cr rs y ctx alg e p.
Proof. intros cr rs y ev ctx alg e p S H. destruct y as [y|k ev'|k ev']; [discriminate| |]; injection S as ->; intros r key j z A C; eapply H; eauto. Qed.
Lemma fair_service : forall rs x y ev1 ev2, service x = Some ev1 -> service y = Some ev2 -> fair rs x y ->
  (forall i rq z r key, In (kq_key rq) (keys_of x) -> kv_call ev1 i rq = Some z -> ~ may_ask y (answer_edk z) r key) \/ truthful ev1 ev2.
Proof. intros rs x y ev1 ev2 S1 S2 F. destruct x; [discriminate| |]; apply F; auto. Qed.

Lemma wrote_safe : forall cr rs x s y ctx ctx2 alg p e, crypto_sizes cr -> dec_inverts cr -> writer_ok x -> reader_ok y -> fair rs x y -> In s (keys_of x) ->
  Nlen p = suite_key_len alg -> distinct_keys ctx -> Permutation ctx2 ctx -> wrote cr rs x s ctx alg p e -> leaf_safe cr rs y ctx2 alg e p.
Proof.
  intros cr rs x s y ctx ctx2 alg p e CS DI WO RO FA IS PL D P W.
  destruct (service_cases x) as [[[r ke] ->]|[ev1 S1]]; destruct (service_cases y) as [[[r2 ke2] ->]|[ev2 S2]].
  - cbn [fair fst wrote] in *. destruct r2 as [k2|k2]; cbn [leaf_safe].
    + intros dk O. destruct FA as [X|X].
      * exfalso. apply (X e); [apply W|]. destruct O as (iv & aad & c & t & Q1 & Q2 & Q3 & _). split; [auto|]. eauto.
      * destruct r as [k1|k1]; [|destruct X]. cbn in X. subst k1. destruct (aes_made_opens _ _ _ _ _ _ _ _ CS DI PL D P W) as [_ U]. now apply U.
    + intros priv dk PR O. destruct FA as [X|X].
      * exfalso. apply (X e); [apply W|]. destruct O as (Q1 & Q2 & _). split; auto.
      * destruct r as [k1|k1]; [destruct X|]. cbn in X. destruct X as (X1 & X2 & X3 & pub & priv' & X4 & X5 & X6).
        destruct W as [_ (pub' & seed & Y1 & Y2)]. assert (pub' = pub) by congruence. assert (priv' = priv) by congruence. subst pub' priv'.
        destruct (X6 _ _ _ _ Y2) as [_ Y3]. destruct O as (_ & _ & _ & O). rewrite X3 in O. congruence.
  - apply (safe_service _ _ _ _ _ _ _ _ S2). intros r0 key j z g A _. exfalso. apply may_ask_ns in A. destruct WO as (_ & _ & NS). cbn [fst] in NS.
    destruct W as [AD _]. cbn [fst] in AD. apply raw_ns_addressed in AD. congruence.
  - destruct (wrote_service _ _ _ _ _ _ _ _ _ S1 W) as (i & rq & z & _ & _ & _ & _ & ->). destruct RO as [_ NS]. cbn [fst] in NS.
    destruct r2 as [k2|k2]; cbn [leaf_safe raw_ns] in *.
    + intros dk (iv & aad & c & t & Q1 & _). unfold answer_edk in Q1. cbn [edk_provider_id] in Q1. exfalso. congruence.
    + intros priv dk _ (Q1 & _). unfold answer_edk in Q1. cbn [edk_provider_id] in Q1. exfalso. congruence.
  - destruct (wrote_service _ _ _ _ _ _ _ _ _ S1 W) as (i & rq & z & CA & KQ & CX & WP & ->).
    apply (safe_service _ _ _ _ _ _ _ _ S2). intros r key j z2 g A CB. destruct (fair_service _ _ _ _ _ S1 S2 FA) as [N|T].
    + exfalso. eapply N; [rewrite KQ; exact IS|exact CA|exact A].
    + rewrite <- CX in P. exact (T _ _ _ _ _ _ _ CA WP (may_ask_undoing _ _ _ _ g _ _ RO A P) CB).
Qed.

Lemma able_service : forall rs x y ev, service x = Some ev -> able rs x y ->
  exists ev1 ev2 s arn r key, service x = Some ev1 /\ service y = Some ev2 /\ serves ev1 s ev2 r key /\ calm ev2 /\
      In s (keys_of x) /\ named ev1 s arn /\ forall c, may_ask y (mk_edk (text "aws-kms") arn c) r key.
Proof. intros rs x y ev S A. destruct x; [discriminate| |]; exact A. Qed.
Lemma must_service : forall cr rs y ev ctx alg e p, service y = Some ev -> calm ev ->
  (exists r key, may_ask y e r key /\ forall j g, kv_call ev j (decrypt_request g ctx e r key) <> None) -> leaf_must cr rs y ctx alg e p.
Proof. intros cr rs y ev ctx alg e p S C (r & key & A & N). destruct y as [y|k ev'|k ev']; [discriminate| |]; injection S as ->; split; auto; exists r, key; auto. Qed.

Lemma wrote_must : forall cr rs x y ctx ctx2 alg p, crypto_sizes cr -> dec_inverts cr -> reader_ok y -> able rs x y ->
  Nlen p = suite_key_len alg -> distinct_keys ctx -> Permutation ctx2 ctx ->
  exists s, In s (keys_of x) /\ forall e, wrote cr rs x s ctx alg p e -> leaf_must cr rs y ctx2 alg e p.
Proof.
  intros cr rs x y ctx ctx2 alg p CS DI RO AB PL D P. destruct (service_cases x) as [[[r ke] ->]|[ev S1]].
  - exists []. split; [now left|]. intros e W. destruct y as [[r2 ke2]|k ev|k ev]; cbn [able fst snd] in AB;
      [|destruct AB as (? & ? & ? & ? & ? & ? & X & _); discriminate|destruct AB as (? & ? & ? & ? & ? & ? & X & _); discriminate].
    destruct AB as [X KW]. cbn [wrote fst] in W. destruct r2 as [k2|k2]; cbn [leaf_must].
    + destruct r as [k1|k1]; [|destruct X]. cbn in X. subst k1. split; [exact KW|]. split.
      * destruct W as [_ (iv & c & t & _ & _ & _ & _ & _ & _ & F)]. unfold ctx_fits in *. now rewrite (Nlen_wire_ctx_perm _ _ P).
      * apply (aes_made_opens _ _ _ _ _ _ _ _ CS DI PL D P W).
    + destruct r as [k1|k1]; [destruct X|]. cbn in X. destruct X as (X1 & X2 & X3 & pub & priv & X4 & X5 & X6). exists priv. split; [exact X5|].
      destruct W as [[A1 A2] (pub' & seed & Y1 & Y2)]. assert (pub' = pub) by congruence. subst. destruct (X6 _ _ _ _ Y2) as [Y4 Y3].
      unfold rsa_opens. rewrite X1, X2, X3. auto.
  - destruct (able_service _ _ _ _ S1 AB) as (ev1 & ev2 & s & arn & r & key & S1' & S2 & SV & CM & IS & NM & MA). exists s. split; [exact IS|]. intros e W.
    destruct (wrote_service _ _ _ _ _ _ _ _ _ S1' W) as (i & rq & z & CA & KQ & CX & WP & ->).
    assert (KX : kx_key z = arn) by (eapply NM; eauto; congruence). unfold answer_edk in *. rewrite KX.
    apply (must_service _ _ _ _ _ _ _ _ S2 CM). exists r, key. split; [apply MA|]. intros j g.
    specialize (MA (kx_cipher z)). rewrite <- KX in MA |- *. rewrite <- CX in P. exact (SV _ _ _ _ _ _ CA KQ WP (may_ask_undoing _ _ _ _ g _ _ RO MA P) eq_refl eq_refl).
Qed.

Lemma place_leaf : forall t x s, In (x, s) (places t) <-> In x (leaves t) /\ In s (keys_of x).
Proof.
  intros t x s. unfold places. rewrite in_flat_map. split.
  - intros (y & I & J). apply in_map_iff in J as (s' & E & J). injection E as <- <-. auto.
  - intros [I J]. exists x. split; auto. apply in_map_iff. eauto.
Qed.

Lemma all_wrote_bytes : forall cr rs alg ctx p t es, crypto_bytes cr -> rsa_bytes rs -> crypto_sizes cr -> Forall writer_ok (leaves t) -> suite alg ->
  Nlen p = suite_key_len alg -> bytes_ok p -> Forall2 (fun q e => wrote cr rs (fst q) (snd q) ctx alg p e) (places t) es ->
  Forall edk_is_bytes es /\ Forall edk_fits es.
Proof.
  intros cr rs alg ctx p t es CB RB CS WO SU PL PB F. destruct (forall2_in _ _ _ _ _ F) as [_ M2]. rewrite Forall_forall in WO.
  split; apply Forall_forall; intros e I; destruct (M2 _ I) as ([x s] & J & W); apply place_leaf in J as [J1 J2];
    destruct (wrote_bytes cr rs x s ctx alg p e CB RB CS (WO _ J1) SU PL PB W); auto.
Qed.

Lemma tree_fresh : forall cr rs t ctx alg a, crypto_sizes cr -> Forall writer_ok (leaves t) -> places t <> [] ->
  keyring_on_encrypt (tree_keyring cr rs t) ctx alg fresh_args = (a, KrOk) ->
  exists b, ka_key a = Some b /\ suite alg /\ good_key alg b /\ Forall2 (fun q e => wrote cr rs (fst q) (snd q) ctx alg (kb_bytes b) e) (places t) (ka_edks a).
Proof.
  intros cr rs t ctx alg a CS WO NE H. pose proof (on_encrypt_inv _ _ _ _ _ _ H) as [_ OI]. destruct (OI eq_refl) as (_ & _ & KL & _).
  destruct (tree_writes cr rs alg t CS WO ctx fresh_args a ltac:(intros b0 K0; discriminate) H) as (es & ED & X). cbn [fresh_args ka_edks app] in ED.
  destruct (ka_key a) as [b|] eqn:K; [|destruct X as (_ & _ & X); congruence]. destruct X as (_ & G & M). exists b. split; auto. split; [apply (KL b eq_refl eq_refl)|]. split; auto. now rewrite ED.
Qed.

Lemma C77_recovers_lemma : forall cr rs t u alg, crypto_sizes cr -> dec_inverts cr -> crypto_bytes cr -> rsa_bytes rs ->
  Forall writer_ok (leaves t) -> Forall reader_ok (leaves u) -> tree_rights rs t u ->
  recovers_any_order (tree_keyring cr rs t) (tree_keyring cr rs u) alg.
Proof.
  intros cr rs t u alg CS DI CB RB WO RO [FA (x & y & Ix & Iy & AB)] ctx a D _ H.
  assert (RY : reader_ok y) by (rewrite Forall_forall in RO; auto).
  assert (NE : places t <> []).
  { destruct (wrote_must cr rs x y [] [] alg (zeros (suite_key_len alg)) CS DI RY AB) as (s & IS & _); [apply Nlen_zeros|constructor|constructor|].
    intros E. assert (I : In (x, s) (places t)) by (apply place_leaf; auto). rewrite E in I. destruct I. }
  destruct (tree_fresh cr rs t ctx alg a CS WO NE H) as (b & K & SU & [BL BB] & M). exists b. split; [exact K|].
  intros ctx2 edks d P PE DK. destruct (all_wrote_bytes _ _ _ _ _ _ _ CB RB CS WO SU BL BB M) as [EB _].
  assert (EB' : Forall edk_is_bytes edks) by (eapply Permutation_Forall; [symmetry; exact PE|exact EB]).
  assert (D2 : distinct_keys ctx2) by (eapply distinct_perm; [symmetry; exact P|auto]).
  destruct (forall2_in _ _ _ _ _ M) as [M1 M2]. pose proof WO as WO'. rewrite Forall_forall in WO'. pose proof RO as RO'. rewrite Forall_forall in RO'.
  destruct (tree_reads cr rs alg u CS RO ctx2 edks (kb_bytes b) d SU D2 BL EB' DK) as (d' & rc & E1 & E2 & E3 & E4).
  { intros e I y0 Iy0. assert (I' : In e (ka_edks a)) by (eapply Permutation_in; eauto). destruct (M2 _ I') as ([x0 s0] & J & W). apply place_leaf in J as [J1 J2].
    apply (wrote_safe cr rs x0 s0 y0 ctx ctx2 alg (kb_bytes b) e CS DI (WO' _ J1) (RO' _ Iy0) (FA _ _ J1 Iy0) J2 BL D P W). }
  destruct E3 as [N|[-> [b' [B1 B2]]]]; [|exists d', b'; auto]. exfalso. apply E4; [|exact N].
  destruct (wrote_must cr rs x y ctx ctx2 alg (kb_bytes b) CS DI RY AB BL D P) as (s & IS & W).
  destruct (M1 (x, s)) as (e & Ie & We); [apply place_leaf; auto|]. exists e. split; [eapply Permutation_in; [symmetry; exact PE|exact Ie]|].
  exists y. split; [exact Iy|]. now apply W.
Qed.

Lemma Nlen_forall2 : forall A B (R : A -> B -> Prop) l m, Forall2 R l m -> Nlen m = Nlen l.
Proof. intros A B R l m F. induction F; [reflexivity|]. now rewrite !Nlen_cons, IHF. Qed.

Lemma C77_tidy_lemma : forall cr rs t alg, crypto_sizes cr -> crypto_bytes cr -> rsa_bytes rs ->
  Forall writer_ok (leaves t) -> places t <> [] -> Nlen (places t) <= 65535 -> tidy (tree_keyring cr rs t) alg (Nlen (places t)).
Proof.
  intros cr rs t alg CS CB RB WO NE LE. split; [exact LE|]. intros ctx a D _ H.
  destruct (tree_fresh cr rs t ctx alg a CS WO NE H) as (b & K & SU & [BL BB] & M). destruct (all_wrote_bytes _ _ _ _ _ _ _ CB RB CS WO SU BL BB M) as [EB EF].
  rewrite (Nlen_forall2 _ _ _ _ _ M). split; [|auto]. destruct (places t); [easy|]. rewrite Nlen_cons. lia.
Qed.

Lemma wrote_written : forall cr rs x s ctx alg p e, wrote cr rs x s ctx alg p e -> written_by x s ctx p e.
Proof. intros cr rs [x|k ev|k ev] s ctx alg p e W; [apply W|exact W|exact W]. Qed.
Lemma C77_writes_lemma : forall cr rs t ctx alg a, crypto_sizes cr -> Forall writer_ok (leaves t) -> places t <> [] ->
  keyring_on_encrypt (tree_keyring cr rs t) ctx alg fresh_args = (a, KrOk) ->
  exists b, ka_key a = Some b /\ Nlen (kb_bytes b) = suite_key_len alg /\ bytes_ok (kb_bytes b) /\
    Forall2 (fun q e => written_by (fst q) (snd q) ctx (kb_bytes b) e) (places t) (ka_edks a).
Proof.
  intros cr rs t ctx alg a CS WO NE H. destruct (tree_fresh cr rs t ctx alg a CS WO NE H) as (b & K & SU & [BL BB] & M). exists b. split; auto. split; auto. split; auto.
  clear -M. induction M; constructor; auto. eapply wrote_written; eauto.
Qed.

(** ** Wrapping works *)
Definition can_write (ke : keyring) (alg : N) : Prop := forall ctx a, ctx_fits ctx -> (forall b, ka_key a = Some b -> good_key alg b) ->
  ka_key a <> None -> exists a', keyring_on_encrypt ke ctx alg a = (a', KrOk).
Definition can_make (ke : keyring) (alg : N) : Prop := forall ctx, ctx_fits ctx -> exists a', keyring_on_encrypt ke ctx alg fresh_args = (a', KrOk).

Lemma enc_loop_works : forall k ev ctx p ids i edks tr, calm ev -> bytes_ok p -> Nlen p <= 32 -> (forall s, In s ids -> answers ev s) ->
  exists log edks' tr', kms_enc_loop k ev ctx p i ids edks tr = (log, (edks', tr', KrOk)).
Proof.
  intros k ev ctx p. induction ids as [|id ids IH]; intros i edks tr CM PB PL AN; cbn [kms_enc_loop]; [eauto|].
  destruct CM as (C1 & C2 & C3 & C4). rewrite C1. cbn [negb].
  match goal with |- context [kv_call ev i ?rq] => destruct (AN id (or_introl eq_refl) i rq eq_refl (conj PB PL)) as [z ->] end.
  unfold append_edk. rewrite C2. match goal with |- context [kms_enc_loop k ev ctx p ?I ids ?E ?T] => destruct (IH I E T) as (log & e' & t' & ->) end;
    [unfold calm; auto|exact PB|exact PL|intros s I; apply AN; now right|eauto].
Qed.
Lemma finish_works : forall ev a key er edks tr, calm ev -> exists a', kms_finish ev a key er edks tr KrOk = (a', KrOk) /\ ka_key a' = key.
Proof.
  intros ev a key er edks tr (_ & _ & C3 & C4). unfold kms_finish. destruct (transfer_list (kv_edks ev) (ka_edks a) edks) as [[d s] ok] eqn:T.
  destruct (C51_transfer_lemma _ _ _ _ _ _ _ T) as [_ T1]. rewrite T1 by (intros i _; apply C3).
  destruct (transfer_list (kv_trace ev) (ka_trace a) tr) as [[d2 s2] ok2]. eauto.
Qed.
(** Through the wrapper: the key was there and is unchanged, or is new and has the right length. *)
Lemma wrap_ok : forall ke f ctx alg a a', kr_encrypt ke = Some f -> f ctx alg a = (a', KrOk) -> (ka_key a = None -> ka_edks a = []) ->
  match ka_key a with Some b => ka_key a' = Some b | None => forall b, ka_key a' = Some b -> suite alg /\ Nlen (kb_bytes b) = suite_key_len alg end ->
  keyring_on_encrypt ke ctx alg a = (a', KrOk).
Proof.
  intros ke f ctx alg a a' Ef E G K. unfold keyring_on_encrypt. rewrite Ef, E. destruct (ka_key a) as [b|].
  - rewrite K. unfold same_buf. rewrite !N.eqb_refl. cbn [andb]. now destruct (ka_edks a).
  - rewrite (G eq_refl). destruct (ka_key a') as [b|]; auto. assert (KO : key_len_ok alg b = true) by (apply key_len_ok_spec; auto). now rewrite KO.
Qed.

Lemma leaf_can : forall cr rs x alg, crypto_sizes cr -> crypto_works cr -> writer_ok x -> leaf_works rs x -> suite alg ->
  can_write (leaf_keyring cr rs x) alg /\ (keys_of x <> [] -> can_make (leaf_keyring cr rs x) alg).
Proof.
  intros cr rs x alg CS CW WO LW SU. destruct (lookup_suite _ SU) as [q AL]. destruct (lookup_len _ _ AL) as (_ & CL & DL).
  assert (LE : suite_key_len alg <= 32) by (unfold suite_key_len; destruct (_ =? _); [|destruct (_ =? _)]; lia).
  destruct x as [x|k ev|k ev]; cbn [leaf_keyring keys_of].
  - destruct WO as (W1 & W2 & _). destruct LW as [L1 L2]. split.
    + intros ctx a F PRE NN. apply (raw_works cr rs x ctx alg a CS CW W1 W2 L1 L2 SU F); [congruence|exact PRE].
    + intros _ ctx F. apply (raw_works cr rs x ctx alg fresh_args CS CW W1 W2 L1 L2 SU F); [reflexivity|discriminate].
  - destruct WO as [KB SK]. destruct LW as [CM AN]. pose proof CM as (C1 & C2 & C3 & C4). split.
    + intros ctx a F PRE NN. destruct (ka_key a) as [b|] eqn:K; [|congruence].
      assert (X : exists a', snd (kms_on_encrypt k ev ctx alg a) = (a', KrOk) /\ ka_key a' = Some b).
      { unfold kms_on_encrypt. destruct (kk_ids k) as [|gen others]; [cbn [snd]; eauto|]. rewrite !C2, K.
        destruct (enc_loop_works k ev ctx (kb_bytes b) (gen :: others) 0 [] [] CM (proj2 (PRE _ eq_refl)) ltac:(rewrite (proj1 (PRE _ eq_refl)); exact LE) AN) as (log & es & tr & ->). cbn [snd]. now apply finish_works. }
      destruct X as (a' & E & K'). exists a'. eapply wrap_ok; [reflexivity|exact E|congruence|]. now rewrite K.
    + intros NE ctx F.
      assert (X : exists a', snd (kms_on_encrypt k ev ctx alg fresh_args) = (a', KrOk) /\ forall b, ka_key a' = Some b -> Nlen (kb_bytes b) = suite_key_len alg).
      { unfold kms_on_encrypt. destruct (kk_ids k) as [|gen others]; [easy|]. rewrite !C2. cbn [fresh_args ka_key]. rewrite AL, C1. cbn [negb].
        match goal with |- context [kv_call ev 0 ?rq] => destruct (AN gen (or_introl eq_refl) 0%nat rq eq_refl ltac:(cbn [kq_op wrapping]; rewrite DL; exact LE)) as [z CA] end. rewrite CA.
        destruct (SK _ _ _ CA) as (_ & _ & _ & _ & G). destruct (G _ eq_refl) as [G1 G2]. rewrite DL in G1. unfold append_edk. rewrite ?C2.
        match goal with |- context [kms_enc_loop k ev ctx ?P 1 others ?E ?T] => destruct (enc_loop_works k ev ctx P others 1 E T CM) as (log & es & tr & ->) end;
          [unfold dup_key; destruct (kx_plain z); [constructor|exact G2]|unfold dup_key; destruct (kx_plain z); cbn [key_bytes kb_bytes]; [discriminate|rewrite G1; exact LE]|intros s I; apply AN; now right|]. cbn [snd].
        match goal with |- context [kms_finish ev ?A ?K ?R ?E ?T KrOk] => destruct (finish_works ev A K R E T CM) as (a' & E2 & K2) end. exists a'. split; [exact E2|].
        intros b KB2. rewrite K2 in KB2. unfold dup_key in KB2. destruct (kx_plain z); [discriminate|]. injection KB2 as <-. cbn [kb_bytes]. congruence. }
      destruct X as (a' & E & K'). exists a'. eapply wrap_ok; [reflexivity|exact E|reflexivity|]. cbn [fresh_args ka_key]. auto.
  - destruct LW as (NI & CM & AN & VA). pose proof CM as (C1 & C2 & C3 & C4).
    assert (IE : is_empty (mk_id k) = false) by now apply is_empty_spec. split.
    + intros ctx a F PRE NN. destruct (ka_key a) as [b|] eqn:K; [|congruence].
      assert (WR : wrapping (OpEncrypt (kb_bytes b))) by (destruct (PRE b eq_refl) as [Q1 Q2]; split; [exact Q2|rewrite Q1; exact LE]).
      assert (X : exists a', snd (mrk_on_encrypt k ev ctx alg a) = (a', KrOk) /\ ka_key a' = Some b).
      { unfold mrk_on_encrypt. rewrite IE, !C2, K, C1. cbn [negb].
        match goal with |- context [kv_call ev 0 ?rq] => destruct (AN 0%nat rq eq_refl WR) as [z CA] end. rewrite CA.
        pose proof (VA _ _ _ CA eq_refl WR) as V. apply valid_key_arn_spec in V. rewrite V. cbn [negb]. unfold append_edk. rewrite ?C2. cbn [snd]. now apply finish_works. }
      destruct X as (a' & E & K'). exists a'. eapply wrap_ok; [reflexivity|exact E|congruence|]. now rewrite K.
    + intros NE ctx F.
      assert (WR : wrapping (OpGenerate (ap_data_key_len q))) by (cbn [wrapping]; rewrite DL; exact LE).
      assert (X : exists a', snd (mrk_on_encrypt k ev ctx alg fresh_args) = (a', KrOk) /\ forall b, ka_key a' = Some b -> Nlen (kb_bytes b) = suite_key_len alg).
      { unfold mrk_on_encrypt. rewrite IE, !C2. cbn [fresh_args ka_key]. rewrite AL, C1. cbn [negb].
        match goal with |- context [kv_call ev 0 ?rq] => destruct (AN 0%nat rq eq_refl WR) as [z CA] end. rewrite CA.
        destruct (WO _ _ _ CA) as (_ & _ & _ & _ & G). destruct (G _ eq_refl) as [G1 _]. rewrite DL in G1. rewrite CL, G1, N.eqb_refl. cbn [negb].
        pose proof (VA _ _ _ CA eq_refl WR) as V. apply valid_key_arn_spec in V. rewrite V. cbn [negb]. unfold append_edk. rewrite ?C2. cbn [snd].
        match goal with |- context [kms_finish ev ?A ?K ?R ?E ?T KrOk] => destruct (finish_works ev A K R E T CM) as (a' & E2 & K2) end. exists a'. split; [exact E2|].
        intros b KB2. rewrite K2 in KB2. unfold dup_key in KB2. destruct (kx_plain z); [discriminate|]. injection KB2 as <-. cbn [kb_bytes]. congruence. }
      destruct X as (a' & E & K'). exists a'. eapply wrap_ok; [reflexivity|exact E|reflexivity|]. cbn [fresh_args ka_key]. auto.
Qed.

Lemma list_can : forall cr rs alg l, Forall (fun t => writes cr rs (tree_keyring cr rs t) (places t) alg) l -> Forall (fun t => can_write (tree_keyring cr rs t) alg) l ->
  forall ctx a b, ctx_fits ctx -> ka_key a = Some b -> good_key alg b -> exists a', encrypt_on_list (map (tree_keyring cr rs) l) ctx alg a = (a', KrOk).
Proof.
  intros cr rs alg l FW FC ctx a b F K G. revert a K. induction FW as [|t l W FW IH]; intros a K; cbn [map encrypt_on_list]; [eauto|].
  inversion FC as [|? ? C FC']; subst. destruct (C ctx a F ltac:(congruence) ltac:(congruence)) as [a1 E]. rewrite E.
  destruct (W ctx a a1 ltac:(congruence) E) as (es & ED & X). destruct (ka_key a1) as [b1|] eqn:K1; [|destruct X; congruence].
  destruct X as (SM & _). apply IH; auto. rewrite (SM _ K) in K1. exact K1.
Qed.

Lemma multi_can : forall cr rs alg g l mem ctx a my1 b, Forall (fun t => writes cr rs (tree_keyring cr rs t) (places t) alg) l -> Forall (fun t => can_write (tree_keyring cr rs t) alg) l ->
  mm_init mem = None -> (forall n, mm_edks mem n = true) -> ctx_fits ctx ->
  match g with Some g => keyring_on_encrypt (tree_keyring cr rs g) ctx alg (mk_kargs (ka_key a) [] []) | None => (mk_kargs (ka_key a) [] [], KrOk) end = (my1, KrOk) ->
  ka_key my1 = Some b -> good_key alg b -> suite alg -> (ka_key a = None -> ka_edks a = []) -> (forall b0, ka_key a = Some b0 -> b = b0) ->
  exists a', keyring_on_encrypt (tree_keyring cr rs (TMulti g l mem)) ctx alg a = (a', KrOk).
Proof.
  intros cr rs alg g l mem ctx a my1 b FW FC MI ME F E K G SU GU SM.
  destruct (list_can cr rs alg l FW FC ctx my1 b F K G) as [my2 E2]. destruct (list_writes cr rs alg l FW ctx my1 my2 b K G E2) as (K2 & es & ED & _).
  assert (X : exists a', multi_on_encrypt (mk_multi (match g with Some g => Some (tree_keyring cr rs g) | None => None end) (map (tree_keyring cr rs) l)) mem ctx alg a = (a', KrOk) /\ ka_key a' = Some b).
  { unfold multi_on_encrypt. rewrite MI. cbn [m_generator m_children]. cbv zeta.
    assert (E1 : match (match g with Some g => Some (tree_keyring cr rs g) | None => None end) with
        | None => (mk_kargs (ka_key a) [] [], KrOk) | Some g => keyring_on_encrypt g ctx alg (mk_kargs (ka_key a) [] []) end = (my1, KrOk)) by (destruct g; exact E).
    rewrite E1, K, E2. destruct (transfer_list (mm_edks mem) (ka_edks a) (ka_edks my2)) as [[edks rest] ok] eqn:T.
    destruct (C51_transfer_lemma _ _ _ _ _ _ _ T) as [_ T1]. rewrite T1 by (intros i _; apply ME).
    destruct (transfer_list (mm_trace mem) (ka_trace a) (ka_trace my2)) as [[tr rest2] ok2]. eexists. split; [reflexivity|exact K2]. }
  destruct X as (a' & E3 & K3). exists a'. eapply wrap_ok; [reflexivity|exact E3|exact GU|]. destruct (ka_key a) as [b0|].
  - rewrite K3. f_equal. now apply SM.
  - intros b1 K4. rewrite K3 in K4. injection K4 as <-. split; [exact SU|apply G].
Qed.

Lemma tree_can : forall cr rs alg t, crypto_sizes cr -> crypto_works cr -> suite alg -> Forall writer_ok (leaves t) -> Forall (leaf_works rs) (leaves t) -> tree_memory t ->
  can_write (tree_keyring cr rs t) alg /\ (generates t -> can_make (tree_keyring cr rs t) alg).
Proof.
  intros cr rs alg t CS CW SU. induction t as [x|g l mem IHg IHl] using tree_ind2; intros WO LW TM.
  - inversion WO; subst. inversion LW; subst. cbn [tree_keyring generates]. now apply leaf_can.
  - cbn [leaves] in WO, LW. apply Forall_app in WO as [WG WL]. apply Forall_app in LW as [LG LL]. cbn [tree_memory] in TM. destruct TM as (MI & ME & TG & TL).
    assert (FW : Forall (fun t => writes cr rs (tree_keyring cr rs t) (places t) alg) l).
    { clear -WL CS. induction l as [|t l IH]; constructor; cbn [flat_map] in WL; apply Forall_app in WL as [R1 R2]; auto. now apply tree_writes. }
    assert (FC : Forall (fun t => can_write (tree_keyring cr rs t) alg) l).
    { clear -WL LL TL IHl. induction IHl as [|t l H FX IH]; constructor; cbn [flat_map] in WL, LL; apply Forall_app in WL as [R1 R2]; apply Forall_app in LL as [L1 L2];
        cbn [fold_right] in TL; destruct TL as [T1 T2]; auto. now apply H. }
    split.
    + intros ctx a F PRE NN. destruct (ka_key a) as [b|] eqn:K; [|congruence]. destruct g as [g|].
      * destruct (IHg g eq_refl WG LG TG) as [CWG _]. destruct (CWG ctx (mk_kargs (ka_key a) [] []) F ltac:(cbn [ka_key]; rewrite K; exact PRE) ltac:(cbn [ka_key]; congruence)) as [my1 E].
        destruct (tree_writes cr rs alg g CS WG ctx (mk_kargs (ka_key a) [] []) my1 ltac:(cbn [ka_key]; rewrite K; exact PRE) E) as (es & ED & X). cbn [ka_key] in X.
        destruct (ka_key my1) as [b1|] eqn:K1; [|destruct X; congruence]. destruct X as (SM & _). rewrite (SM _ K) in K1.
        apply (multi_can cr rs alg (Some g) l mem ctx a my1 b FW FC MI ME F E K1 (PRE _ eq_refl) SU); congruence.
      * apply (multi_can cr rs alg None l mem ctx a (mk_kargs (ka_key a) [] []) b FW FC MI ME F eq_refl K (PRE _ eq_refl) SU); congruence.
    + intros GE ctx F. destruct g as [g|]; [|destruct GE]. cbn [generates] in GE. destruct (IHg g eq_refl WG LG TG) as [_ CMG]. destruct (CMG GE ctx F) as [my1 E].
      assert (NE : places g <> []).
      { clear -GE. revert GE. induction g as [x|g0 l0 m0 IH0 _] using tree_ind2; cbn [generates]; intros GE.
        - unfold places. cbn [leaves flat_map]. rewrite app_nil_r. destruct (keys_of x); [easy|discriminate].
        - rewrite places_multi. destruct g0 as [g0|]; [|destruct GE]. specialize (IH0 g0 eq_refl GE). destruct (places g0); [easy|discriminate]. }
      destruct (tree_fresh cr rs g ctx alg my1 CS WG NE E) as (b & K & _ & G & _).
      apply (multi_can cr rs alg (Some g) l mem ctx fresh_args my1 b FW FC MI ME F E K G SU); [reflexivity|discriminate].
Qed.

Lemma C77_wraps_lemma : forall cr rs t alg, crypto_sizes cr -> crypto_works cr -> suite alg ->
  Forall writer_ok (leaves t) -> Forall (leaf_works rs) (leaves t) -> tree_memory t -> generates t -> wraps (tree_keyring cr rs t) alg.
Proof.
  intros cr rs t alg CS CW SU WO LW TM GE ctx _ _ F. destruct (tree_can cr rs alg t CS CW SU WO LW TM) as [_ C]. now apply C.
Qed.

(** ** Defined behaviour *)
Definition has_meaning (k : keyring) (alg : N) : Prop :=
  (forall ctx a, snd (keyring_on_encrypt k ctx alg a) <> KrUB) /\ (forall edks ctx d, snd (keyring_on_decrypt k edks ctx alg d) <> KrUB).

Lemma enc_meaning : forall k f ctx alg a, kr_encrypt k = Some f -> snd (f ctx alg a) <> KrUB -> snd (keyring_on_encrypt k ctx alg a) <> KrUB.
Proof.
  intros k f ctx alg a E ND. unfold keyring_on_encrypt. rewrite E. destruct (f ctx alg a) as [a' rc]. cbn [snd] in ND.
  destruct (ka_key a), (ka_edks a), rc, (ka_key a'); cbn [snd]; try congruence; match goal with |- context [if ?c then _ else _] => destruct c end; cbn; congruence.
Qed.
Lemma dec_meaning : forall k f edks ctx alg d, kr_decrypt k = Some f -> (da_key d = None -> snd (f edks ctx alg d) <> KrUB) -> snd (keyring_on_decrypt k edks ctx alg d) <> KrUB.
Proof.
  intros k f edks ctx alg d E ND. unfold keyring_on_decrypt. rewrite E. destruct (da_key d); [discriminate|]. specialize (ND eq_refl). destruct (f edks ctx alg d) as [a' rc]. cbn [snd] in ND.
  destruct rc, (da_key a'); cbn [snd]; try congruence; match goal with |- context [if ?c then _ else _] => destruct c end; cbn; congruence.
Qed.
Lemma mrk_loop_meaning : forall k ev ctx n edks failed i log r, mrk_dec_loop k ev ctx (Some n) failed i edks = (log, r) -> r <> MkUB.
Proof.
  intros k ev ctx n. induction edks as [|e edks IH]; intros failed i log r H; cbn [mrk_dec_loop] in H; [congruence|].
  destruct (mrk_select k e) as [[reg key]|]; [|eauto]. destruct (kv_client ev i reg); cbn [negb] in H; [|eauto].
  destruct (kv_call ev i _) as [z|].
  - destruct (_ || _); [|congruence]. destruct (mrk_dec_loop k ev ctx (Some n) true (S i) edks) as [lg r0] eqn:L. apply IH in L. congruence.
  - match type of H with (let (_, _) := ?x in _) = _ => destruct x as [lg r0] eqn:L end. apply IH in L. congruence.
Qed.
Lemma leaf_meaning : forall cr rs x alg, suite alg -> has_meaning (leaf_keyring cr rs x) alg.
Proof.
  intros cr rs x alg SU. destruct x as [x|k ev|k ev]; cbn [leaf_keyring].
  - split; intros; [apply raw_enc_defined|apply raw_dec_defined]; auto.
  - split; intros; [eapply enc_meaning|eapply dec_meaning]; try reflexivity.
    + cbn beta. destruct (kms_on_encrypt k ev ctx alg a) as [lg [a' rc]] eqn:E. apply C47_no_ub_lemma in E. exact E.
    + intros _. unfold kms_on_decrypt. destruct (kms_dec_loop k ev ctx 0 edks) as [lg []]; cbn [snd]; try discriminate. destruct (kv_fail ev 0); discriminate.
  - split; intros; [eapply enc_meaning|eapply dec_meaning]; try reflexivity.
    + cbn beta. destruct (mrk_on_encrypt k ev ctx alg a) as [lg [a' rc]] eqn:E. apply C58_no_ub_lemma in E. exact E.
    + intros _. unfold mrk_on_decrypt. destruct (negb _); [discriminate|]. destruct (lookup_suite _ SU) as [q ->].
      destruct (mrk_dec_loop k ev ctx _ false 0 edks) as [lg r] eqn:L. apply mrk_loop_meaning in L. destruct r as [[]| |]; cbn [snd]; try discriminate; [|congruence]. destruct (kv_fail ev 0); discriminate.
Qed.
Lemma C77_defined_lemma : forall cr rs t alg, suite alg -> has_meaning (tree_keyring cr rs t) alg.
Proof.
  intros cr rs t alg SU. induction t as [x|g l mem IHg IHl] using tree_ind2; [now apply leaf_meaning|]. split; intros.
  - eapply enc_meaning; [reflexivity|]. unfold multi_on_encrypt. destruct (mm_init mem); [discriminate|]. cbn [m_generator m_children]. cbv zeta.
    assert (N2 : forall a, snd (encrypt_on_list (map (tree_keyring cr rs) l) ctx alg a) <> KrUB).
    { clear -IHl. induction IHl as [|t l [H _] F IH]; intros a; cbn [map encrypt_on_list]; [discriminate|].
      specialize (H ctx a). destruct (keyring_on_encrypt _ _ _ _) as [a' []]; cbn [snd] in *; auto. }
    destruct g as [g|].
    + pose proof (proj1 (IHg g eq_refl) ctx (mk_kargs (ka_key a) [] [])) as N1.
      destruct (keyring_on_encrypt _ _ _ _) as [a1 []]; cbn [snd] in *; try congruence. destruct (ka_key a1); [|discriminate].
      specialize (N2 a1). destruct (encrypt_on_list _ _ _ _) as [a2 []]; cbn [snd] in *; try congruence.
      destruct (transfer_list _ _ _) as [[? ?] []]; [|discriminate]. destruct (transfer_list _ _ _) as [[? ?] ?]. discriminate.
    + cbn [ka_key]. destruct (ka_key a); [|discriminate].
      match goal with |- context [encrypt_on_list _ _ _ ?X] => specialize (N2 X) end. destruct (encrypt_on_list _ _ _ _) as [a2 []]; cbn [snd] in *; try congruence.
      destruct (transfer_list _ _ _) as [[? ?] []]; [|discriminate]. destruct (transfer_list _ _ _) as [[? ?] ?]. discriminate.
  - eapply dec_meaning; [reflexivity|]. intros _. unfold multi_on_decrypt. cbn [m_generator m_children].
    assert (N : forall l f d, Forall (fun t => has_meaning (tree_keyring cr rs t) alg) l -> f <> KrUB -> snd (decrypt_on_list (map (tree_keyring cr rs) l) edks ctx alg f d) <> KrUB).
    { clear. intros l f d F. revert f d. induction F as [|t l [_ H] F IH]; intros f d NF; cbn [map decrypt_on_list]; [exact NF|].
      specialize (H edks ctx d). destruct (keyring_on_decrypt _ _ _ _ _) as [d' []]; cbn [snd] in *; try congruence; (destruct (da_key d'); [discriminate|apply IH; congruence]). }
    destruct g as [g|].
    + apply (N (g :: l)); [constructor; auto|discriminate].
    + apply (N l); [auto|discriminate].
Qed.

(** ** Whole stacks *)
Lemma any_order_recovers : forall ke kd alg, recovers_any_order ke kd alg -> recovers ke kd alg.
Proof. intros ke kd alg R ctx a D B H. destruct (R ctx a D B H) as (b & K & X). exists b. split; [exact K|]. intros ctx2 d P DK. apply (X ctx2 (ka_edks a) d P (Permutation_refl _) DK). Qed.
Lemma able_key : forall rs x y, able rs x y -> keys_of x <> [].
Proof.
  intros rs x y A. destruct (service_cases x) as [[z ->]|[ev S1]]; [discriminate|].
  destruct (able_service _ _ _ _ S1 A) as (ev1 & ev2 & s & arn & r & key & _ & _ & _ & _ & I & _). intros E. rewrite E in I. destruct I.
Qed.
Lemma rights_places : forall rs t u, tree_rights rs t u -> places t <> [].
Proof.
  intros rs t u [_ (x & y & Ix & _ & A)] E. apply able_key in A. destruct (keys_of x) as [|s l] eqn:K; [easy|].
  assert (I : In (x, s) (places t)) by (apply place_leaf; rewrite K; split; [exact Ix|now left]). rewrite E in I. destruct I.
Qed.

Lemma C77_roundtrip_lemma : forall cr rs t u m ops w ec ec2 da da2 alg md opsd wd out wd',
  crypto_sizes cr -> dec_inverts cr -> updates_ok cr -> crypto_bytes cr -> rsa_bytes rs ->
  Forall writer_ok (leaves t) -> Forall reader_ok (leaves u) -> tree_rights rs t u -> Nlen (places t) <= 65535 ->
  history cr m ops w -> Forall (stack_op (stack_env cr ec ec2 (mk_default_cmm (tree_keyring cr rs t) da) alg)) ops ->
  s_mode (w_s w) = M_ENCRYPT -> is_done (w_s w) = true -> get_alg_id (w_s w) = Some alg ->
  history cr md opsd wd -> is_decrypt_mode (s_mode (w_s wd)) = true -> s_state (w_s wd) = ST_CONFIG ->
  policy_permits_decrypt (s_policy (w_s wd)) alg -> (s_max (w_s wd) = 0 \/ Nlen (places t) <= s_max (w_s wd)) ->
  (s_mode (w_s wd) = M_DECRYPT_UNSIGNED -> ~ In alg signed_suites) ->
  feed cr (decrypts_with ec2 (mk_default_cmm (tree_keyring cr rs u) da2)) (w_out w) wd out wd' ->
  Forall (fun r => o_rc r = POk) out /\ SessionSpec.prefix (w_out wd') (w_in w) /\
  (is_done (w_s wd') = true -> w_in wd' = w_out w /\ w_out wd' = w_in w /\ get_alg_id (w_s wd') = Some alg /\
     exists c c', visible_ctx (w_s w) = Some c /\ visible_ctx (w_s wd') = Some c' /\ Permutation c' c) /\
  (forall e cap input, decrypts_with ec2 (mk_default_cmm (tree_keyring cr rs u) da2) e -> w_in wd' ++ input = w_out w ->
     Nlen (w_in w) <= Nlen (w_out wd') + cap ->
     let w2 := fst (exec cr wd' (OProcess e cap input)) in is_done (w_s w2) = true /\ w_out w2 = w_in w).
Proof.
  intros cr rs t u m ops w ec ec2 da da2 alg md opsd wd out wd' CS DI UO CB RB WO RO TR LE H F M DN AL H2 DM ST PP MX US FD.
  pose proof (C77_tidy_lemma cr rs t alg CS CB RB WO (rights_places _ _ _ TR) LE) as TI.
  pose proof (any_order_recovers _ _ _ (C77_recovers_lemma cr rs t u alg CS DI CB RB WO RO TR)) as RE.
  exact (proj2 (C70_lemma cr m ops w ec ec2 _ _ da da2 alg _ md opsd wd out wd' CS DI UO CB H F M DN AL TI RE H2 DM ST PP MX US FD)).
Qed.
