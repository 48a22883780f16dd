(** Proofs about AsymModel. *)
From Verif Require Import Base BaseProofs AlgModel CryptoModel KeyringModel HkdfModel HkdfSpec HkdfProofs CipherModel CipherSpec CipherProofs AsymModel AsymSpec.
From Coq Require Import ZArith ZifyBool ZifyNat ZifyN.
Import List.
Open Scope list_scope.
Open Scope N_scope.

Lemma put_start m d : Nlen d <= Nlen m -> put m 0 d = Some (d ++ skipn (N.to_nat (Nlen d)) m).
Proof. intro H. rewrite put_fits by lia. reflexivity. Qed.

(** Runs without their state: the weakest precondition. *)
Definition pwp {A} (m : P A) (s : pst) (Q : A -> pst -> Prop) : Prop := match m s with inl _ => False | inr (x, s') => Q x s' end.
Lemma pwp_done {A} (x : A) s (Q : A -> pst -> Prop) : Q x s -> pwp (done x) s Q.
Proof. auto. Qed.
Lemma pwp_bind {A B} (m : P A) (f : A -> P B) s Q : pwp m s (fun x s' => pwp (f x) s' Q) -> pwp (pbind m f) s Q.
Proof. unfold pwp, pbind. destruct (m s) as [|[x s']]; auto. Qed.
Lemma pwp_attempt {A B} (m : P (option A)) (bad : P B) k s Q :
  pwp m s (fun o s' => match o with Some x => pwp (k x) s' Q | None => pwp bad s' Q end) -> pwp (attempt m bad k) s Q.
Proof. intro H. unfold pwp, attempt, pbind in *. destruct (m s) as [|[[x|] s']]; exact H. Qed.

Section Runs.
Variable a : asym.
Variable fault : nat -> option (list N).
Hypothesis W : asym_wf a.

(** States that differ from each other in calls and errors only. *)
Definition at_objs (l : list (nat * obj)) (n : nat) (fr : list (list N)) (s : pst) : Prop := p_objs s = l /\ p_next s = n /\ p_freed s = fr.

Lemma calling_wp {A} (k : P (option A)) l n fr s (Q : option A -> pst -> Prop) : at_objs l n fr s ->
  (faulty fault -> forall s', at_objs l n fr s' -> Q None s') ->
  (forall s', at_objs l n fr s' -> pwp k s' Q) -> pwp (calling fault k) s Q.
Proof.
  intros (H1 & H2 & H3) HF HT. unfold calling. apply pwp_bind. unfold pwp, pcall. destruct (fault (p_tick s)) eqn:E.
  - apply HF; [exists (p_tick s); congruence|split; [|split]; assumption].
  - apply HT. split; [|split]; assumption.
Qed.
Lemma alloc_wp o l n fr s (Q : option nat -> pst -> Prop) : at_objs l n fr s ->
  (forall s', at_objs ((n, o) :: l) (S n) fr s' -> Q (Some n) s') -> pwp (alloc o) s Q.
Proof. intros (H1 & H2 & H3) H. unfold pwp, alloc. rewrite H1, H2, H3. apply H. split; [|split]; reflexivity. Qed.
Lemma lookup_wp h o l n fr s (Q : obj -> pst -> Prop) : at_objs l n fr s -> find_obj h l = Some o -> Q o s -> pwp (lookup h) s Q.
Proof. intros (H1 & H2 & H3) F H. unfold pwp, lookup. rewrite H1, F. exact H. Qed.
Lemma store_wp h o l n fr s (Q : option unit -> pst -> Prop) : at_objs l n fr s ->
  (forall s', at_objs (set_obj h o l) n fr s' -> Q (Some tt) s') -> pwp (store h o) s Q.
Proof. intros (H1 & H2 & H3) H. unfold pwp, store. rewrite H1, H2, H3. apply H. split; [|split]; reflexivity. Qed.
Lemma release_wp h l l' n fr s (Q : unit -> pst -> Prop) : at_objs l n fr s -> drop_obj h l = Some l' ->
  (forall s', at_objs l' n fr s' -> Q tt s') -> pwp (release (Some h)) s Q.
Proof. intros (H1 & H2 & H3) D H. unfold pwp, release. rewrite H1, D. apply H. split; [reflexivity|split; assumption]. Qed.

Ltac eqs := repeat (cbn [find_obj drop_obj set_obj];
  match goal with
  | |- context [Nat.eqb ?x ?x] => rewrite (Nat.eqb_refl x)
  | |- context [Nat.eqb ?x ?y] => rewrite (proj2 (Nat.eqb_neq x y)) by lia
  end).

Lemma cleanup_wp ctx pkey bio e b l l1 l2 l3 n fr s (Q : res unit * abuf -> pst -> Prop) : at_objs l n fr s ->
  match ctx with Some h => drop_obj h l = Some l1 | None => l1 = l end ->
  match pkey with Some h => drop_obj h l1 = Some l2 | None => l2 = l1 end ->
  match bio with Some h => drop_obj h l2 = Some l3 | None => l3 = l2 end ->
  (forall s', p_errs s' = [] ->
     match e with
     | None => at_objs l3 n fr s' -> Q (Ok tt, b) s'
     | Some x => at_objs l3 n (match b with Some (m, _) => zeros (Nlen m) :: fr | None => fr end) s' -> Q (Err x, None) s'
     end) -> pwp (cleanup ctx pkey bio e b) s Q.
Proof.
  intros H D1 D2 D3 HQ. unfold cleanup.
  assert (R : forall h l l' s (Q : unit -> pst -> Prop), at_objs l n fr s -> match h with Some h => drop_obj h l = Some l' | None => l' = l end ->
    (forall s', at_objs l' n fr s' -> Q tt s') -> pwp (release h) s Q).
  { intros [h|] k k' t R I D J; [eapply release_wp; eauto|]. subst k'. unfold pwp, release. auto. }
  apply pwp_bind. eapply R; [exact H|exact D1|]. clear H s. intros s H.
  apply pwp_bind. eapply R; [exact H|exact D2|]. clear H s. intros s H.
  apply pwp_bind. eapply R; [exact H|exact D3|]. clear H s. intros s (H1 & H2 & H3).
  apply pwp_bind. unfold pwp, flush. set (s' := mk_pst _ [] _ _ _). destruct e as [x|].
  - destruct b as [[m k]|]; unfold pbind, abuf_clean_up_secure, done.
    + apply (HQ (mk_pst (p_tick s') (p_errs s') (p_objs s') (p_next s') (zeros (Nlen m) :: p_freed s')) eq_refl). split; [exact H1|split; [exact H2|]]. cbn. rewrite H3. reflexivity.
    + apply (HQ s' eq_refl). split; [exact H1|split; assumption].
  - apply (HQ s' eq_refl). split; [exact H1|split; assumption].
Qed.

(** Both functions of cipher.c at once. *)
Section Core.
Variable read : list N -> option (list N).
Variable enc : bool.
Variable op : list N -> padding -> option (list N).
Variable last : err.
Hypothesis op_len : forall k p t, op k p = Some t -> Nlen t <= a_size a k.

Definition core (pem : list N) (padding mode : Z) : P (res unit * abuf) :=
  let bad ctx pkey bio := cleanup ctx pkey bio (Some E_CRYPTO_UNKNOWN) None in
  attempt (pkey_new fault) (bad None None None) (fun pkey =>
  attempt (bio_new fault pem (Nlen pem)) (bad None (Some pkey) None) (fun bio =>
  attempt (pem_read fault read bio pkey) (bad None (Some pkey) (Some bio)) (fun pkey =>
  attempt (rsa_ctx_new fault pkey) (bad None (Some pkey) (Some bio)) (fun ctx =>
  let bad := bad (Some ctx) (Some pkey) (Some bio) in
  rsa_setup a fault ctx enc padding mode bad
  (attempt (crypt_size a fault ctx enc) bad (fun outlen =>
   attempt (abuf_init a fault outlen) bad (fun mem =>
   do! r := crypt a fault ctx enc (fun c => op (c_key c) (ctx_padding c)) mem outlen in
   match r with
   | (m, Some n) => cleanup (Some ctx) (Some pkey) (Some bio) None (Some (m, n))
   | (m, None) => cleanup (Some ctx) (Some pkey) (Some bio) (Some last) (Some (m, 0))
   end))))))).

Definition core_post (pem : list N) (mode : Z) (s : pst) (r : res unit * abuf) (s' : pst) : Prop :=
  p_errs s' = [] /\ p_objs s' = p_objs s /\ (exists gone, p_freed s' = gone ++ p_freed s /\ Forall (Forall (fun b => b = 0)) gone) /\
  match fst r with
  | Ok _ => exists k p t, read pem = Some k /\ a_rsa a k = true /\ rsa_scheme mode p /\ op k p = Some t /\ exists rest, snd r = Some (t ++ rest, Nlen t) /\ Nlen t + Nlen rest = a_size a k
  | Err x => snd r = None /\
      ((faulty fault /\ (x = E_CRYPTO_UNKNOWN \/ x = last /\ exists k, read pem = Some k /\ a_rsa a k = true)) \/
       (x = E_CRYPTO_UNKNOWN /\ ~ exists k, read pem = Some k /\ a_rsa a k = true) \/
       (x = last /\ exists k p, read pem = Some k /\ a_rsa a k = true /\ rsa_scheme mode p /\ op k p = None))
  end.

(** Failing before there is a buffer. *)
Lemma early ctx pkey bio l l1 l2 n fr pem mode s0 s :
  at_objs l n fr s -> p_freed s0 = fr ->
  match ctx with Some h => drop_obj h l = Some l1 | None => l1 = l end ->
  match pkey with Some h => drop_obj h l1 = Some l2 | None => l2 = l1 end ->
  match bio with Some h => drop_obj h l2 = Some (p_objs s0) | None => p_objs s0 = l2 end ->
  faulty fault \/ (~ exists k, read pem = Some k /\ a_rsa a k = true) ->
  pwp (cleanup ctx pkey bio (Some E_CRYPTO_UNKNOWN) None) s (core_post pem mode s0).
Proof.
  intros H F D1 D2 D3 C. eapply cleanup_wp; [exact H|exact D1|exact D2|exact D3|]. intros s' E (H1 & H2 & H3).
  split; [exact E|]. split; [exact H1|]. split; [exists []; split; [cbn; congruence|constructor]|]. cbn [fst snd]. split; [reflexivity|].
  destruct C as [C|C]; [left; auto|right; left; auto].
Qed.

Lemma with_rsa_wp h c f l n fr s (Q : option unit -> pst -> Prop) : at_objs l n fr s -> find_obj h l = Some (ORsa c) ->
  (faulty fault \/ f c = None -> forall s', at_objs l n fr s' -> Q None s') ->
  (forall c' s', f c = Some c' -> at_objs (set_obj h (ORsa c') l) n fr s' -> Q (Some tt) s') -> pwp (with_rsa fault h f) s Q.
Proof.
  intros H F HN HS. unfold with_rsa. eapply calling_wp; [exact H|auto|]. intros s' H'. apply pwp_bind. eapply lookup_wp; [exact H'|exact F|]. cbv beta iota.
  destruct (f c) as [c'|]; [|apply pwp_done, HN; auto]. eapply store_wp; [exact H'|]. intros t T. exact (HS c' t eq_refl T).
Qed.

Lemma bio_part raw : (if (to_int (Nlen raw) <? 0)%Z then alloc (OBio (c_string raw)) else alloc (OBio (firstn (Z.to_nat (to_int (Nlen raw))) raw))) = alloc (OBio (pem_part raw)).
Proof.
  unfold to_int, two32, pem_part. pose proof (N.mod_lt (Nlen raw) (2 ^ 32) ltac:(discriminate)) as L. cbv zeta.
  destruct (N.ltb_spec (Nlen raw mod 2 ^ 32) (2 ^ 31)) as [S|S].
  - destruct (Z.ltb_spec (Z.of_N (Nlen raw mod 2 ^ 32)) 0); [lia|]. replace (Z.to_nat (Z.of_N (Nlen raw mod 2 ^ 32))) with (N.to_nat (Nlen raw mod 2 ^ 32)) by lia. reflexivity.
  - replace (Z.of_N (Nlen raw mod 2 ^ 32) - 2 ^ 32 <? 0)%Z with true; [reflexivity|]. symmetry. apply Z.ltb_lt. change (2 ^ 32)%Z with (Z.of_N (2 ^ 32)). lia.
Qed.
Lemma core_run raw pem padding mode s0 s l0 n fr : pem_part raw = pem -> openssl_padding mode = padding -> (0 <= padding)%Z ->
  p_objs s0 = l0 -> p_freed s0 = fr -> at_objs l0 n fr s -> pwp (core raw padding mode) s (core_post pem mode s0).
Proof.
  intros HL HP PP O0 F0 H. unfold core.
  (* EVP_PKEY_new *)
  apply pwp_attempt. unfold pkey_new. eapply calling_wp; [exact H| |]; clear s H.
  { intros FT s H. eapply early; try exact H; eauto. }
  intros s H. eapply alloc_wp; [exact H|]. clear s H. intros s H.
  (* BIO_new_mem_buf *)
  apply pwp_attempt. unfold bio_new. eapply calling_wp; [exact H| |]; clear s H.
  { intros FT s H. eapply early with (l1 := (n, OKey None) :: l0) (l2 := l0); try exact H; auto. eqs. reflexivity. }
  intros s H. rewrite bio_part, HL. eapply alloc_wp; [exact H|]. clear s H. intros s H.
  (* PEM_read_bio *)
  apply pwp_attempt. unfold pem_read. eapply calling_wp; [exact H| |]; clear s H.
  { intros FT s H. eapply early with (l1 := (S n, OBio pem) :: (n, OKey None) :: l0) (l2 := (S n, OBio pem) :: l0); try exact H; auto; eqs; [reflexivity|congruence]. }
  intros s H. apply pwp_bind. eapply lookup_wp; [exact H|eqs; reflexivity|]. cbv beta iota. destruct (read pem) as [k|] eqn:RD.
  2:{ apply pwp_done. eapply early with (l1 := (S n, OBio pem) :: (n, OKey None) :: l0) (l2 := (S n, OBio pem) :: l0); try exact H; auto; eqs; [reflexivity|congruence|].
      right. intros (k & K & _). congruence. }
  apply pwp_bind. eapply release_wp; [exact H|eqs; reflexivity|]. clear s H. intros s H. eapply alloc_wp; [exact H|]. clear s H. intros s H.
  (* EVP_PKEY_CTX_new *)
  apply pwp_attempt. unfold rsa_ctx_new. eapply calling_wp; [exact H| |]; clear s H.
  { intros FT s H. eapply early with (l1 := (S (S n), OKey (Some k)) :: (S n, OBio pem) :: l0) (l2 := (S n, OBio pem) :: l0); try exact H; auto; eqs; [reflexivity|congruence]. }
  intros s H. apply pwp_bind. eapply lookup_wp; [exact H|eqs; reflexivity|]. eapply alloc_wp; [exact H|]. clear s H. intros s H.
  assert (BAD : forall c s, at_objs ((S (S (S n)), ORsa c) :: (S (S n), OKey (Some k)) :: (S n, OBio pem) :: l0) (S (S (S (S n)))) fr s ->
    faulty fault \/ a_rsa a k = false ->
    pwp (cleanup (Some (S (S (S n)))) (Some (S (S n))) (Some (S n)) (Some E_CRYPTO_UNKNOWN) None) s (core_post pem mode s0)).
  { clear s H. intros c s H C. eapply early with (l1 := (S (S n), OKey (Some k)) :: (S n, OBio pem) :: l0) (l2 := (S n, OBio pem) :: l0); try exact H; auto; eqs; try reflexivity; [congruence|].
    destruct C as [C|C]; [left; exact C|right]. intros (k' & K & C'). congruence. }
  assert (FIN : forall c s, at_objs ((S (S (S n)), ORsa c) :: (S (S n), OKey (Some k)) :: (S n, OBio pem) :: l0) (S (S (S (S n)))) fr s ->
    a_rsa a k = true -> c_key c = k -> c_enc c = Some enc -> rsa_scheme mode (ctx_padding c) ->
    pwp (attempt (crypt_size a fault (S (S (S n))) enc) (cleanup (Some (S (S (S n)))) (Some (S (S n))) (Some (S n)) (Some E_CRYPTO_UNKNOWN) None)
          (fun outlen => attempt (abuf_init a fault outlen) (cleanup (Some (S (S (S n)))) (Some (S (S n))) (Some (S n)) (Some E_CRYPTO_UNKNOWN) None)
            (fun mem => do! r := crypt a fault (S (S (S n))) enc (fun c => op (c_key c) (ctx_padding c)) mem outlen in
              match r with
              | (m, Some x) => cleanup (Some (S (S (S n)))) (Some (S (S n))) (Some (S n)) None (Some (m, x))
              | (m, None) => cleanup (Some (S (S (S n)))) (Some (S (S n))) (Some (S n)) (Some last) (Some (m, 0))
              end))) s (core_post pem mode s0)).
  { clear s H. intros c s H RSA CK CE CP. apply pwp_attempt. unfold crypt_size. eapply calling_wp; [exact H| |]; clear s H.
    { intros FT s H. eapply BAD; eauto. }
    intros s H. apply pwp_bind. eapply lookup_wp; [exact H|eqs; reflexivity|]. cbv beta iota. rewrite CE, Bool.eqb_reflx, CK. apply pwp_done.
    apply pwp_attempt. unfold abuf_init. eapply calling_wp; [exact H| |]; clear s H.
    { intros FT s H. eapply BAD; eauto. }
    intros s H. apply pwp_done. pose proof W as (_ & _ & WJ & WF & _).
    assert (LOW : forall m s, at_objs ((S (S (S n)), ORsa c) :: (S (S n), OKey (Some k)) :: (S n, OBio pem) :: l0) (S (S (S (S n)))) fr s ->
      faulty fault \/ op k (ctx_padding c) = None ->
      pwp (cleanup (Some (S (S (S n)))) (Some (S (S n))) (Some (S n)) (Some last) (Some (m, 0))) s (core_post pem mode s0)).
    { clear s H. intros m s H C. eapply cleanup_wp; [exact H|eqs; reflexivity|eqs; reflexivity|eqs; reflexivity|]. intros s' E (H1 & H2 & H3).
      split; [exact E|]. split; [congruence|]. split; [exists [zeros (Nlen m)]; split; [cbn; congruence|constructor; [|constructor]]|].
      { apply Forall_forall. intros x X. unfold zeros in X. eapply repeat_spec, X. }
      cbn [fst snd]. split; [reflexivity|]. destruct C as [C|C]; [left|right; right]; eauto 8. }
    apply pwp_bind. unfold crypt. apply pwp_bind. eapply lookup_wp; [exact H|eqs; reflexivity|]. apply pwp_bind. cbv beta iota zeta.
    destruct H as (H1 & H2 & H3). unfold pwp at 1, pcall. destruct (fault (p_tick s)) eqn:FT; rewrite CE, CK; cbn [negb].
    - rewrite put_start by (rewrite WF; apply WJ; rewrite WF; lia). apply pwp_done. apply LOW; [split; [exact H1|split; assumption]|]. left. exists (p_tick s). congruence.
    - rewrite Bool.eqb_reflx. destruct (N.ltb_spec (a_size a k) (a_size a k)) as [Z|_]; [lia|]. cbn [negb orb]. destruct (op k (ctx_padding c)) as [t|] eqn:OP.
      + rewrite put_start by (rewrite WF; eapply op_len; exact OP). apply pwp_done. eapply cleanup_wp; [split; [exact H1|split; [exact H2|exact H3]]|eqs; reflexivity|eqs; reflexivity|eqs; reflexivity|].
        intros s' E (K1 & K2 & K3). split; [exact E|]. split; [congruence|]. split; [exists []; split; [cbn; congruence|constructor]|].
        cbn [fst snd]. exists k, (ctx_padding c), t. repeat split; auto. eexists. split; [reflexivity|]. rewrite Nlen_skipn, WF. apply op_len in OP. lia.
      + rewrite put_start by (rewrite WF; apply WJ; rewrite WF; lia). apply pwp_done. apply LOW; [split; [exact H1|split; assumption]|]. right. reflexivity. }
  unfold rsa_setup. apply pwp_attempt. eapply with_rsa_wp; [exact H|eqs; reflexivity| |]; clear s H; cbn [c_key].
  { intros C s H. eapply BAD; [exact H|]. destruct C as [C|C]; [auto|]. destruct (a_rsa a k); [discriminate|auto]. }
  intros c s C H. destruct (a_rsa a k) eqn:RSA; [|discriminate]. injection C as <-. revert H. eqs. intro H.
  apply pwp_attempt. eapply with_rsa_wp; [exact H|eqs; reflexivity| |]; clear s H; cbn [c_key c_enc c_pad c_md c_mgf].
  { intros C s H. eapply BAD; [exact H|]. left. destruct C as [C|C]; [exact C|]. unfold openssl_padding in HP.
    destruct (mode =? 0)%Z, (mode =? 1)%Z, (mode =? 2)%Z; subst padding; cbn in C; solve [discriminate|lia]. }
  intros c s C H. assert (PD : (padding = 1 \/ padding = 4)%Z).
  { destruct (Z.eqb_spec padding 1); [auto|]. destruct (Z.eqb_spec padding 4); [auto|discriminate]. }
  assert (C' : c = mk_rsa_ctx k (Some enc) padding None None) by (destruct PD as [-> | ->]; cbn in C; congruence). subst c. clear C. revert H. eqs. intro H.
  destruct (Z.eqb_spec mode 2) as [->|M2].
  - cbn in HP. subst padding.
    apply pwp_attempt. eapply with_rsa_wp; [exact H|eqs; reflexivity| |]; clear s H; cbn [c_key c_enc c_pad c_md c_mgf Z.eqb Pos.eqb].
    { intros [C|C] s H; [eapply BAD; eauto|discriminate]. }
    intros c s C H. injection C as <-. revert H. eqs. intro H.
    apply pwp_attempt. eapply with_rsa_wp; [exact H|eqs; reflexivity| |]; clear s H; cbn [c_key c_enc c_pad c_md c_mgf Z.eqb Pos.eqb].
    { intros [C|C] s H; [eapply BAD; eauto|discriminate]. }
    intros c s C H. injection C as <-. revert H. eqs. intro H.
    eapply FIN; [exact H|reflexivity|reflexivity|reflexivity|]. right. right. split; reflexivity.
  - eapply FIN; [exact H|reflexivity|reflexivity|reflexivity|]. unfold openssl_padding in HP.
    destruct (Z.eqb_spec mode 0) as [->|M0]; [subst padding; left; split; reflexivity|].
    destruct (Z.eqb_spec mode 1) as [->|M1]; [subst padding; right; left; split; reflexivity|].
    destruct (Z.eqb_spec mode 2); [contradiction|]. lia.
Qed.
Lemma core_wp raw pem padding mode s : pem_part raw = pem -> openssl_padding mode = padding -> (0 <= padding)%Z ->
  pwp (core raw padding mode) s (core_post pem mode s).
Proof. intros. eapply core_run; try reflexivity; auto. split; [|split]; reflexivity. Qed.
End Core.

Lemma pad_cases mode : (openssl_padding mode < 0)%Z <-> ~ exists p, rsa_scheme mode p.
Proof.
  unfold openssl_padding, rsa_scheme. split.
  - intros H (p & X). destruct (Z.eqb_spec mode 0), (Z.eqb_spec mode 1), (Z.eqb_spec mode 2); try discriminate; lia.
  - intro H. destruct (Z.eqb_spec mode 0); [exfalso; eauto 8|]. destruct (Z.eqb_spec mode 1); [exfalso; eauto 8|]. destruct (Z.eqb_spec mode 2); [exfalso; eauto 8|]. lia.
Qed.
Lemma scheme_fun mode p q : rsa_scheme mode p -> rsa_scheme mode q -> p = q.
Proof. unfold rsa_scheme. intros H K. destruct H as [[? ?]|[[? ?]|[? ?]]], K as [[? ?]|[[? ?]|[? ?]]]; try congruence; lia. Qed.

Lemma pwp_clean {A} (m : P A) s (Q : A -> pst -> Prop) :
  pwp m s (fun r s' => p_objs s' = p_objs s /\ (exists gone, p_freed s' = gone ++ p_freed s /\ Forall (Forall (fun b => b = 0)) gone) /\ Q r s') -> ends_clean m s Q.
Proof. unfold pwp, ends_clean. destruct (m s) as [|[r s']]; [contradiction|]. intros (H1 & (gone & H2 & H3) & H4). exists r, s', gone. auto. Qed.
Lemma pwp_post {A} (m : P A) s (P Q : A -> pst -> Prop) : pwp m s P -> (forall x s', P x s' -> Q x s') -> pwp m s Q.
Proof. unfold pwp. destruct (m s) as [|[x s']]; auto. Qed.

Lemma pem_part_short pem : Nlen pem < 2 ^ 31 -> pem_part pem = pem.
Proof.
  intro H. unfold pem_part. rewrite N.mod_small by (change (2 ^ 32) with (2 * 2 ^ 31); lia). cbv zeta. destruct (N.ltb_spec (Nlen pem) (2 ^ 31)); [|lia].
  apply firstn_all2. unfold Nlen. lia.
Qed.
Lemma rsa_encrypt_read cipher plain raw pem mode seed s : pem_part raw = pem ->
  ends_clean (rsa_encrypt a fault cipher plain raw mode seed) s (fun r s' =>
    match fst r with
    | Ok _ => cipher = None /\ p_errs s' = [] /\ exists c, rsa_wraps a pem mode seed plain c /\ snd r = Some (c, Nlen c)
    | Err e => (e = E_BAD_STATE /\ cipher <> None /\ snd r = cipher) \/
               (cipher = None /\ snd r = None /\
                ((e = E_UNSUPPORTED_FORMAT /\ ~ exists p, rsa_scheme mode p) \/
                 (e = E_CRYPTO_UNKNOWN /\ p_errs s' = [] /\ (faulty fault \/ ~ exists c, rsa_wraps a pem mode seed plain c))))
    end /\
    (~ faulty fault -> cipher = None -> (exists c, rsa_wraps a pem mode seed plain c) -> fst r = Ok tt)).
Proof.
  intro HL. apply pwp_clean. pose proof W as (WE & _).
  assert (NIL : exists gone, p_freed s = gone ++ p_freed s /\ Forall (Forall (fun b : N => b = 0)) gone) by (exists []; auto).
  destruct cipher as [b|].
  { cbn [rsa_encrypt]. apply pwp_done. cbn [fst snd]. split; [reflexivity|]. split; [exact NIL|]. split; [left; repeat split; congruence|]. discriminate. }
  cbn [rsa_encrypt]. destruct (Z.ltb_spec (openssl_padding mode) 0) as [PN|PP].
  { apply pwp_done. cbn [fst snd]. split; [reflexivity|]. split; [exact NIL|]. apply pad_cases in PN. split; [right; auto|].
    intros _ _ (c & k & p & _ & _ & C & _). exfalso. eauto. }
  refine (pwp_post _ _ _ _ (core_wp (a_pub a) true (fun k p => a_enc a k p seed plain) E_CRYPTO_UNKNOWN _ raw pem _ mode s HL eq_refl PP) _).
  { intros k p t X. apply WE in X. lia. }
  intros [rc b] s' (E & O & F & X). split; [exact O|]. split; [exact F|]. cbn [fst snd] in *. destruct rc as [[]|e].
  - split; [|auto]. split; [reflexivity|]. split; [exact E|]. destruct X as (k & p & t & X1 & X2 & X3 & X4 & rest & X5). exists t. split; [exists k, p; auto|].
    destruct X5 as [-> L]. rewrite (WE _ _ _ _ _ X4) in L. destruct rest; [rewrite app_nil_r; reflexivity|]. unfold Nlen in L. cbn in L. lia.
  - assert (NO : faulty fault \/ ~ exists c, rsa_wraps a pem mode seed plain c).
    { destruct X as (_ & [[X _]|[[_ X]|(_ & k & p & X1 & _ & X3 & X4)]]); [auto|right..].
      - intros (c & k & p & Y1 & Y2 & _). apply X. eauto.
      - intros (c & k' & p' & Y1 & _ & Y3 & Y4). rewrite X1 in Y1. injection Y1 as <-. rewrite (scheme_fun _ _ _ X3 Y3) in X4. congruence. }
    split; [|intros NF _ C; exfalso; destruct NO; contradiction]. right. destruct X as (-> & X). split; [reflexivity|]. split; [reflexivity|]. right.
    split; [|split; [exact E|exact NO]]. destruct X as [[_ [X|[X _]]]|[[X _]|[X _]]]; exact X.
Qed.
Lemma rsa_encrypt_ok cipher plain pem mode seed s : Nlen pem < 2 ^ 31 ->
  ends_clean (rsa_encrypt a fault cipher plain pem mode seed) s (fun r s' =>
    match fst r with
    | Ok _ => cipher = None /\ p_errs s' = [] /\ exists c, rsa_wraps a pem mode seed plain c /\ snd r = Some (c, Nlen c)
    | Err e => (e = E_BAD_STATE /\ cipher <> None /\ snd r = cipher) \/
               (cipher = None /\ snd r = None /\
                ((e = E_UNSUPPORTED_FORMAT /\ ~ exists p, rsa_scheme mode p) \/
                 (e = E_CRYPTO_UNKNOWN /\ p_errs s' = [] /\ (faulty fault \/ ~ exists c, rsa_wraps a pem mode seed plain c))))
    end /\
    (~ faulty fault -> cipher = None -> (exists c, rsa_wraps a pem mode seed plain c) -> fst r = Ok tt)).
Proof. intro HL. apply rsa_encrypt_read, pem_part_short, HL. Qed.

Lemma rsa_decrypt_read plain cipher raw pem mode s : pem_part raw = pem ->
  ends_clean (rsa_decrypt a fault plain cipher raw mode) s (fun r s' =>
    match fst r with
    | Ok _ => plain = None /\ p_errs s' = [] /\ exists t, rsa_unwraps a pem mode cipher t /\ holds (snd r) t
    | Err e => (e = E_BAD_STATE /\ plain <> None /\ snd r = plain) \/
               (plain = None /\ snd r = None /\
                ((e = E_UNSUPPORTED_FORMAT /\ ~ exists p, rsa_scheme mode p) \/
                 (e = E_CRYPTO_UNKNOWN /\ p_errs s' = [] /\ (faulty fault \/ ~ private_key a pem)) \/
                 (e = E_BAD_CIPHERTEXT /\ p_errs s' = [] /\ private_key a pem /\ (faulty fault \/ ~ exists t, rsa_unwraps a pem mode cipher t))))
    end /\
    (~ faulty fault -> plain = None -> (exists t, rsa_unwraps a pem mode cipher t) -> fst r = Ok tt)).
Proof.
  intro HL. apply pwp_clean. pose proof W as (_ & WD & _).
  assert (NIL : exists gone, p_freed s = gone ++ p_freed s /\ Forall (Forall (fun b : N => b = 0)) gone) by (exists []; auto).
  destruct plain as [b|].
  { cbn [rsa_decrypt]. apply pwp_done. cbn [fst snd]. split; [reflexivity|]. split; [exact NIL|]. split; [left; repeat split; congruence|]. discriminate. }
  cbn [rsa_decrypt]. destruct (Z.ltb_spec (openssl_padding mode) 0) as [PN|PP].
  { apply pwp_done. cbn [fst snd]. split; [reflexivity|]. split; [exact NIL|]. apply pad_cases in PN. split; [right; auto|].
    intros _ _ (c & k & p & _ & _ & C & _). exfalso. eauto. }
  refine (pwp_post _ _ _ _ (core_wp (a_priv a) false (fun k p => a_dec a k p cipher) E_BAD_CIPHERTEXT _ raw pem _ mode s HL eq_refl PP) _).
  { intros k p t X. eapply WD; exact X. }
  intros [rc b] s' (E & O & F & X). split; [exact O|]. split; [exact F|]. cbn [fst snd] in *. destruct rc as [[]|e].
  - split; [|auto]. split; [reflexivity|]. split; [exact E|]. destruct X as (k & p & t & X1 & X2 & X3 & X4 & rest & X5). exists t. split; [exists k, p; auto|].
    exists rest. apply X5.
  - destruct X as (-> & X). split.
    + right. split; [reflexivity|]. split; [reflexivity|]. right. destruct X as [[FT [->|[-> X]]]|[[-> X]|(-> & k & p & X1 & X2 & X3 & X4)]].
      * left. auto.
      * right. split; [reflexivity|]. split; [exact E|]. split; [exact X|auto].
      * left. auto.
      * right. split; [reflexivity|]. split; [exact E|]. split; [exists k; auto|]. right. intros (t & k' & p' & Y1 & _ & Y3 & Y4).
        rewrite X1 in Y1. injection Y1 as <-. rewrite (scheme_fun _ _ _ X3 Y3) in X4. congruence.
    + intros NF _ (t & k & p & Y1 & Y2 & Y3 & Y4). exfalso. destruct X as [[X _]|[[_ X]|(_ & k' & p' & X1 & X2 & X3 & X4)]]; [contradiction|apply X; eauto|].
      rewrite X1 in Y1. injection Y1 as <-. rewrite (scheme_fun _ _ _ X3 Y3) in X4. congruence.
Qed.
Lemma rsa_decrypt_ok plain cipher pem mode s : Nlen pem < 2 ^ 31 ->
  ends_clean (rsa_decrypt a fault plain cipher pem mode) s (fun r s' =>
    match fst r with
    | Ok _ => plain = None /\ p_errs s' = [] /\ exists t, rsa_unwraps a pem mode cipher t /\ holds (snd r) t
    | Err e => (e = E_BAD_STATE /\ plain <> None /\ snd r = plain) \/
               (plain = None /\ snd r = None /\
                ((e = E_UNSUPPORTED_FORMAT /\ ~ exists p, rsa_scheme mode p) \/
                 (e = E_CRYPTO_UNKNOWN /\ p_errs s' = [] /\ (faulty fault \/ ~ private_key a pem)) \/
                 (e = E_BAD_CIPHERTEXT /\ p_errs s' = [] /\ private_key a pem /\ (faulty fault \/ ~ exists t, rsa_unwraps a pem mode cipher t))))
    end /\
    (~ faulty fault -> plain = None -> (exists t, rsa_unwraps a pem mode cipher t) -> fst r = Ok tt)).
Proof. intro HL. apply rsa_decrypt_read, pem_part_short, HL. Qed.

(** ** HKDF *)
Lemma with_kdf_wp h c f l n fr s (Q : option unit -> pst -> Prop) : at_objs l n fr s -> find_obj h l = Some (OKdf c) ->
  (faulty fault \/ f c = None -> forall s', at_objs l n fr s' -> Q None s') ->
  (forall c' s', f c = Some c' -> at_objs (set_obj h (OKdf c') l) n fr s' -> Q (Some tt) s') -> pwp (with_kdf fault h f) s Q.
Proof.
  intros H F HN HS. unfold with_kdf. eapply calling_wp; [exact H|auto|]. intros s' H'. apply pwp_bind. eapply lookup_wp; [exact H'|exact F|]. cbv beta iota.
  destruct (f c) as [c'|]; [|apply pwp_done, HN; auto]. eapply store_wp; [exact H'|]. intros t T. exact (HS c' t eq_refl T).
Qed.

Lemma md_size_digest sha : md_size sha = N.of_nat (digest_len sha).
Proof. destruct sha; reflexivity. Qed.

Definition real_salt (sha : sha_version) (salt : list N) : list N := match salt with [] => repeat 0 (digest_len sha) | _ => salt end.
Definition hkdf_post (okm : buf) (sha : sha_version) (sl ikm info : list N) (r : res unit * buf) : Prop :=
  match fst r with
  | Ok _ => derivable sha ikm info (b_len okm) /\
      snd r = mk_buf (a_hkdf a sha sl ikm info (b_len okm) ++ skipn (N.to_nat (b_len okm)) (b_mem okm)) (b_len okm)
  | Err e => (e = E_UNSUPPORTED_FORMAT /\ sha = NOSHA /\ snd r = okm) \/
             (e = E_CRYPTO_UNKNOWN /\ sha <> NOSHA /\ (faulty fault \/ ~ derivable sha ikm info (b_len okm)) /\ (cleared okm (snd r) \/ faulty fault /\ snd r = okm))
  end.

Lemma hkdf_run okm sha salt ikm info s0 s l0 n fr : Nlen salt < 2 ^ 31 -> Nlen ikm < 2 ^ 31 -> Nlen info < 2 ^ 31 -> b_len okm <= b_cap okm ->
  at_objs l0 n fr s -> p_objs s0 = l0 -> p_freed s0 = fr ->
  pwp (openssl_hkdf a fault okm sha salt ikm info) s (fun r s' => p_objs s' = p_objs s0 /\ p_freed s' = p_freed s0 /\ hkdf_post okm sha (real_salt sha salt) ikm info r).
Proof.
  intros HS HI HF HC H O0 F0. unfold openssl_hkdf. destruct (Nat.eq_dec (digest_len sha) 0) as [D0|DN].
  { destruct sha; try discriminate. apply pwp_done. destruct H as (H1 & H2 & H3). split; [congruence|]. split; [congruence|]. left. auto. }
  assert (SN : sha <> NOSHA) by (intros ->; cbn in DN; congruence).
  match goal with |- pwp (match sha with NOSHA => _ | SHA256 => ?x | SHA384 => _ | SHA512 => _ end) _ _ => replace (match sha with NOSHA => done (Err E_UNSUPPORTED_FORMAT, okm) | _ => x end) with x by (destruct sha; congruence) end.
  set (sl := real_salt sha salt).
  assert (SALT : exists d, (if negb (Nlen salt =? 0) then (salt, Nlen salt) else (zeros 64, md_size sha)) = (d, Nlen sl) /\ firstn (N.to_nat (Nlen sl)) d = sl /\ 0 < Nlen sl < 2 ^ 31).
  { subst sl. unfold real_salt. destruct salt as [|b r].
    - exists (zeros 64). cbn [Nlen length N.of_nat N.eqb negb]. split; [f_equal; destruct sha; reflexivity|]. split; destruct sha; try reflexivity; try congruence; vm_compute; repeat split; congruence.
    - exists (b :: r). destruct (N.eqb_spec (Nlen (b :: r)) 0) as [X|X]; [unfold Nlen in X; cbn in X; lia|]. cbn [negb]. split; [reflexivity|]. split; [apply firstn_Nlen; lia|lia]. }
  destruct SALT as (d & SE & SF & SL). clearbody sl. rewrite SE. clear SE. pose proof W as (_ & _ & _ & _ & WH).
  apply pwp_attempt. unfold kdf_ctx_new. eapply calling_wp; [exact H| |]; clear s H.
  { intros FT s (H1 & H2 & H3). apply pwp_done. split; [congruence|]. split; [congruence|]. right. auto 6. }
  intros s H. eapply alloc_wp; [exact H|]. clear s H. intros s H.
  assert (BAD : forall c s, at_objs ((n, OKdf c) :: l0) (S n) fr s -> faulty fault \/ ~ derivable sha ikm info (b_len okm) ->
    pwp (do! _ := release (Some n) in done (Err E_CRYPTO_UNKNOWN, buf_zero okm)) s
      (fun r s' => p_objs s' = p_objs s0 /\ p_freed s' = p_freed s0 /\ hkdf_post okm sha sl ikm info r)).
  { clear s H. intros c s H C. apply pwp_bind. eapply release_wp; [exact H|eqs; reflexivity|]. intros s' (H1 & H2 & H3). apply pwp_done.
    split; [congruence|]. split; [congruence|]. right. split; [reflexivity|]. split; [exact SN|]. split; [exact C|]. left. destruct okm as [m l]. apply cleared_zero. reflexivity. }
  cbv zeta.
  (* derive_init, md *)
  apply pwp_attempt. eapply with_kdf_wp; [exact H|eqs; reflexivity| |]; clear s H.
  { intros [C|C] s H; [eapply BAD; eauto|discriminate]. }
  intros c s C H. injection C as <-. revert H. eqs. intro H.
  apply pwp_attempt. eapply with_kdf_wp; [exact H|eqs; reflexivity| |]; clear s H; cbn [k_init k_md k_salt k_key k_info].
  { intros [C|C] s H; [eapply BAD; eauto|discriminate]. }
  intros c s C H. injection C as <-. revert H. eqs. intro H.
  (* salt *)
  apply pwp_attempt. unfold set1_hkdf_salt. rewrite to_int_small by lia. eapply with_kdf_wp; [exact H|eqs; reflexivity| |]; clear s H; cbn [k_init k_md k_salt k_key k_info negb orb].
  { intros [C|C] s H; [eapply BAD; eauto|]. destruct (Z.ltb_spec (Z.of_N (Nlen sl)) 0); [lia|]. destruct (Z.eqb_spec (Z.of_N (Nlen sl)) 0); [lia|discriminate]. }
  intros c s C H. destruct (Z.ltb_spec (Z.of_N (Nlen sl)) 0); [lia|]. destruct (Z.eqb_spec (Z.of_N (Nlen sl)) 0); [lia|]. injection C as <-. revert H. eqs.
  replace (Z.to_nat (Z.of_N (Nlen sl))) with (N.to_nat (Nlen sl)) by lia. rewrite SF. intro H.
  (* key *)
  apply pwp_attempt. unfold set1_hkdf_key. rewrite to_int_small by lia. eapply with_kdf_wp; [exact H|eqs; reflexivity| |]; clear s H; cbn [k_init k_md k_salt k_key k_info negb orb].
  { intros C s H; eapply BAD; [exact H|]. destruct C as [C|C]; [auto|right]. intros (_ & NE & _). destruct (Z.leb_spec (Z.of_N (Nlen ikm)) 0); [|discriminate].
    destruct ikm; [contradiction|]. unfold Nlen in *. cbn [length] in *. lia. }
  intros c s C H. destruct (Z.leb_spec (Z.of_N (Nlen ikm)) 0) as [|IK]; [discriminate|]. injection C as <-. revert H. eqs.
  rewrite firstn_all2 by (unfold Nlen; lia). intro H.
  (* info *)
  apply pwp_attempt. unfold add1_hkdf_info. rewrite to_int_small by lia. eapply with_kdf_wp; [exact H|eqs; reflexivity| |]; clear s H; cbn [k_init k_md k_salt k_key k_info negb orb].
  { intros C s H; eapply BAD; [exact H|]. destruct C as [C|C]; [auto|right]. intros (_ & _ & NI & _). destruct (Z.ltb_spec (Z.of_N (Nlen info)) 0); [lia|].
    destruct (Z.ltb_spec (1024 - Z.of_N (Nlen (@nil N))) (Z.of_N (Nlen info))) as [Q|Q]; [|discriminate]. unfold Nlen in *. cbn [length] in *. lia. }
  intros c s C H. destruct (Z.ltb_spec (Z.of_N (Nlen info)) 0); [lia|]. destruct (Z.ltb_spec (1024 - Z.of_N (Nlen (@nil N))) (Z.of_N (Nlen info))) as [|IL]; [discriminate|].
  cbn [orb] in C. injection C as <-. revert H. eqs. rewrite firstn_all2 by (unfold Nlen; lia). cbn [app]. intro H.
  (* derive *)
  apply pwp_attempt. unfold derive. eapply calling_wp; [exact H| |]; clear s H.
  { intros FT s H. eapply BAD; eauto. }
  intros s H. apply pwp_bind. eapply lookup_wp; [exact H|eqs; reflexivity|]. cbv beta iota. cbn [k_md k_salt k_key k_info]. rewrite md_size_digest.
  destruct (N.ltb_spec (255 * N.of_nat (digest_len sha)) (b_len okm)) as [L|L].
  { apply pwp_done. eapply BAD; [exact H|]. right. intros (_ & _ & _ & X). lia. }
  rewrite put_start by (rewrite WH; exact HC). apply pwp_done. apply pwp_bind. eapply release_wp; [exact H|eqs; reflexivity|].
  intros s' (J1 & J2 & J3). apply pwp_done. split; [congruence|]. split; [congruence|]. rewrite WH. split; [|reflexivity].
  split; [exact SN|]. split; [intro E; subst ikm; exact (Z.lt_irrefl 0 IK)|]. split; [unfold Nlen in *; cbn [length] in *; lia|exact L].
Qed.

Lemma hkdf_ok okm sha salt ikm info s : Nlen salt < 2 ^ 31 -> Nlen ikm < 2 ^ 31 -> Nlen info < 2 ^ 31 -> b_len okm <= b_cap okm ->
  ends_clean (openssl_hkdf a fault okm sha salt ikm info) s (fun r _ => hkdf_post okm sha (real_salt sha salt) ikm info r /\
    (~ faulty fault -> derivable sha ikm info (b_len okm) -> fst r = Ok tt)).
Proof.
  intros HS HI HF HC. apply pwp_clean.
  eapply pwp_post; [apply (hkdf_run okm sha salt ikm info s s (p_objs s) (p_next s) (p_freed s)); try assumption; try reflexivity; split; [|split]; reflexivity|].
  intros r s' (H1 & H2 & H3). split; [exact H1|]. split; [exists []; auto|]. split; [exact H3|]. intros NF D. unfold hkdf_post in H3. destruct (fst r) as [[]|e]; [reflexivity|].
  destruct H3 as [(_ & X & _)|(_ & _ & X & _)]; [destruct D; contradiction|destruct X; contradiction].
Qed.
End Runs.
