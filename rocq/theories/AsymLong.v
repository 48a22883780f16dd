(** HKDF of OpenSSL with arguments of any length. *)
From Verif Require Import Base BaseProofs AlgModel CryptoModel KeyringModel HkdfModel HkdfSpec HkdfProofs CipherModel CipherSpec CipherProofs AsymModel AsymSpec AsymProofs.
From Coq Require Import ZArith ZifyBool ZifyNat ZifyN.
Import List.
Open Scope list_scope.
Open Scope N_scope.

Ltac eqs := repeat (cbn [find_obj drop_obj set_obj];
  match goal with
  | |- context [Nat.eqb ?x ?x] => rewrite (Nat.eqb_refl x)
  | |- context [Nat.eqb ?x ?y] => rewrite (proj2 (Nat.eqb_neq x y)) by lia
  end).

Lemma int_cases x : ((to_int (Nlen x) < 0)%Z /\ int_part x = None) \/
  exists n, n < 2 ^ 31 /\ to_int (Nlen x) = Z.of_N n /\ int_part x = Some (firstn (N.to_nat n) x) /\ Nlen (firstn (N.to_nat n) x) = n.
Proof.
  unfold to_int, int_part, two32. cbv zeta. pose proof (N.mod_lt (Nlen x) (2 ^ 32) ltac:(discriminate)) as L.
  assert (LE : Nlen x mod 2 ^ 32 <= Nlen x) by (apply N.mod_le; discriminate).
  destruct (N.ltb_spec (Nlen x mod 2 ^ 32) (2 ^ 31)) as [S|S].
  - right. exists (Nlen x mod 2 ^ 32). split; [exact S|]. split; [reflexivity|]. split; [reflexivity|]. unfold Nlen in *. rewrite firstn_length. lia.
  - left. split; [|reflexivity]. change (2 ^ 32)%Z with (Z.of_N (2 ^ 32)). lia.
Qed.

Section Runs.
Variable a : asym.
Variable fault : nat -> option (list N).
Hypothesis W : asym_wf a.

Definition used (okm : buf) (sha : sha_version) (salt ikm info s k i : list N) : Prop :=
  int_part salt = Some s /\ int_part ikm = Some k /\ int_part info = Some i /\ derivable sha k i (b_len okm).
Definition any_post (okm : buf) (sha : sha_version) (salt ikm info : list N) (r : res unit * buf) : Prop :=
  match fst r with
  | Ok _ => exists s k i, used okm sha salt ikm info s k i /\
      snd r = mk_buf (a_hkdf a sha (match salt with [] => repeat 0 (digest_len sha) | _ => s end) k i (b_len okm) ++ skipn (N.to_nat (b_len okm)) (b_mem okm)) (b_len okm)
  | Err e => (e = E_UNSUPPORTED_FORMAT /\ sha = NOSHA /\ snd r = okm) \/
             (e = E_CRYPTO_UNKNOWN /\ sha <> NOSHA /\ (faulty fault \/ ~ exists s k i, used okm sha salt ikm info s k i) /\ (cleared okm (snd r) \/ faulty fault /\ snd r = okm))
  end.

Lemma any_run okm sha salt ikm info s0 s l0 n fr : b_len okm <= b_cap okm -> at_objs l0 n fr s -> p_objs s0 = l0 -> p_freed s0 = fr ->
  pwp (openssl_hkdf a fault okm sha salt ikm info) s (fun r s' => p_objs s' = p_objs s0 /\ p_freed s' = p_freed s0 /\ any_post okm sha salt ikm info r).
Proof.
  intros HC H O0 F0. unfold openssl_hkdf. destruct (Nat.eq_dec (digest_len sha) 0) as [D0|DN].
  { destruct sha; try discriminate. apply pwp_done. destruct H as (H1 & H2 & H3). split; [congruence|]. split; [congruence|]. left. auto. }
  assert (SN : sha <> NOSHA) by (intros ->; cbn in DN; congruence).
  match goal with |- pwp (match sha with NOSHA => _ | SHA256 => ?x | SHA384 => _ | SHA512 => _ end) _ _ => replace (match sha with NOSHA => done (Err E_UNSUPPORTED_FORMAT, okm) | _ => x end) with x by (destruct sha; congruence) end.
  assert (SALT : exists d m, (if negb (Nlen salt =? 0) then (salt, Nlen salt) else (zeros 64, md_size sha)) = (d, m) /\
    (((to_int m < 0)%Z /\ int_part salt = None) \/
     exists x sp, to_int m = Z.of_N x /\ int_part salt = Some sp /\ (if x =? 0 then [] else firstn (N.to_nat x) d) = match salt with [] => repeat 0 (digest_len sha) | _ => sp end)).
  { destruct salt as [|b r].
    - exists (zeros 64), (md_size sha). split; [reflexivity|]. right. exists (md_size sha), []. destruct sha; try congruence; vm_compute; auto.
    - exists (b :: r), (Nlen (b :: r)). destruct (N.eqb_spec (Nlen (b :: r)) 0) as [X|X]; [unfold Nlen in X; cbn in X; lia|]. cbn [negb]. split; [reflexivity|].
      destruct (int_cases (b :: r)) as [C|(x & X1 & X2 & X3 & X4)]; [left; exact C|right]. exists x. eexists. split; [exact X2|]. split; [exact X3|].
      destruct (N.eqb_spec x 0) as [->|]; reflexivity. }
  destruct SALT as (d & m & SE & SC). rewrite SE. clear SE. pose proof W as (_ & _ & _ & _ & WH).
  apply pwp_attempt. unfold kdf_ctx_new. eapply calling_wp; [exact H| |]; clear s H.
  { intros FT s (H1 & H2 & H3). apply pwp_done. split; [congruence|]. split; [congruence|]. right. auto 6. }
  intros s H. eapply alloc_wp; [exact H|]. clear s H. intros s H.
  assert (BAD : forall c s, at_objs ((n, OKdf c) :: l0) (S n) fr s -> faulty fault \/ (~ exists s k i, used okm sha salt ikm info s k i) ->
    pwp (do! _ := release (Some n) in done (Err E_CRYPTO_UNKNOWN, buf_zero okm)) s
      (fun r s' => p_objs s' = p_objs s0 /\ p_freed s' = p_freed s0 /\ any_post okm sha salt ikm info r)).
  { clear s H. intros c s H C. apply pwp_bind. eapply release_wp; [exact H|eqs; reflexivity|]. intros s' (H1 & H2 & H3). apply pwp_done.
    split; [congruence|]. split; [congruence|]. right. split; [reflexivity|]. split; [exact SN|]. split; [exact C|]. left. destruct okm as [mm l]. apply cleared_zero. reflexivity. }
  cbv zeta.
  (* derive_init, md *)
  apply pwp_attempt. eapply with_kdf_wp; [exact H|eqs; reflexivity| |]; clear s H.
  { intros [C|C] s H; [eapply BAD; eauto|discriminate]. }
  intros c s C H. injection C as <-. revert H. eqs. intro H.
  apply pwp_attempt. eapply with_kdf_wp; [exact H|eqs; reflexivity| |]; clear s H; cbn [k_init k_md k_salt k_key k_info].
  { intros [C|C] s H; [eapply BAD; eauto|discriminate]. }
  intros c s C H. injection C as <-. revert H. eqs. intro H.
  (* salt *)
  apply pwp_attempt. unfold set1_hkdf_salt. eapply with_kdf_wp; [exact H|eqs; reflexivity| |]; clear s H; cbn [k_init k_md k_salt k_key k_info negb orb].
  { intros C s H; eapply BAD; [exact H|]. destruct C as [C|C]; [auto|right]. intros (sp & k & i & U & _). destruct SC as [[_ X]|(x & sp' & X & _)]; [congruence|].
    rewrite X in C. destruct (Z.ltb_spec (Z.of_N x) 0); [lia|]. destruct (Z.eqb_spec (Z.of_N x) 0); discriminate. }
  intros c s C H. destruct (Z.ltb_spec (to_int m) 0) as [|NN]; [discriminate|]. destruct SC as [[X _]|(x & sp & SX & SP & SV)]; [lia|]. rewrite SX in *.
  set (sl := match salt with [] => repeat 0 (digest_len sha) | _ => sp end) in *.
  assert (CC : c = mk_kdf_ctx true (Some sha) sl None []).
  { rewrite <- SV. destruct (Z.eqb_spec (Z.of_N x) 0) as [Z|Z]; destruct (N.eqb_spec x 0); try lia; injection C as <-; [reflexivity|].
    replace (Z.to_nat (Z.of_N x)) with (N.to_nat x) by lia. reflexivity. }
  subst c. clear C. revert H. eqs. intro H.
  (* key *)
  apply pwp_attempt. unfold set1_hkdf_key. eapply with_kdf_wp; [exact H|eqs; reflexivity| |]; clear s H; cbn [k_init k_md k_salt k_key k_info negb orb].
  { intros C s H; eapply BAD; [exact H|]. destruct C as [C|C]; [auto|right]. intros (sp' & k & i & _ & U & _ & _ & NE & _).
    destruct (int_cases ikm) as [[_ X]|(y & Y1 & Y2 & Y3 & Y4)]; [congruence|]. rewrite Y2 in C. destruct (Z.leb_spec (Z.of_N y) 0); [|discriminate].
    rewrite Y3 in U. injection U as <-. apply NE. replace y with 0 by lia. reflexivity. }
  intros c s C H. destruct (Z.leb_spec (to_int (Nlen ikm)) 0) as [|IK]; [discriminate|]. injection C as <-.
  destruct (int_cases ikm) as [[X _]|(y & Y1 & Y2 & Y3 & Y4)]; [lia|]. rewrite Y2 in *. revert H. eqs.
  replace (Z.to_nat (Z.of_N y)) with (N.to_nat y) by lia. set (kp := firstn (N.to_nat y) ikm) in *. intro H.
  (* info *)
  apply pwp_attempt. unfold add1_hkdf_info. eapply with_kdf_wp; [exact H|eqs; reflexivity| |]; clear s H; cbn [k_init k_md k_salt k_key k_info negb orb].
  { intros C s H; eapply BAD; [exact H|]. destruct C as [C|C]; [auto|right]. intros (sp' & k & i & _ & _ & U & _ & _ & NI & _).
    destruct (int_cases info) as [[_ X]|(z & Z1 & Z2 & Z3 & Z4)]; [congruence|]. rewrite Z2 in C. rewrite Z3 in U. injection U as <-. rewrite Z4 in NI.
    destruct (Z.ltb_spec (Z.of_N z) 0); [lia|].
    destruct (Z.ltb_spec (1024 - Z.of_N (Nlen (@nil N))) (Z.of_N z)) as [Q|Q]; [|discriminate]. unfold Nlen in Q. cbn [length] in Q. lia. }
  intros c s C H. destruct (Z.ltb_spec (to_int (Nlen info)) 0) as [|IN]; [discriminate|].
  destruct (int_cases info) as [[X _]|(z & Z1 & Z2 & Z3 & Z4)]; [lia|]. rewrite Z2 in *.
  destruct (Z.ltb_spec (1024 - Z.of_N (Nlen (@nil N))) (Z.of_N z)) as [|IL]; [discriminate|].
  cbn [orb] in C. injection C as <-. revert H. eqs. replace (Z.to_nat (Z.of_N z)) with (N.to_nat z) by lia. set (ip := firstn (N.to_nat z) info) in *. cbn [app]. intro H.
  (* derive *)
  apply pwp_attempt. unfold derive. eapply calling_wp; [exact H| |]; clear s H.
  { intros FT s H. eapply BAD; eauto. }
  intros s H. apply pwp_bind. eapply lookup_wp; [exact H|eqs; reflexivity|]. cbv beta iota. cbn [k_md k_salt k_key k_info]. rewrite md_size_digest.
  destruct (N.ltb_spec (255 * N.of_nat (digest_len sha)) (b_len okm)) as [L|L].
  { apply pwp_done. eapply BAD; [exact H|]. right. intros (sp' & k & i & _ & _ & _ & _ & _ & _ & X). lia. }
  rewrite put_start by (rewrite WH; exact HC). apply pwp_done. apply pwp_bind. eapply release_wp; [exact H|eqs; reflexivity|].
  intros s' (J1 & J2 & J3). apply pwp_done. split; [congruence|]. split; [congruence|]. rewrite WH. exists sp, kp, ip. split; [|reflexivity].
  split; [exact SP|]. split; [exact Y3|]. split; [exact Z3|].
  split; [exact SN|]. split; [intro E; rewrite E in Y4; unfold Nlen in Y4; cbn [length] in Y4; lia|]. split; [rewrite Z4; unfold Nlen in IL; cbn [length] in IL; lia|exact L].
Qed.

Lemma hkdf_any okm sha salt ikm info s : b_len okm <= b_cap okm ->
  ends_clean (openssl_hkdf a fault okm sha salt ikm info) s (fun r _ => any_post okm sha salt ikm info r /\
    (~ faulty fault -> (exists s k i, used okm sha salt ikm info s k i) -> fst r = Ok tt)).
Proof.
  intros HC. apply pwp_clean.
  eapply pwp_post; [apply (any_run okm sha salt ikm info s s (p_objs s) (p_next s) (p_freed s)); try assumption; try reflexivity; split; [|split]; reflexivity|].
  intros r s' (H1 & H2 & H3). split; [exact H1|]. split; [exists []; auto|]. split; [exact H3|]. intros NF D. unfold any_post in H3. destruct (fst r) as [[]|e]; [reflexivity|].
  destruct H3 as [(_ & X & _)|(_ & _ & X & _)]; [destruct D as (? & ? & ? & _ & _ & _ & Y & _); contradiction|destruct X; contradiction].
Qed.
End Runs.
