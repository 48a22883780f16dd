(** Proofs about the encryption context codec. *)
From Verif Require Import Base BaseProofs EncCtxModel HdrModel FrameModel WireSpec.
From Coq Require Import ZArith ZifyBool ZifyNat ZifyN Permutation Sorted.
Open Scope N_scope.

Lemma be1 : forall n, n < 256 -> be_bytes 1 n = u8 n.
Proof.
  intros. cbn [be_bytes]. unfold u8. f_equal. change (2 ^ (8 * N.of_nat 0)) with 1.
  rewrite N.div_1_r. now apply N.mod_small.
Qed.
Lemma be2 : forall n, n < 65536 -> be_bytes 2 n = u16 n.
Proof.
  intros. cbn [be_bytes]. unfold u16.
  change (2 ^ (8 * N.of_nat 1)) with 256. change (2 ^ (8 * N.of_nat 0)) with 1. rewrite N.div_1_r.
  f_equal. apply N.mod_small. lia.
Qed.
Lemma be4 : forall n, n < 4294967296 -> be_bytes 4 n = u32 n.
Proof.
  intros. cbn [be_bytes]. unfold u32.
  change (2 ^ (8 * N.of_nat 3)) with 16777216. change (2 ^ (8 * N.of_nat 2)) with 65536.
  change (2 ^ (8 * N.of_nat 1)) with 256. change (2 ^ (8 * N.of_nat 0)) with 1. rewrite N.div_1_r.
  f_equal. apply N.mod_small. lia.
Qed.
Lemma cons_eq : forall A (x y : A) l m, x = y -> l = m -> x :: l = y :: m.
Proof. congruence. Qed.
Lemma be8 : forall n, n < 18446744073709551616 -> be_bytes 8 n = u64 n.
Proof.
  intros. cbn [be_bytes]. unfold u64, u32. cbn [app].
  change (2 ^ (8 * N.of_nat 7)) with 72057594037927936. change (2 ^ (8 * N.of_nat 6)) with 281474976710656.
  change (2 ^ (8 * N.of_nat 5)) with 1099511627776. change (2 ^ (8 * N.of_nat 4)) with 4294967296.
  change (2 ^ (8 * N.of_nat 3)) with 16777216. change (2 ^ (8 * N.of_nat 2)) with 65536.
  change (2 ^ (8 * N.of_nat 1)) with 256. change (2 ^ (8 * N.of_nat 0)) with 1. rewrite N.div_1_r.
  repeat (apply cons_eq; [lia|]). reflexivity.
Qed.

Lemma Nlen_u16 : forall n, Nlen (u16 n) = 2. Proof. reflexivity. Qed.
Lemma Nlen_u32 : forall n, Nlen (u32 n) = 4. Proof. reflexivity. Qed.
Lemma Nlen_u64 : forall n, Nlen (u64 n) = 8. Proof. reflexivity. Qed.
Lemma Nlen_u8 : forall n, Nlen (u8 n) = 1. Proof. reflexivity. Qed.
Lemma Nlen_field16 : forall b, Nlen (field16 b) = 2 + Nlen b.
Proof. intros. unfold field16. rewrite Nlen_app, Nlen_u16. reflexivity. Qed.
Lemma Nlen_wire_pair : forall e, Nlen (wire_pair e) = 4 + Nlen (fst e) + Nlen (snd e).
Proof. intros. unfold wire_pair. rewrite Nlen_app, !Nlen_field16. lia. Qed.

Lemma read_u16 : forall n s, n < 65536 -> read_be 2 (u16 n ++ s) = Ok (n, s).
Proof. intros. rewrite <- be2 by auto. apply read_be_app. exact H. Qed.
Lemma read_u32 : forall n s, n < 4294967296 -> read_be 4 (u32 n ++ s) = Ok (n, s).
Proof. intros. rewrite <- be4 by auto. apply read_be_app. exact H. Qed.
Lemma read_u64 : forall n s, n < 18446744073709551616 -> read_be 8 (u64 n ++ s) = Ok (n, s).
Proof. intros. rewrite <- be8 by auto. apply read_be_app. exact H. Qed.
Lemma read_u8 : forall n s, n < 256 -> read_be 1 (u8 n ++ s) = Ok (n, s).
Proof. intros. rewrite <- be1 by auto. apply read_be_app. exact H. Qed.

Lemma read_u16_inv : forall s v r, bytes_ok s -> read_be 2 s = Ok (v, r) ->
  s = u16 v ++ r /\ v < 65536 /\ bytes_ok r.
Proof.
  intros. apply read_be_inv in H0; auto. destruct H0 as [A [B C]].
  change (2 ^ (8 * N.of_nat 2)) with 65536 in B. rewrite be2 in A; auto.
Qed.
Lemma read_u32_inv : forall s v r, bytes_ok s -> read_be 4 s = Ok (v, r) ->
  s = u32 v ++ r /\ v < 4294967296 /\ bytes_ok r.
Proof.
  intros. apply read_be_inv in H0; auto. destruct H0 as [A [B C]].
  change (2 ^ (8 * N.of_nat 4)) with 4294967296 in B. rewrite be4 in A; auto.
Qed.
Lemma read_u64_inv : forall s v r, bytes_ok s -> read_be 8 s = Ok (v, r) ->
  s = u64 v ++ r /\ v < 18446744073709551616 /\ bytes_ok r.
Proof.
  intros. apply read_be_inv in H0; auto. destruct H0 as [A [B C]].
  change (2 ^ (8 * N.of_nat 8)) with 18446744073709551616 in B. rewrite be8 in A; auto.
Qed.
Lemma read_u8_inv : forall s v r, bytes_ok s -> read_be 1 s = Ok (v, r) ->
  s = u8 v ++ r /\ v < 256 /\ bytes_ok r.
Proof.
  intros. apply read_be_inv in H0; auto. destruct H0 as [A [B C]].
  change (2 ^ (8 * N.of_nat 1)) with 256 in B. rewrite be1 in A; auto.
Qed.
Lemma read_bytes_inv_ok : forall n s a r, bytes_ok s -> read_bytes n s = Ok (a, r) ->
  s = a ++ r /\ Nlen a = n /\ bytes_ok r.
Proof.
  intros. apply read_bytes_inv in H0. destruct H0; subst. apply bytes_ok_app in H. tauto.
Qed.

(** ** Size *)

Fixpoint pairs_len (c : enc_ctx) : N :=
  match c with [] => 0 | e :: c' => 4 + Nlen (fst e) + Nlen (snd e) + pairs_len c' end.

Lemma Nlen_pairs : forall c, Nlen (concat (map wire_pair c)) = pairs_len c.
Proof.
  induction c as [|e c IH]; cbn [map concat pairs_len]; [reflexivity|].
  rewrite Nlen_app, Nlen_wire_pair, IH. lia.
Qed.

Lemma Nlen_wire_ctx : forall c, Nlen (wire_ctx c) = match c with [] => 0 | _ => 2 + pairs_len c end.
Proof.
  intros [|e c]; [reflexivity|]. unfold wire_ctx. rewrite Nlen_app, Nlen_u16, Nlen_pairs. reflexivity.
Qed.

Lemma pairs_len_count : forall c, 4 * Nlen c <= pairs_len c.
Proof.
  induction c as [|e c IH]; cbn [pairs_len]; [rewrite Nlen_nil; lia|]. rewrite Nlen_cons. lia.
Qed.

Lemma pairs_len_in : forall c e, In e c -> 4 + Nlen (fst e) + Nlen (snd e) <= pairs_len c.
Proof.
  induction c as [|x c IH]; cbn [pairs_len In]; [tauto|]. intros e [->|H]; [lia|].
  apply IH in H. lia.
Qed.

Lemma pairs_len_perm : forall c d, Permutation c d -> pairs_len c = pairs_len d.
Proof. induction 1; cbn [pairs_len]; lia. Qed.

Lemma size_loop_spec : forall c n, n <= 65535 ->
  enc_ctx_size_loop c n = if n + pairs_len c <=? 65535 then Ok (n + pairs_len c) else Err E_LIMIT_EXCEEDED.
Proof.
  change 65535 with UINT16_MAX.
  induction c as [|[k v] c IH]; intros n Hn; cbn [enc_ctx_size_loop pairs_len].
  - rewrite N.add_0_r. destruct (N.leb_spec n UINT16_MAX); [reflexivity|lia].
  - cbn [fst snd]. destruct (N.ltb_spec UINT16_MAX (n + Nlen k + Nlen v + 4)).
    + destruct (N.leb_spec (n + (4 + Nlen k + Nlen v + pairs_len c)) UINT16_MAX); [lia|reflexivity].
    + rewrite IH by lia.
      replace (n + Nlen k + Nlen v + 4 + pairs_len c) with (n + (4 + Nlen k + Nlen v + pairs_len c)) by lia.
      reflexivity.
Qed.

Lemma enc_ctx_size_spec : forall c,
  enc_ctx_size c = if Nlen (wire_ctx c) <=? 65535 then Ok (Nlen (wire_ctx c)) else Err E_LIMIT_EXCEEDED.
Proof.
  intros c. unfold enc_ctx_size. rewrite Nlen_wire_ctx. change UINT16_MAX with 65535.
  destruct (N.ltb_spec 65535 (Nlen c)) as [H|H].
  - destruct c as [|e c]; [rewrite Nlen_nil in H; lia|].
    pose proof (pairs_len_count (e :: c)).
    destruct (N.leb_spec (2 + pairs_len (e :: c)) 65535); [lia|reflexivity].
  - destruct c as [|e c]; [reflexivity|]. rewrite size_loop_spec by lia. reflexivity.
Qed.

Lemma enc_ctx_size_ok : forall c n, enc_ctx_size c = Ok n <-> n = Nlen (wire_ctx c) /\ ctx_fits c.
Proof.
  intros. rewrite enc_ctx_size_spec. unfold ctx_fits.
  destruct (N.leb_spec (Nlen (wire_ctx c)) 65535); split; intros H1.
  - inv H1. auto.
  - destruct H1; subst; auto.
  - discriminate.
  - destruct H1. lia.
Qed.

(** ** Sorting *)

Lemma lex_lt_compare : forall a b, lex_lt a b <-> bytes_compare a b = Lt.
Proof.
  split.
  - induction 1; cbn [bytes_compare]; auto.
    + rewrite (proj2 (N.compare_lt_iff x y)) by auto. reflexivity.
    + now rewrite N.compare_refl.
  - revert b. induction a as [|x a IH]; intros [|y b]; cbn [bytes_compare]; intros H; try discriminate.
    + constructor.
    + destruct (N.compare_spec x y); try discriminate; subst.
      * apply lex_tail. auto.
      * now apply lex_head.
Qed.

Lemma ctx_insert_perm : forall e l, Permutation (ctx_insert e l) (e :: l).
Proof.
  induction l as [|x l IH]; cbn [ctx_insert]; auto.
  destruct (bytes_compare (fst e) (fst x)); auto.
  rewrite IH. apply perm_swap.
Qed.

Lemma ctx_sort_perm : forall l, Permutation (ctx_sort l) l.
Proof.
  induction l as [|x l IH]; cbn [ctx_sort]; auto. rewrite ctx_insert_perm. now constructor.
Qed.

Lemma ctx_insert_sorted : forall e l,
  keys_ascending l -> ~ In (fst e) (map fst l) -> keys_ascending (ctx_insert e l).
Proof.
  unfold keys_ascending.
  induction l as [|x l IH]; intros S NI; cbn [ctx_insert].
  - constructor; constructor.
  - inv S. destruct (bytes_compare (fst e) (fst x)) eqn:C.
    + apply bytes_compare_eq in C. exfalso. apply NI. cbn. auto.
    + constructor; [now constructor|]. constructor; [now apply lex_lt_compare|].
      rewrite Forall_forall in H2 |- *. intros y Hy. specialize (H2 y Hy).
      apply lex_lt_compare in H2. apply lex_lt_compare. eauto using bytes_compare_trans.
    + constructor.
      * apply IH; auto. intros HI. apply NI. cbn. auto.
      * rewrite Forall_forall in H2 |- *. intros y Hy.
        apply (Permutation_in _ (ctx_insert_perm e l)) in Hy. destruct Hy as [<-|Hy]; auto.
        apply lex_lt_compare. rewrite bytes_compare_antisym, C. reflexivity.
Qed.

Lemma ctx_sort_sorted : forall l, distinct_keys l -> keys_ascending (ctx_sort l).
Proof.
  unfold distinct_keys. induction l as [|x l IH]; cbn [ctx_sort map]; intros H.
  - constructor.
  - inv H. apply ctx_insert_sorted; auto.
    intros HI. apply H2. eapply Permutation_in; [|exact HI].
    apply Permutation_map. apply ctx_sort_perm.
Qed.

Lemma distinct_perm : forall c d, Permutation c d -> distinct_keys c -> distinct_keys d.
Proof. unfold distinct_keys. intros c d P H. eapply Permutation_NoDup; [apply Permutation_map; eauto|auto]. Qed.

Lemma lex_lt_irrefl : forall a, ~ lex_lt a a.
Proof. intros a H. apply lex_lt_compare in H. rewrite (proj2 (bytes_compare_eq a a) eq_refl) in H. discriminate. Qed.

Lemma sorted_perm_eq : forall c d, keys_ascending c -> keys_ascending d -> Permutation c d -> c = d.
Proof.
  unfold keys_ascending. induction c as [|x c IH]; intros d Sc Sd P.
  - now apply Permutation_nil in P.
  - destruct d as [|y d]; [apply Permutation_sym, Permutation_nil in P; discriminate|].
    inv Sc. inv Sd. rewrite Forall_forall in H2, H4.
    assert (x = y).
    { pose proof (Permutation_in x P (or_introl eq_refl)) as [E|Hx]; auto.
      pose proof (Permutation_in y (Permutation_sym P) (or_introl eq_refl)) as [E|Hy]; auto.
      exfalso. apply (lex_lt_irrefl (fst x)). apply H4 in Hx. apply H2 in Hy.
      apply lex_lt_compare. apply lex_lt_compare in Hx, Hy. eauto using bytes_compare_trans. }
    subst y. f_equal. apply IH; auto. now apply Permutation_cons_inv in P.
Qed.

Lemma ctx_sort_unique : forall c d, distinct_keys c -> Permutation c d -> ctx_sort c = ctx_sort d.
Proof.
  intros c d D P. apply sorted_perm_eq.
  - now apply ctx_sort_sorted.
  - apply ctx_sort_sorted. eauto using distinct_perm.
  - rewrite !ctx_sort_perm. exact P.
Qed.

Lemma same_map_perm : forall c d, distinct_keys c -> distinct_keys d -> (same_map c d <-> Permutation c d).
Proof.
  intros c d Hc Hd. split.
  - intros S. apply NoDup_Permutation.
    + eapply NoDup_map_inv; eauto.
    + eapply NoDup_map_inv; eauto.
    + intros [k v]. apply S.
  - intros P k v. split; apply Permutation_in; [exact P|symmetry; exact P].
Qed.

(** ** Serialisation *)

Lemma ser_entry_wire : forall e, fits16 (fst e) -> fits16 (snd e) -> ser_entry e = wire_pair e.
Proof.
  unfold fits16. intros e H1 H2. unfold ser_entry, wire_pair, field16.
  rewrite !be2 by lia. now rewrite <- !app_assoc.
Qed.

Lemma ser_entries_wire : forall c, pairs_len c <= 65535 ->
  concat (map ser_entry c) = concat (map wire_pair c).
Proof.
  induction c as [|e c IH]; cbn [map concat pairs_len]; auto. intros H.
  rewrite IH by lia. rewrite ser_entry_wire; auto; unfold fits16; lia.
Qed.

Lemma ctx_sort_nil : forall c, ctx_sort c = [] -> c = [].
Proof. intros c H. apply Permutation_nil. rewrite <- H. apply ctx_sort_perm. Qed.

Lemma Nlen_wire_ctx_perm : forall c d, Permutation c d -> Nlen (wire_ctx c) = Nlen (wire_ctx d).
Proof.
  intros c d P. rewrite !Nlen_wire_ctx. rewrite (pairs_len_perm _ _ P).
  destruct c, d; auto.
  - apply Permutation_nil in P. discriminate.
  - apply Permutation_sym, Permutation_nil in P. discriminate.
Qed.

Lemma serialize_spec : forall cap len c,
  enc_ctx_serialize cap len c =
  if 65535 <? Nlen (wire_ctx c) then Err E_LIMIT_EXCEEDED
  else if (Nlen (wire_ctx c) =? 0) || (len + Nlen (wire_ctx c) <=? cap) then Ok (wire_ctx (ctx_sort c))
  else Err E_SHORT_BUFFER.
Proof.
  intros. unfold enc_ctx_serialize. rewrite enc_ctx_size_spec. change UINT16_MAX with 65535.
  pose proof (Nlen_wire_ctx c) as L. pose proof (pairs_len_count c) as PC.
  pose proof (Nlen_wire_ctx_perm _ _ (ctx_sort_perm c)) as LS.
  destruct (N.ltb_spec 65535 (Nlen c)).
  { destruct c as [|e c]; [rewrite Nlen_nil in *; lia|].
    destruct (N.ltb_spec 65535 (Nlen (wire_ctx (e :: c)))); [reflexivity|lia]. }
  destruct (N.leb_spec (Nlen (wire_ctx c)) 65535); cbn [bind].
  2:{ destruct (N.ltb_spec 65535 (Nlen (wire_ctx c))); [reflexivity|lia]. }
  destruct (N.ltb_spec 65535 (Nlen (wire_ctx c))); [lia|].
  destruct c as [|e c].
  { reflexivity. }
  set (d := e :: c) in *. assert (NE : Nlen (wire_ctx d) <> 0) by (rewrite L; unfold d; lia).
  destruct (N.eqb_spec (Nlen (wire_ctx d)) 0); [contradiction|]. cbn [orb].
  assert (OUT : be_bytes 2 (Nlen d) ++ concat (map ser_entry (ctx_sort d)) = wire_ctx (ctx_sort d)).
  { rewrite be2 by (unfold d in *; lia). rewrite ser_entries_wire.
    - unfold wire_ctx. destruct (ctx_sort d) eqn:E; [apply ctx_sort_nil in E; discriminate|].
      rewrite <- E. now rewrite (Nlen_perm _ _ _ (ctx_sort_perm d)).
    - rewrite (pairs_len_perm _ _ (ctx_sort_perm d)). unfold d in *. lia. }
  rewrite OUT, LS.
  destruct (N.ltb_spec cap (Nlen (wire_ctx d))); destruct (N.ltb_spec cap (len + Nlen (wire_ctx d)));
    destruct (N.leb_spec (len + Nlen (wire_ctx d)) cap); auto; lia.
Qed.

(** ** Deserialisation *)

Lemma ctx_put_created : forall k v c, ctx_put k v c = (c ++ [(k, v)], true) /\ ~ In k (map fst c)
  \/ snd (ctx_put k v c) = false /\ In k (map fst c).
Proof.
  induction c as [|[k' v'] c IH]; cbn [ctx_put map fst In app].
  - left. auto.
  - destruct (bytes_eqb k k') eqn:E.
    + apply bytes_eqb_spec in E. subst. right. auto.
    + apply bytes_eqb_false in E. destruct IH as [[IH NI]|[IH I]].
      * left. rewrite IH. split; auto. intros [H|H]; auto.
      * right. destruct (ctx_put k v c) as [c'' b] eqn:P. cbn in *. auto.
Qed.

Lemma NoDup_app_split : forall A (a b : list A), NoDup (a ++ b) <->
  NoDup a /\ NoDup b /\ forall x, In x a -> ~ In x b.
Proof.
  induction a as [|x a IH]; intros b; cbn [app].
  - split; [intros H; repeat split; auto; constructor | tauto].
  - rewrite !NoDup_cons_iff, IH, in_app_iff. cbn [In]. split.
    + intros [H1 [H2 [H3 H4]]]. repeat split; auto. intros y [<-|Hy]; auto.
    + intros [[H1 H2] [H3 H4]]. repeat split; auto.
      intros [H|H]; auto. apply (H4 x); auto.
Qed.

Lemma wire_pair_eq : forall k v, wire_pair (k, v) = u16 (Nlen k) ++ k ++ u16 (Nlen v) ++ v.
Proof. intros. unfold wire_pair, field16. cbn [fst snd]. now rewrite <- !app_assoc. Qed.

Definition pair_fits (e : list N * list N) : Prop := fits16 (fst e) /\ fits16 (snd e).

Lemma des_loop_complete : forall d c r,
  distinct_keys (c ++ d) -> Forall pair_fits d ->
  enc_ctx_des_loop (length d) c (concat (map wire_pair d) ++ r) = Ok (c ++ d, r).
Proof.
  induction d as [|[k v] d IH]; intros c r D F; cbn [length enc_ctx_des_loop map concat].
  - now rewrite app_nil_r.
  - inv F. destruct H1 as [Fk Fv]. unfold fits16 in *. cbn [fst snd] in *.
    rewrite wire_pair_eq. rewrite <- !app_assoc.
    rewrite read_u16 by lia. cbn [bind]. rewrite read_bytes_app. cbn [bind].
    rewrite read_u16 by lia. cbn [bind]. rewrite read_bytes_app. cbn [bind].
    destruct (ctx_put_created k v c) as [[-> _]|[_ I]].
    + cbv beta iota. rewrite (IH (c ++ [(k, v)]) r); auto.
      * now rewrite <- app_assoc.
      * now rewrite <- app_assoc.
    + exfalso. unfold distinct_keys in D. rewrite map_app in D. apply NoDup_app_split in D.
      destruct D as [_ [_ D]]. apply (D k); cbn; auto.
Qed.

Lemma des_loop_sound : forall n c s c' r, bytes_ok s -> distinct_keys c ->
  enc_ctx_des_loop n c s = Ok (c', r) ->
  exists d, c' = c ++ d /\ length d = n /\ s = concat (map wire_pair d) ++ r /\
            Forall pair_fits d /\ distinct_keys c'.
Proof.
  induction n as [|n IH]; intros c s c' r O D H; cbn [enc_ctx_des_loop] in H.
  - inv H. exists []. rewrite app_nil_r. repeat split; auto.
  - destruct (read_be 2 s) as [[kl s1]|] eqn:E1; cbn [bind] in H; [|discriminate].
    apply read_u16_inv in E1; auto. destruct E1 as [-> [B1 O1]].
    destruct (read_bytes kl s1) as [[k s2]|] eqn:E2; cbn [bind] in H; [|discriminate].
    apply read_bytes_inv_ok in E2; auto. destruct E2 as [-> [L2 O2]].
    destruct (read_be 2 s2) as [[vl s3]|] eqn:E3; cbn [bind] in H; [|discriminate].
    apply read_u16_inv in E3; auto. destruct E3 as [-> [B3 O3]].
    destruct (read_bytes vl s3) as [[v s4]|] eqn:E4; cbn [bind] in H; [|discriminate].
    apply read_bytes_inv_ok in E4; auto. destruct E4 as [-> [L4 O4]].
    destruct (ctx_put_created k v c) as [[P NI]|[P I]].
    + rewrite P in H. apply IH in H; auto.
      * destruct H as [d [-> [LD [-> [F D']]]]]. exists ((k, v) :: d).
        repeat split.
        -- now rewrite <- app_assoc.
        -- cbn [length]. now rewrite LD.
        -- cbn [map concat]. rewrite wire_pair_eq, L2, L4.
           now rewrite <- !app_assoc.
        -- constructor; auto. unfold pair_fits, fits16. cbn [fst snd]. lia.
        -- exact D'.
      * unfold distinct_keys in *. rewrite map_app. apply NoDup_app_split. repeat split; auto.
        -- cbn. constructor; auto. constructor.
        -- cbn. intros x Hx [<-|[]]. auto.
    + destruct (ctx_put k v c) as [c'' b]. cbn in P. subst b. discriminate.
Qed.

Lemma des_loop_err : forall n c s e, enc_ctx_des_loop n c s = Err e ->
  e = E_SHORT_BUFFER \/ e = E_BAD_CIPHERTEXT.
Proof.
  induction n as [|n IH]; intros c s e H; cbn [enc_ctx_des_loop] in H; [discriminate|].
  destruct (read_be 2 s) as [[kl s1]|] eqn:E1; cbn [bind] in H; [|inv H; apply read_be_err in E1; auto].
  destruct (read_bytes kl s1) as [[k s2]|] eqn:E2; cbn [bind] in H; [|inv H; apply read_bytes_err in E2; tauto].
  destruct (read_be 2 s2) as [[vl s3]|] eqn:E3; cbn [bind] in H; [|inv H; apply read_be_err in E3; auto].
  destruct (read_bytes vl s3) as [[v s4]|] eqn:E4; cbn [bind] in H; [|inv H; apply read_bytes_err in E4; tauto].
  destruct (ctx_put k v c) as [c'' b]. destruct b; [eauto|]. inv H. auto.
Qed.

Lemma good_des_loop : forall n c, good (enc_ctx_des_loop n c).
Proof.
  induction n as [|n IH]; intros c; cbn [enc_ctx_des_loop].
  - apply good_ret.
  - apply good_ext with (p := fun s =>
      do (klen, s) <- read_be 2 s; do (k, s) <- read_bytes klen s;
      do (vlen, s) <- read_be 2 s; do (v, s) <- read_bytes vlen s;
      (if snd (ctx_put k v c) then enc_ctx_des_loop n (fst (ctx_put k v c)) s else Err E_BAD_CIPHERTEXT)).
    { intros s. destruct (read_be 2 s) as [[kl s1]|]; cbn [bind]; auto.
      destruct (read_bytes kl s1) as [[k s2]|]; cbn [bind]; auto.
      destruct (read_be 2 s2) as [[vl s3]|]; cbn [bind]; auto.
      destruct (read_bytes vl s3) as [[v s4]|]; cbn [bind]; auto.
      destruct (ctx_put k v c) as [c'' b]. reflexivity. }
    refine (good_do _ _ _ (fun klen s => _) (good_read_be 2) (fun klen => _)).
    refine (good_do _ _ _ (fun k s => _) (good_read_bytes klen) (fun k => _)).
    refine (good_do _ _ _ (fun vlen s => _) (good_read_be 2) (fun vlen => _)).
    refine (good_do _ _ _ (fun v s => _) (good_read_bytes vlen) (fun v => _)).
    apply good_if; auto. apply good_err.
Qed.

Definition count_fits (c : list (list N * list N)) : Prop := 1 <= Nlen c <= 65535.

Lemma deserialize_complete : forall old c r, count_fits c -> distinct_keys c -> Forall pair_fits c ->
  enc_ctx_deserialize old (wire_ctx c ++ r) = (c, Ok r).
Proof.
  unfold enc_ctx_deserialize, count_fits. intros old c r C D F.
  destruct c as [|e c]; [rewrite Nlen_nil in C; lia|].
  unfold wire_ctx. set (d := e :: c) in *. rewrite <- app_assoc.
  destruct (u16 (Nlen d) ++ concat (map wire_pair d) ++ r) eqn:E; [discriminate|]. rewrite <- E.
  rewrite read_u16 by lia. destruct (N.eqb_spec (Nlen d) 0); [lia|].
  rewrite <- length_Nlen. rewrite des_loop_complete; auto.
Qed.

(** Complete characterisation of successful deserialisation. *)
Lemma deserialize_ok : forall old s c r, bytes_ok s ->
  (enc_ctx_deserialize old s = (c, Ok r) <->
   (s = [] /\ c = [] /\ r = []) \/
   (count_fits c /\ distinct_keys c /\ Forall pair_fits c /\ s = wire_ctx c ++ r)).
Proof.
  intros old s c r O. split.
  - unfold enc_ctx_deserialize, count_fits. destruct s as [|b s']; intros H.
    + inv H. auto.
    + right. set (s := b :: s') in *.
      destruct (read_be 2 s) as [[n s1]|] eqn:E; [|discriminate].
      apply read_u16_inv in E; auto. destruct E as [E [B O1]].
      destruct (N.eqb_spec n 0); [discriminate|].
      destruct (enc_ctx_des_loop (N.to_nat n) [] s1) as [[c' r']|] eqn:L; inv H.
      apply des_loop_sound in L; auto; [|constructor].
      destruct L as [d [-> [LD [-> [F D]]]]]. cbn [app] in *.
      assert (n = Nlen d) by (unfold Nlen; lia). subst n.
      repeat split; auto; try lia.
      rewrite E. unfold wire_ctx. destruct d; [rewrite Nlen_nil in *; lia|]. now rewrite <- app_assoc.
  - intros [[-> [-> ->]]|[C [D [F ->]]]]; [reflexivity|]. now apply deserialize_complete.
Qed.

Lemma deserialize_err : forall old s c e, enc_ctx_deserialize old s = (c, Err e) ->
  c = [] /\ (e = E_SHORT_BUFFER \/ e = E_BAD_CIPHERTEXT).
Proof.
  intros old s c e H. unfold enc_ctx_deserialize in H. destruct s as [|b s']; [discriminate|].
  destruct (read_be 2 (b :: s')) as [[n s1]|] eqn:E.
  - destruct (n =? 0); [inv H; auto|].
    destruct (enc_ctx_des_loop (N.to_nat n) [] s1) as [[c' r']|] eqn:L; inv H.
    apply des_loop_err in L. auto.
  - inv H. apply read_be_err in E. auto.
Qed.

Lemma deserialize_good : forall old old' b s t,
  match enc_ctx_deserialize old (b :: s) with
  | (c, Ok r) => enc_ctx_deserialize old' (b :: s ++ t) = (c, Ok (r ++ t))
  | (c, Err e) => e <> E_SHORT_BUFFER -> enc_ctx_deserialize old' (b :: s ++ t) = (c, Err e)
  end.
Proof.
  intros. unfold enc_ctx_deserialize. rewrite app_comm_cons. set (s0 := b :: s).
  destruct (good_read_be 2) as [_ [G2 G3]].
  destruct (read_be 2 s0) as [[n s1]|] eqn:E.
  - change (b :: s ++ t) with (s0 ++ t). rewrite (G2 _ _ _ t E).
    destruct (s0 ++ t) eqn:E0; [discriminate|]. clear E0.
    destruct (n =? 0); [auto|].
    destruct (good_des_loop (N.to_nat n) []) as [_ [L2 L3]].
    destruct (enc_ctx_des_loop (N.to_nat n) [] s1) as [[c r]|e] eqn:L.
    + rewrite (L2 _ _ _ t L). reflexivity.
    + intros NE. rewrite (L3 _ _ t L NE). reflexivity.
  - intros NE. apply read_be_err in E. contradiction.
Qed.

(** Truncation of an accepted, completely consumed, string is reported as short. *)
Lemma deserialize_truncated : forall old old' b s1 s2 c,
  s2 <> [] -> enc_ctx_deserialize old (b :: s1 ++ s2) = (c, Ok []) ->
  enc_ctx_deserialize old' (b :: s1) = ([], Err E_SHORT_BUFFER).
Proof.
  intros old old' b s1 s2 c NE H.
  pose proof (deserialize_good old' old b s1 s2) as G.
  destruct (enc_ctx_deserialize old' (b :: s1)) as [c' [r|e]] eqn:E.
  - rewrite G in H. inv H. apply app_eq_nil in H2. tauto.
  - destruct (err_eq_dec e E_SHORT_BUFFER) as [->|NS].
    + apply deserialize_err in E. destruct E as [-> _]. reflexivity.
    + rewrite (G NS) in H. discriminate.
Qed.

Lemma ctx_fits_pairs : forall c, ctx_fits c -> Forall pair_fits c /\ Nlen c <= 65535.
Proof.
  unfold ctx_fits. intros c H. rewrite Nlen_wire_ctx in H. pose proof (pairs_len_count c).
  split.
  - rewrite Forall_forall. intros e I. pose proof (pairs_len_in _ _ I).
    destruct c; [destruct I|]. unfold pair_fits, fits16. lia.
  - destruct c; [rewrite Nlen_nil; lia|lia].
Qed.

(** ** Map operations *)

Lemma ctx_find_in : forall c k v, distinct_keys c -> (ctx_find k c = Some v <-> In (k, v) c).
Proof.
  unfold distinct_keys. induction c as [|[k' v'] c IH]; intros k v D; cbn [ctx_find map fst In] in *.
  - split; [discriminate|tauto].
  - inv D. destruct (bytes_eqb k k') eqn:E.
    + apply bytes_eqb_spec in E. subst k'. split.
      * intros H. inv H. auto.
      * intros [H|H]; [now inv H|]. exfalso. apply H1. apply (in_map fst) in H. exact H.
    + apply bytes_eqb_false in E. rewrite IH by auto. split; auto.
      intros [H|H]; auto. inv H. congruence.
Qed.

Lemma ctx_find_none : forall c k, ctx_find k c = None <-> ~ In k (map fst c).
Proof.
  induction c as [|[k' v'] c IH]; intros k; cbn [ctx_find map fst In].
  - split; auto.
  - destruct (bytes_eqb k k') eqn:E.
    + apply bytes_eqb_spec in E. subst. split; [discriminate|tauto].
    + apply bytes_eqb_false in E. rewrite IH. split; intros H; [intros [?|?]; auto; congruence|tauto].
Qed.

Lemma ctx_find_some_key : forall c k v, ctx_find k c = Some v -> In k (map fst c).
Proof.
  intros c k v H. destruct (in_dec bytes_eq_dec k (map fst c)); auto.
  apply ctx_find_none in n. congruence.
Qed.

Lemma ctx_put_find : forall k v c k', ctx_find k' (fst (ctx_put k v c)) =
  if bytes_eqb k' k then Some v else ctx_find k' c.
Proof.
  induction c as [|[k0 v0] c IH]; intros k'; cbn [ctx_put].
  - cbn [fst ctx_find]. reflexivity.
  - destruct (bytes_eqb k k0) eqn:E.
    + apply bytes_eqb_spec in E. subst k0. cbn [fst ctx_find].
      destruct (bytes_eqb k' k); reflexivity.
    + destruct (ctx_put k v c) as [c'' b]. cbn [fst ctx_find] in *. rewrite IH.
      destruct (bytes_eqb k' k0) eqn:E0; auto.
      apply bytes_eqb_spec in E0. subst k0.
      destruct (bytes_eqb k' k) eqn:E1; auto.
      apply bytes_eqb_spec in E1. subst. rewrite bytes_eqb_refl in E. discriminate.
Qed.

Lemma ctx_put_keys : forall k v c,
  map fst (fst (ctx_put k v c)) = if in_dec bytes_eq_dec k (map fst c) then map fst c else map fst c ++ [k].
Proof.
  intros k v c. destruct (in_dec bytes_eq_dec k (map fst c)) as [I|NI].
  - induction c as [|[k0 v0] c IH]; [destruct I|]. cbn [ctx_put].
    destruct (bytes_eqb k k0) eqn:E.
    + apply bytes_eqb_spec in E. subst. reflexivity.
    + apply bytes_eqb_false in E. cbn in I. destruct I as [I|I]; [congruence|].
      specialize (IH I). destruct (ctx_put k v c). cbn in *. now rewrite IH.
  - destruct (ctx_put_created k v c) as [[-> _]|[_ I]]; [|contradiction].
    cbn [fst]. now rewrite map_app.
Qed.

Lemma ctx_put_distinct : forall k v c, distinct_keys c -> distinct_keys (fst (ctx_put k v c)).
Proof.
  unfold distinct_keys. intros. rewrite ctx_put_keys. destruct (in_dec bytes_eq_dec k (map fst c)); auto.
  apply NoDup_app_split. repeat split; auto.
  - constructor; auto. constructor.
  - cbn. intros x Hx [<-|[]]. auto.
Qed.

Lemma same_map_find : forall c d, distinct_keys c -> distinct_keys d ->
  (forall k, ctx_find k c = ctx_find k d) -> same_map c d.
Proof. intros c d Hc Hd E k v. rewrite <- !ctx_find_in by auto. rewrite E. tauto. Qed.

Lemma clone_update_find : forall it dest k, distinct_keys it ->
  ctx_find k (clone_update dest it) = match ctx_find k it with Some v => Some v | None => ctx_find k dest end.
Proof.
  unfold distinct_keys. induction it as [|[k0 v0] it IH]; intros dest k D; cbn [clone_update ctx_find map fst] in *.
  - reflexivity.
  - inv D. rewrite IH by auto.
    set (dest' := match ctx_find k0 dest with
                  | Some v' => if negb (bytes_eqb v' v0) then fst (ctx_put k0 v0 dest) else dest
                  | None => fst (ctx_put k0 v0 dest) end).
    assert (FD : forall k', ctx_find k' dest' = if bytes_eqb k' k0 then Some v0 else ctx_find k' dest).
    { intros k'. unfold dest'. destruct (ctx_find k0 dest) as [v'|] eqn:F.
      - destruct (bytes_eqb v' v0) eqn:EV; cbn [negb].
        + apply bytes_eqb_spec in EV. subst v'. destruct (bytes_eqb k' k0) eqn:EK; auto.
          apply bytes_eqb_spec in EK. now subst.
        + apply ctx_put_find.
      - apply ctx_put_find. }
    destruct (bytes_eqb k k0) eqn:E.
    + apply bytes_eqb_spec in E. subst k0.
      apply ctx_find_none in H1. rewrite H1, FD, bytes_eqb_refl. reflexivity.
    + rewrite FD, E. reflexivity.
Qed.

Lemma clone_update_distinct : forall it dest, distinct_keys dest -> distinct_keys (clone_update dest it).
Proof.
  induction it as [|[k v] it IH]; intros dest D; cbn [clone_update]; auto.
  apply IH. destruct (ctx_find k dest); [destruct (negb _)|]; auto using ctx_put_distinct.
Qed.

Lemma clone_remove_distinct : forall dest src, distinct_keys dest -> distinct_keys (clone_remove dest src).
Proof.
  unfold distinct_keys, clone_remove. induction dest as [|e dest IH]; intros src D; cbn [filter map]; auto.
  inv D. destruct (ctx_find (fst e) src); auto. cbn [map]. constructor; auto.
  intros I. apply H1. apply in_map_iff in I. destruct I as [x [<- I]]. apply filter_In in I.
  apply in_map. tauto.
Qed.

Lemma clone_remove_find : forall dest src k, ctx_find k src = None -> ctx_find k (clone_remove dest src) = None.
Proof.
  unfold clone_remove. induction dest as [|[k' v'] dest IH]; intros src k H; cbn [filter]; auto.
  cbn [fst]. destruct (ctx_find k' src) eqn:E; auto.
  cbn [ctx_find]. destruct (bytes_eqb k k') eqn:EK; auto.
  apply bytes_eqb_spec in EK. congruence.
Qed.

Lemma clone_spec : forall dest src, distinct_keys dest -> distinct_keys src ->
  distinct_keys (enc_ctx_clone dest src) /\ same_map (enc_ctx_clone dest src) src.
Proof.
  intros dest src Hd Hs. unfold enc_ctx_clone.
  assert (D : distinct_keys (clone_update (clone_remove dest src) src))
    by auto using clone_update_distinct, clone_remove_distinct.
  split; auto. apply same_map_find; auto. intros k. rewrite clone_update_find by auto.
  destruct (ctx_find k src) eqn:E; auto. now apply clone_remove_find.
Qed.

(** ** Injectivity *)

Lemma wire_ctx_inj_ok : forall c d r r',
  count_fits c -> count_fits d -> distinct_keys c -> distinct_keys d ->
  Forall pair_fits c -> Forall pair_fits d ->
  wire_ctx c ++ r = wire_ctx d ++ r' -> c = d /\ r = r'.
Proof.
  intros c d r r' C1 C2 D1 D2 F1 F2 E.
  assert (A : enc_ctx_deserialize [] (wire_ctx c ++ r) = (c, Ok r)) by (apply deserialize_complete; auto).
  assert (B : enc_ctx_deserialize [] (wire_ctx d ++ r') = (d, Ok r')) by (apply deserialize_complete; auto).
  rewrite E in A. rewrite A in B. inv B. auto.
Qed.
