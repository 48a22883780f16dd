(** A concrete OpenSSL, used only to show that the hypotheses of the theorems on signatures can be met and as witness of
    refutations. *)
From Verif Require Import Base BaseProofs AlgModel SigModel WireSpec SessionSpec KeyringSpec SigSpec SigProofs.
From Coq Require Import ZArith String ZifyBool ZifyNat ZifyN.
Import List.
Open Scope list_scope.
Open Scope N_scope.

Definition toy_i2o (c : string) (p : N) : option (list N) := if p <? 256 then Some [2; p] else None.
Definition toy_o2i (c : string) (b : list N) : option (N * N) :=
  match b with 2 :: p :: _ => if p <? 256 then Some (p, 2) else None | _ => None end.
Definition toy_i2d (d : Z) : option (list N) := if ((0 <=? d) && (d <? 128))%Z then Some [2; 1; Z.to_N d] else None.
Definition toy_d2i (b : list N) : option (Z * N) := match b with 2 :: 1 :: v :: _ => Some (Z.of_N v, 3) | _ => None end.
(** The parity of s decides between a signature of 71 and one of 72 bytes. *)
Definition toy_sig_i2d (rs : Z * Z) : option (list N) :=
  Some (Z.to_N (fst rs) :: Z.to_N (snd rs) :: zeros (69 + Z.to_N (snd rs) mod 2)).
Definition toy_sig_d2i (b : list N) : option (Z * Z) := match b with r :: s :: _ => Some (Z.of_N r, Z.of_N s) | _ => None end.
Definition toy_ec_of (order : Z) : ec := mk_ec toy_i2o toy_o2i toy_i2d toy_d2i
  (fun b => map (fun x => x + 1) b ++ [0]) (fun t => Some (map (fun x => x - 1) t)) (fun _ => order) toy_sig_d2i toy_sig_i2d.
Definition toy_ec : ec := toy_ec_of 101.
Definition all_ok : sig_faults := mk_sig_faults true true true true true true true true true true.
Definition toy_signer : ec_ctx := mk_ec_ctx 0x0214 77 (Some 19%Z) true.
Definition toy_stored : list N := [0x02; 0x14; 2; 3; 2; 77; 2; 1; 19].
Definition toy_try (b : list N) : sign_try := mk_sign_try (Some b) true true.

Lemma all_ok_no_faults : no_faults all_ok.
Proof. repeat split. Qed.

Lemma toy_ec_sane : forall n, ec_sane (toy_ec_of n).
Proof.
  intros n. constructor; cbn.
  - intros c p b H. unfold toy_i2o in H. destruct (p <? 256) eqn:E; [|discriminate]. injection H as <-. unfold toy_o2i. rewrite E. reflexivity.
  - intros d b H. unfold toy_i2d in H. destruct ((0 <=? d) && (d <? 128))%Z eqn:E; [|discriminate]. injection H as <-.
    split; [discriminate|]. unfold toy_d2i. rewrite Z2N.id by lia. reflexivity.
  - intros b. exists (map (fun x => x + 1) b). split; [right; reflexivity|]. split.
    + intros H. apply in_map_iff in H. destruct H as (x & E & _). lia.
    + rewrite map_map. f_equal. rewrite <- (map_id b) at 2. apply map_ext. intros a. lia.
Qed.

Lemma never_lucky : forall cap n cur, 72 <= cap -> Nlen cur <> 71 ->
  sign_loop (toy_ec_of 100) "prime256v1" 71 cap cur (repeat (toy_try (5 :: 3 :: zeros 70)) n) = SignMore.
Proof.
  intros cap n. induction n as [|n IH]; intros cur Hc Hl; cbn [repeat sign_loop];
    (replace (Nlen cur =? 71) with false by (symmetry; apply N.eqb_neq; exact Hl)); [reflexivity|].
  unfold toy_try at 1 2 3 4. cbn [st_sig st_dup st_sub negb].
  replace (Nlen (5 :: 3 :: zeros 70) =? 71) with false by reflexivity.
  change (ec_sig_d2i (toy_ec_of 100) (5 :: 3 :: zeros 70)) with (Some (5%Z, 3%Z)). cbv iota beta.
  change (ec_sig_i2d (toy_ec_of 100) (5%Z, (ec_order (toy_ec_of 100) "prime256v1" - 3)%Z)) with (Some (5 :: 97 :: zeros 70)). cbv iota beta.
  change (Nlen (5 :: 97 :: zeros 70)) with 72. replace (cap <? 72) with false by (symmetry; apply N.ltb_ge; exact Hc).
  apply IH; [exact Hc|]. change (Nlen (5 :: 97 :: zeros 70)) with 72. lia.
Qed.
