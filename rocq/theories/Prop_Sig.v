(** Properties C52, C60 and C61: signing keys and signatures.
    Specification: SigSpec.v.  Example data: SigExamples.v. *)
From Verif Require Import Base AlgModel SigModel WireSpec SessionSpec KeyringSpec SigSpec SigProofs SigExamples.
From Coq Require Import ZArith String.
Import List.
Open Scope list_scope.
Open Scope N_scope.

(** ** C52 *)
(** A stored key is the suite, the lengths, the public and the private key. *)
Theorem C52_stored_form : forall o f x s, sig_get_privkey o f x = Ok s ->
  exists c d pubb privb, alg_curve (ex_alg x) = Some c /\ ex_priv x = Some d /\ ec_i2o o c (ex_pub x) = Some pubb /\
    ec_i2d o d = Some privb /\ Nlen pubb <= 255 /\ Nlen privb <= 255 /\ key_image (ex_alg x) pubb privb s /\ Nlen s <= 130.
Proof. exact get_privkey_inv. Qed.
Print Assumptions C52_stored_form.

(** Every key whose two parts together have at most 126 bytes can be stored (a P-384 key needs at most 100). *)
Theorem C52_can_be_stored : forall o f x c d pubb privb,
  alg_curve (ex_alg x) = Some c -> ex_priv x = Some d -> ec_i2o o c (ex_pub x) = Some pubb -> ec_i2d o d = Some privb ->
  Nlen pubb + Nlen privb <= 126 -> no_faults f -> exists s, sig_get_privkey o f x = Ok s.
Proof. exact get_privkey_fits. Qed.
Print Assumptions C52_can_be_stored.

(** Reloading for the same suite yields the same key pair and public key text. *)
Theorem C52_round_trip : forall o f f' x s, ec_sane o -> ex_sign x = true -> sig_get_privkey o f x = Ok s -> no_faults f' ->
  sig_sign_start o f' (ex_alg x) false s = Ok (Some x, None) /\
  (forall k, sig_get_pubkey o f' x = Ok k -> sig_sign_start o f' (ex_alg x) true s = Ok (Some x, Some k)).
Proof. exact round_trip. Qed.
Print Assumptions C52_round_trip.

(** Whatever fails on the way, a success is the same key pair. *)
Theorem C52_never_another_key : forall o f f' x s w y t, ec_sane o -> ex_sign x = true -> sig_get_privkey o f x = Ok s ->
  sig_sign_start o f' (ex_alg x) w s = Ok (y, t) ->
  y = Some x /\ forall g k, t = Some k -> forall k', sig_get_pubkey o g x = Ok k' -> k' = k.
Proof. exact reload_never_wrong. Qed.
Print Assumptions C52_never_another_key.

(** No other signing suite accepts it, not even one with the same curve. *)
Theorem C52_bound_to_suite : forall o f x s o' f' alg' w, sig_get_privkey o f x = Ok s -> alg' <> ex_alg x -> alg_curve alg' <> None ->
  sig_sign_start o' f' alg' w s = Err E_CRYPTO_UNKNOWN.
Proof. exact bound_to_suite. Qed.
Print Assumptions C52_bound_to_suite.

(** Accepted are exactly the images of keys; both fields decode completely. *)
Theorem C52_accepts_exactly_images : forall o f alg s x, bytes_ok s -> no_faults f -> (forall v, ec_d2i o [] <> Some (v, 0)) ->
  sig_sign_start o f alg false s = Ok (Some x, None) <->
  exists c pubb privb d, suite_curve alg c /\ key_image alg pubb privb s /\ ec_o2i o c pubb = Some (ex_pub x, Nlen pubb) /\
    ec_d2i o privb = Some (d, Nlen privb) /\ signer x alg (ex_pub x) d.
Proof. exact accepts_iff. Qed.
Print Assumptions C52_accepts_exactly_images.

(** Truncated and extended images are rejected, for every suite that signs. *)
Theorem C52_no_truncation_no_extension : forall o f alg w s x t, sig_sign_start o f alg w s = Ok (Some x, t) ->
  forall o' f' alg' w', alg_curve alg' <> None ->
  (forall e, e <> [] -> exists er, sig_sign_start o' f' alg' w' (s ++ e) = Err er) /\
  (forall s1 s2, s = s1 ++ s2 -> s2 <> [] -> exists er, sig_sign_start o' f' alg' w' s1 = Err er).
Proof. exact extension_rejected. Qed.
Print Assumptions C52_no_truncation_no_extension.

(** That the private key belongs to the public key is not checked. *)
Theorem C52_checks_the_pair_refuted : exists o (pub_of : Z -> N) x y s s',
  ec_sane o /\ signer x 0x0214 (pub_of 19%Z) 19 /\ signer y 0x0214 (pub_of 20%Z) 20 /\ pub_of 19%Z <> pub_of 20%Z /\
  sig_get_privkey o all_ok x = Ok s /\ sig_get_privkey o all_ok y = Ok s' /\
  exists z, sig_sign_start o all_ok 0x0214 false (firstn 6 s ++ skipn 6 s') = Ok (Some z, None) /\ signer z 0x0214 (pub_of 19%Z) 20.
Proof.
  exists toy_ec, (fun d => Z.to_N (d + 58)), toy_signer, (mk_ec_ctx 0x0214 78 (Some 20%Z) true), toy_stored, [0x02; 0x14; 2; 3; 2; 78; 2; 1; 20].
  split; [apply toy_ec_sane|]. split; [repeat split|]. split; [repeat split|]. split; [discriminate|].
  split; [reflexivity|]. split; [reflexivity|]. exists (mk_ec_ctx 0x0214 77 (Some 20%Z) true). split; [reflexivity|repeat split].
Qed.
Print Assumptions C52_checks_the_pair_refuted.

Example C52_example : ec_sane toy_ec /\ no_faults all_ok /\ alg_curve 0x0214 = Some "prime256v1"%string /\ bytes_ok toy_stored /\
  sig_get_privkey toy_ec all_ok toy_signer = Ok toy_stored /\ sig_sign_start toy_ec all_ok 0x0214 false toy_stored = Ok (Some toy_signer, None) /\
  (forall v, ec_d2i toy_ec [] <> Some (v, 0)).
Proof.
  split; [apply toy_ec_sane|]. split; [exact all_ok_no_faults|]. split; [reflexivity|].
  split; [repeat constructor|]. split; [reflexivity|]. split; [reflexivity|discriminate].
Qed.

(** ** C60 *)
(** A signature has exactly the length of the suite and is valid. *)
Theorem C60_exact_length_and_valid : forall o f alg c ready valid tries b, suite_curve alg c -> ecdsa_sane o c valid tries ->
  sig_sign_finish o f alg ready tries = SignOk b -> Nlen b = suite_sig_len alg /\ valid b.
Proof. exact sign_finish_ok. Qed.
Print Assumptions C60_exact_length_and_valid.

(** Nothing is written beyond the buffer if its capacity is that of the largest signature. *)
Theorem C60_no_overflow : forall o f alg c cap tries, suite_curve alg c ->
  (forall t b r s b', In t tries -> st_sig t = Some b -> ec_sig_d2i o b = Some (r, s) ->
     ec_sig_i2d o (r, (ec_order o c - s)%Z) = Some b' -> Nlen b' <= cap) ->
  sig_sign_finish o f alg (Ok cap) tries <> SignOverflow.
Proof. exact sign_finish_overflow. Qed.
Print Assumptions C60_no_overflow.

(** Signing is repeated only as long as neither (r, s) nor (r, n - s) has the length. *)
Theorem C60_repeats_only_on_a_miss : forall o f alg c ready tries, suite_curve alg c ->
  sig_sign_finish o f alg ready tries = SignMore -> forall t, In t tries -> misses o c (suite_sig_len alg) t.
Proof. exact sign_finish_more. Qed.
Print Assumptions C60_repeats_only_on_a_miss.

(** No number of repetitions is enough for every signer: the loop has no bound. *)
Theorem C60_terminates_refuted : exists o f alg c valid t, suite_curve alg c /\
  (forall n, ecdsa_sane o c valid (repeat t n) /\ sig_sign_finish o f alg (Ok 72) (repeat t n) = SignMore).
Proof.
  exists (toy_ec_of 100), all_ok, 0x0214, "prime256v1"%string, (fun b => hd 0 b = 5), (toy_try (5 :: 3 :: zeros 70)).
  split; [left; split; reflexivity|]. intros n. split.
  - split.
    + intros t b Hi Hs. apply repeat_spec in Hi. subst t. injection Hs as <-. reflexivity.
    + intros b r s b' V D I. destruct b as [|x [|y b]]; try discriminate. injection D as <- <-. injection I as <-. cbn [hd fst] in *. rewrite N2Z.id. exact V.
  - unfold sig_sign_finish. change (alg_curve 0x0214) with (Some "prime256v1"%string).
    change (alg_lookup 0x0214) with (Some (static_alg_props 0x0214 HEADER_VERSION_1_0 "sha256" 128 12 16 71 0 0)). cbv iota beta.
    change (ap_sig_len (static_alg_props 0x0214 HEADER_VERSION_1_0 "sha256" 128 12 16 71 0 0)) with 71.
    rewrite never_lucky by (rewrite ?Nlen_nil; lia || discriminate). reflexivity.
Qed.
Print Assumptions C60_terminates_refuted.

(** The first signature has 72 bytes; negating s gives 71. *)
Example C60_example : let tries := [toy_try (5 :: 3 :: zeros 70)] in
  suite_curve 0x0214 "prime256v1" /\ ecdsa_sane toy_ec "prime256v1" (fun b => hd 0 b = 5) tries /\
  sig_sign_finish toy_ec all_ok 0x0214 (Ok 72) tries = SignOk (5 :: 98 :: zeros 69).
Proof.
  split; [left; split; reflexivity|]. split; [|reflexivity]. split.
  - intros t b [<-|[]] H. injection H as <-. reflexivity.
  - intros b r s b' V D I. destruct b as [|x [|y b]]; try discriminate. injection D as <- <-. injection I as <-. cbn [hd fst] in *. rewrite N2Z.id. exact V.
Qed.

(** ** C61 *)
(** The public key text of a generated key, loaded for the same suite, gives that public key. *)
Theorem C61_public_key_round_trip : forall o f f' alg gen x t c pubb, ec_sane o -> sig_sign_start_keygen o f alg true gen = Ok (Some x, Some t) ->
  suite_curve alg c -> ec_i2o o c (ex_pub x) = Some pubb -> Nlen pubb <= 64 -> no_faults f' ->
  sig_verify_start o f' alg t = Ok (Some (mk_ec_ctx alg (ex_pub x) None false)).
Proof. exact keygen_then_verify. Qed.
Print Assumptions C61_public_key_round_trip.

(** So does the text of a cached context. *)
Theorem C61_cached_text_round_trip : forall o f f' x t c pubb, ec_sane o -> sig_get_pubkey o f x = Ok t -> alg_curve (ex_alg x) = Some c ->
  ec_i2o o c (ex_pub x) = Some pubb -> Nlen pubb <= 64 -> no_faults f' ->
  sig_verify_start o f' (ex_alg x) t = Ok (Some (mk_ec_ctx (ex_alg x) (ex_pub x) None false)).
Proof. exact pubkey_text_back. Qed.
Print Assumptions C61_cached_text_round_trip.

(** Verification starts without a context only for a suite that does not sign; otherwise with the decoded key. *)
Theorem C61_verifies_with_the_given_key : forall o f alg t r, sig_verify_start o f alg t = Ok r ->
  (r = None /\ alg_curve alg = None) \/
  exists c b pub n, alg_curve alg = Some c /\ ec_unb64 o t = Some b /\ Nlen b <= 64 /\ ec_o2i o c b = Some (pub, n) /\
    r = Some (mk_ec_ctx alg pub None false).
Proof. exact verify_start_inv. Qed.
Print Assumptions C61_verifies_with_the_given_key.

(** A generated key is the one of the generator, and its text is given when asked for. *)
Theorem C61_generated_key : forall o f alg w gen x t, sig_sign_start_keygen o f alg w gen = Ok (x, t) ->
  (alg_curve alg = None /\ x = None /\ t = None) \/
  exists c pub d, alg_curve alg = Some c /\ gen = Some (pub, d) /\ x = Some (mk_ec_ctx alg pub (Some d) true) /\
    (w = false -> t = None) /\ (w = true -> exists k, t = Some k /\ serialize_pubkey o f c pub = Ok k).
Proof. exact keygen_inv. Qed.
Print Assumptions C61_generated_key.

(** Exactly the signing suites have a curve. *)
Theorem C61_curve_of_suite : forall alg c, alg_curve alg = Some c <-> suite_curve alg c.
Proof. exact alg_curve_spec. Qed.
Print Assumptions C61_curve_of_suite.

Example C61_example : exists x t, sig_sign_start_keygen toy_ec all_ok 0x0214 true (Some (77, 19%Z)) = Ok (Some x, Some t) /\
  suite_curve 0x0214 "prime256v1" /\ ec_i2o toy_ec "prime256v1" (ex_pub x) = Some [2; 77] /\ t = [3; 78] /\
  sig_verify_start toy_ec all_ok 0x0214 t = Ok (Some (mk_ec_ctx 0x0214 77 None false)).
Proof. exists toy_signer, [3; 78]. split; [reflexivity|]. split; [left; split; reflexivity|]. repeat split. Qed.
