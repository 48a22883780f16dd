(** C83: local copies of keys are wiped before the function returns.
    Model: LocalModel.v.  Specification: LocalSpec.v. *)
From Verif Require Import Base AlgModel CryptoModel SessionModel SessionExamples HkdfModel HkdfSpec HkdfExamples SigModel SigExamples
  LocalModel LocalSpec LocalProofs.
From Coq Require Import ZArith String.
Import List.
Open Scope list_scope.
Open Scope N_scope.

(** The library's own HKDF returns what [own_hkdf] returns, and when it returns, in whatever way, its arrays prk and t (if it got as far as
    declaring t) are 64 zero bytes.  [prk], [t]: uninitialised memory; [junk]: anything a failing call writes. *)
Theorem C83_hkdf_wipes : forall m junk sha salt ikm info okm prk t, hmac_sane (mac_fn m) -> (forall c a, length (junk c a) = length a) ->
  length prk = 64%nat -> length t = 64%nat ->
  fst (hkdf_mem m junk sha salt ikm info okm prk t) = own_hkdf m sha salt ikm info okm /\
  forall rc okm', fst (hkdf_mem m junk sha salt ikm info okm prk t) = HRet rc okm' ->
    snd (hkdf_mem m junk sha salt ikm info okm prk t) = [wiped "prk" 64] \/
    snd (hkdf_mem m junk sha salt ikm info okm prk t) = [wiped "t" 64; wiped "prk" 64].
Proof. exact hkdf_both. Qed.
Print Assumptions C83_hkdf_wipes.

(** The step of an encrypting session that receives the data key wipes its local copy of the key on every path. *)
Theorem C83_encrypt_wipes : forall cr e s input d, length d = 32%nat ->
  fst (gen_key_mem cr e s input d) = try_gen_key cr e s input /\
  (sr_rc (try_gen_key cr e s input) <> RAssert -> sr_rc (try_gen_key cr e s input) <> RAbort ->
   snd (gen_key_mem cr e s input d) = [wiped "data_key" 32]).
Proof. exact gen_both. Qed.
Print Assumptions C83_encrypt_wipes.

(** Writing out the private key of a signature context wipes the assembled bytes and OpenSSL's encoding on every path. *)
Theorem C83_private_key_wipes : forall o f x,
  fst (get_privkey_mem o f x) = sig_get_privkey o f x /\
  nothing_left (snd (get_privkey_mem o f x)) /\ In (wiped "tmparr" 130) (snd (get_privkey_mem o f x)) /\
  (forall s, sig_get_privkey o f x = Ok s -> exists d b, ex_priv x = Some d /\ ec_i2d o d = Some b /\
     In (wiped "privkey_buf" (length b)) (snd (get_privkey_mem o f x))).
Proof. exact privkey_both. Qed.
Print Assumptions C83_private_key_wipes.

(** Reading it back releases both temporary numbers that held it with clearing. *)
Theorem C83_private_key_read_wipes : forall o f alg w s,
  fst (sign_start_mem o f alg w s) = sig_sign_start o f alg w s /\ no_number_left (snd (sign_start_mem o f alg w s)) /\
  (forall x t, sig_sign_start o f alg w s = Ok (Some x, t) ->
     snd (sign_start_mem o f alg w s) = [("priv_key_asn1"%string, None); ("priv_key_bn"%string, None)]).
Proof. exact sign_both. Qed.
Print Assumptions C83_private_key_read_wipes.

(** Decrypting sessions do not: every successful key derivation leaves the whole data key in the local array. *)
Theorem C83_decrypt_leaves_the_key : forall cr e s p m s',
  fst (derive_data_key_mem cr e s p m) = derive_data_key cr e s p m /\
  (derive_data_key cr e s p m = (s', RGo) -> ap_data_key_len p <= 32 ->
   snd (derive_data_key_mem cr e s p m) = [("data_key"%string, dm_key m ++ repeat 0 (32 - length (dm_key m)))]).
Proof. intros cr e s p m s'. split; [exact (derive_both cr e s p m)|exact (derive_leaves cr e s p m s')]. Qed.
Print Assumptions C83_decrypt_leaves_the_key.

(** A suite without key derivation, a header with a message id of 16 bytes, materials with a key of 32 bytes. *)
Definition toy_reader : session :=
  set_hdr (set_hdr_mid (repeat 7 16) (s_hdr (new_session M_DECRYPT))) (set_policy CP_REQUIRE_ALLOW (new_session M_DECRYPT)).
Definition toy_secret : list N := map N.of_nat (seq 100 32).
Definition toy_dec_mat : dec_mat := mk_dec_mat toy_secret [] None 0x0078.

Theorem C83_decrypt_wipes_refuted : exists cr e s p m s', alg_lookup 0x0078 = Some p /\
  derive_data_key cr e s p m = (s', RGo) /\ fst (derive_data_key_mem cr e s p m) = derive_data_key cr e s p m /\
  dm_key m <> repeat 0 32 /\ snd (derive_data_key_mem cr e s p m) = [("data_key"%string, dm_key m)] /\
  ~ nothing_left (snd (derive_data_key_mem cr e s p m)).
Proof.
  destruct (alg_lookup 0x0078) as [p|] eqn:P; [|vm_compute in P; discriminate P].
  exists toy_cr, (toy_env 0x0078), toy_reader, p, toy_dec_mat, (fst (derive_data_key toy_cr (toy_env 0x0078) toy_reader p toy_dec_mat)).
  injection P as <-. split; [reflexivity|]. split; [vm_compute; reflexivity|]. split; [apply derive_both|].
  split; [vm_compute; discriminate|]. split; [vm_compute; reflexivity|].
  intros H. assert (X : 100 = 0) by (apply (H "data_key"%string toy_secret); vm_compute; left; reflexivity). discriminate X.
Qed.
Print Assumptions C83_decrypt_wipes_refuted.

(** The hypotheses can be met, and there was something to wipe. *)
Definition toy_junk (c : nat) (a : list N) : list N := map (fun _ => 170) a.
Example C83_example_hkdf : (forall c a, length (toy_junk c a) = length a) /\
  snd (hkdf_mem test_mac toy_junk SHA256 (map N.of_nat (seq 0 13)) (repeat 11 22) (map N.of_nat (seq 240 10)) (repeat 77 42) (repeat 1 64) (repeat 2 64)) =
    [wiped "t" 64; wiped "prk" 64] /\
  (exists okm, fst (hkdf_mem test_mac toy_junk SHA256 (map N.of_nat (seq 0 13)) (repeat 11 22) (map N.of_nat (seq 240 10)) (repeat 77 42) (repeat 1 64) (repeat 2 64)) = HRet (Ok tt) okm) /\
  hkdf_mem faulty_mac toy_junk SHA512 [1] [2] [3] (repeat 77 100) (repeat 1 64) (repeat 2 64) =
    (HRet (Err E_CRYPTO_UNKNOWN) (repeat 0 100), [wiped "t" 64; wiped "prk" 64]) /\
  firstn 4 (snd (extract_mem test_mac toy_junk SHA256 (map N.of_nat (seq 0 13)) (repeat 11 22) (repeat 1 64))) = [7; 119; 9; 54].
Proof.
  split; [intros c a; apply map_length|]. split; [vm_compute; reflexivity|]. split; [eexists; vm_compute; reflexivity|].
  split; vm_compute; reflexivity.
Qed.

Definition toy_writer : session := set_state ST_GEN_KEY (set_policy CP_FORBID_ALLOW (new_session M_ENCRYPT)).
Example C83_example_encrypt : sr_rc (try_gen_key toy_cr (toy_env 0x0378) toy_writer []) = RGo /\
  snd (gen_key_mem toy_cr (toy_env 0x0378) toy_writer [] (repeat 9 32)) = [wiped "data_key" 32] /\
  toy_key 0x0378 <> repeat 0 32.
Proof. split; [vm_compute; reflexivity|]. split; [vm_compute; reflexivity|vm_compute; discriminate]. Qed.

Example C83_example_private_key : get_privkey_mem toy_ec all_ok toy_signer =
    (Ok toy_stored, [wiped "tmparr" 130; wiped "privkey_buf" 3; wiped "pubkey_buf" 2]) /\
  exists x, sign_start_mem toy_ec all_ok 0x0214 false toy_stored =
    (Ok (Some x, None), [("priv_key_asn1"%string, None); ("priv_key_bn"%string, None)]).
Proof. split; [vm_compute; reflexivity|eexists; vm_compute; reflexivity]. Qed.
