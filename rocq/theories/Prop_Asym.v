(** C81: what cipher.c does with OpenSSL's RSA and hkdf.c with OpenSSL's HKDF, call by call.  Specification: AsymSpec.v (with HkdfSpec.v). *)
From Verif Require Import Base AlgModel CryptoModel KeyringModel HkdfModel HkdfSpec HkdfExamples SessionExamples CipherModel CipherSpec AsymModel AsymSpec AsymProofs AsymTop AsymExamples AsymLong.
From Coq Require Import ZArith.
Import List ListNotations.
Open Scope list_scope.
Open Scope N_scope.

(** aws_cryptosdk_rsa_encrypt, whichever calls fail and whatever padding mode, text and buffer it is given.  It frees every object that
    it makes and no other, and memory that it gives back holds zeros only.  If it succeeds the buffer was unset and now is the text
    wrapped under the key in the PEM string, with the padding that the mode stands for.  If it fails the buffer is as it was, and the
    error says why.  If no call fails everything that can be wrapped is wrapped.  Partial: PEM strings of less than 2^31 bytes. *)
Theorem C81_rsa_wrap_partial : forall a fault, asym_wf a -> forall cipher plain pem mode seed s, Nlen pem < 2 ^ 31 ->
  ends_clean (AsymModel.rsa_encrypt a fault cipher plain pem mode seed) s (fun r s' =>
    match fst r with
    | Ok _ => cipher = None /\ p_errs s' = [] /\ exists c, rsa_wraps a pem mode seed plain c /\ snd r = Some (c, Nlen c)
    | Err e => (e = E_BAD_STATE /\ cipher <> None /\ snd r = cipher) \/
               (cipher = None /\ snd r = None /\
                ((e = E_UNSUPPORTED_FORMAT /\ ~ exists p, rsa_scheme mode p) \/
                 (e = E_CRYPTO_UNKNOWN /\ p_errs s' = [] /\ (faulty fault \/ ~ exists c, rsa_wraps a pem mode seed plain c))))
    end /\
    (~ faulty fault -> cipher = None -> (exists c, rsa_wraps a pem mode seed plain c) -> fst r = Ok tt)).
Proof. exact rsa_encrypt_ok. Qed.
Print Assumptions C81_rsa_wrap_partial.
Example C81_rsa_wrap_example : asym_wf toy_asym /\
  returned (AsymModel.rsa_encrypt toy_asym works None [5; 6; 7] [1; 50] 2 [] busy) = Some (Ok tt, Some ([9; 3; 5; 6; 7; 0; 0; 0], 8)) /\
  returned (AsymModel.rsa_encrypt toy_asym works None [5; 6; 7] [1; 50] 1 [] busy) = Some (Ok tt, Some ([8; 3; 5; 6; 7; 0; 0; 0], 8)) /\
  returned (AsymModel.rsa_encrypt toy_asym works None [5; 6; 7] [1; 50] 0 [] busy) = Some (Ok tt, Some ([7; 3; 5; 6; 7; 0; 0; 0], 8)) /\
  returned (AsymModel.rsa_encrypt toy_asym works None [5; 6; 7] [1; 50] 3 [] busy) = Some (Err E_UNSUPPORTED_FORMAT, None) /\
  returned (AsymModel.rsa_encrypt toy_asym works (Some ([], 0)) [5; 6; 7] [1; 50] 2 [] busy) = Some (Err E_BAD_STATE, Some ([], 0)) /\
  returned (AsymModel.rsa_encrypt toy_asym works None [1; 2; 3; 4; 5; 6; 7] [1; 50] 2 [] busy) = Some (Err E_CRYPTO_UNKNOWN, None).
Proof. split; [exact toy_asym_wf|]. repeat (apply conj); vm_compute; reflexivity. Qed.
(** Each of the first ten calls fails: error, no objects left but the one of before, and no memory allocated yet; the
    eleventh: the memory is zeroed before it is given back. *)
Example C81_rsa_wrap_failures : forall n, In n (seq 0 10) ->
  match AsymModel.rsa_encrypt toy_asym (breaks n) None [5; 6; 7] [1; 50] 2 [] (mk_pst 0 [99] [(4%nat, OBio [1; 2])] 5 []) with
  | inr ((rc, b), s) => rc = Err E_CRYPTO_UNKNOWN /\ b = None /\ p_objs s = [(4%nat, OBio [1; 2])] /\ p_errs s = [] /\ p_freed s = []
  | inl _ => False
  end.
Proof. intros n H. cbn [In seq] in H. repeat (destruct H as [<-|H]; [vm_compute; repeat constructor|]). contradiction. Qed.
Example C81_rsa_wrap_last_failure : exists s, AsymModel.rsa_encrypt toy_asym (breaks 10) None [5; 6; 7] [1; 50] 2 [] nothing = inr ((Err E_CRYPTO_UNKNOWN, None), s) /\
  p_objs s = [] /\ p_freed s = [zeros 8].
Proof. eexists. split; [vm_compute; reflexivity|split; reflexivity]. Qed.

(** aws_cryptosdk_rsa_decrypt likewise.  A wrapped text that is refused by RSA gives "bad ciphertext", everything before that an unknown
    error of the cryptographic library; the memory that a plaintext might have been written to is zeroed before it is given back. *)
Theorem C81_rsa_unwrap_partial : forall a fault, asym_wf a -> forall plain cipher pem mode s, Nlen pem < 2 ^ 31 ->
  ends_clean (AsymModel.rsa_decrypt a fault plain cipher pem mode) s (fun r s' =>
    match fst r with
    | Ok _ => plain = None /\ p_errs s' = [] /\ exists t, rsa_unwraps a pem mode cipher t /\ holds (snd r) t
    | Err e => (e = E_BAD_STATE /\ plain <> None /\ snd r = plain) \/
               (plain = None /\ snd r = None /\
                ((e = E_UNSUPPORTED_FORMAT /\ ~ exists p, rsa_scheme mode p) \/
                 (e = E_CRYPTO_UNKNOWN /\ p_errs s' = [] /\ (faulty fault \/ ~ private_key a pem)) \/
                 (e = E_BAD_CIPHERTEXT /\ p_errs s' = [] /\ private_key a pem /\ (faulty fault \/ ~ exists t, rsa_unwraps a pem mode cipher t))))
    end /\
    (~ faulty fault -> plain = None -> (exists t, rsa_unwraps a pem mode cipher t) -> fst r = Ok tt)).
Proof. exact rsa_decrypt_ok. Qed.
Print Assumptions C81_rsa_unwrap_partial.
Example C81_rsa_unwrap_example :
  (exists s, AsymModel.rsa_decrypt toy_asym works None [9; 3; 5; 6; 7; 0; 0; 0] [2; 50] 2 nothing = inr ((Ok tt, Some ([5; 6; 7; 0; 0; 0; 0; 0], 3)), s) /\ p_freed s = []) /\
  (exists s, AsymModel.rsa_decrypt toy_asym works None [8; 3; 5; 6; 7; 0; 0; 0] [2; 50] 2 nothing = inr ((Err E_BAD_CIPHERTEXT, None), s) /\ p_freed s = [zeros 8]) /\
  returned (AsymModel.rsa_decrypt toy_asym works None [9; 3; 5; 6; 7; 0; 0; 0] [3; 50] 2 nothing) = Some (Err E_CRYPTO_UNKNOWN, None) /\
  returned (AsymModel.rsa_decrypt toy_asym works None [9; 3; 5; 6; 7; 0; 0; 0] [4; 50] 2 nothing) = Some (Err E_CRYPTO_UNKNOWN, None) /\
  returned (AsymModel.rsa_decrypt toy_asym (breaks 10) None [9; 3; 5; 6; 7; 0; 0; 0] [2; 50] 2 nothing) = Some (Err E_BAD_CIPHERTEXT, None) /\
  returned (AsymModel.rsa_decrypt toy_asym (breaks 9) None [9; 3; 5; 6; 7; 0; 0; 0] [2; 50] 2 nothing) = Some (Err E_CRYPTO_UNKNOWN, None).
Proof. split; [eexists; split; vm_compute; reflexivity|]. split; [eexists; split; vm_compute; reflexivity|]. repeat (apply conj); vm_compute; reflexivity. Qed.

(** What was wrapped is unwrapped with the private key of the pair, whatever failed or not while wrapping. *)
Theorem C81_rsa_round_trip : forall a f1 f2 pub priv mode seed t s1 s2 s1' b, asym_wf a -> Nlen pub < 2 ^ 31 -> Nlen priv < 2 ^ 31 -> ~ faulty f2 ->
  (forall k p c, a_pub a pub = Some k -> a_rsa a k = true -> a_enc a k p seed t = Some c -> exists k', a_priv a priv = Some k' /\ a_rsa a k' = true /\ a_dec a k' p c = Some t) ->
  AsymModel.rsa_encrypt a f1 None t pub mode seed s1 = inr (Ok tt, b, s1') ->
  exists c s2' b', b = Some (c, Nlen c) /\ AsymModel.rsa_decrypt a f2 None c priv mode s2 = inr (Ok tt, b', s2') /\ holds b' t.
Proof. exact rsa_round_trip. Qed.
Print Assumptions C81_rsa_round_trip.
Example C81_rsa_round_trip_example : ~ faulty works /\
  (forall k p c, a_pub toy_asym [1; 50] = Some k -> a_rsa toy_asym k = true -> a_enc toy_asym k p [] [5; 6; 7] = Some c ->
     exists k', a_priv toy_asym [2; 50] = Some k' /\ a_rsa toy_asym k' = true /\ a_dec toy_asym k' p c = Some [5; 6; 7]).
Proof.
  split; [intros [n H]; apply H; reflexivity|]. intros k p c K _ E. exists [50]. split; [reflexivity|]. split; [reflexivity|]. exact (toy_pair _ _ _ _ _ E).
Qed.

(** The length of a PEM string is cut to an int: two different strings of 2^32+1 bytes are the same key to both functions. *)
Theorem C81_long_pem_refuted : exists p0 p1 : list N, p0 <> p1 /\ Nlen p0 = 2 ^ 32 + 1 /\ Nlen p1 = 2 ^ 32 + 1 /\
  forall a fault buf t mode seed s, AsymModel.rsa_encrypt a fault buf t p0 mode seed s = AsymModel.rsa_encrypt a fault buf t p1 mode seed s /\
                                    AsymModel.rsa_decrypt a fault buf t p0 mode s = AsymModel.rsa_decrypt a fault buf t p1 mode s.
Proof. exact (long_pems 45). Qed.
Print Assumptions C81_long_pem_refuted.

(** aws_cryptosdk_hkdf with OpenSSL 1.1 and later.  It frees its context, writes nothing beyond the bytes asked for, and leaves in them
    the derived key, where zeros of the length of the hash stand in for a missing salt.  If it fails there is no key material in the
    buffer: it holds zeros, or, if there was no memory for the context, what it held before.  Partial: salt, key and info of less than
    2^31 bytes. *)
Theorem C81_derive_partial : forall a fault, asym_wf a -> forall okm sha salt ikm info s,
  Nlen salt < 2 ^ 31 -> Nlen ikm < 2 ^ 31 -> Nlen info < 2 ^ 31 -> b_len okm <= b_cap okm ->
  ends_clean (openssl_hkdf a fault okm sha salt ikm info) s (fun r _ =>
    match fst r with
    | Ok _ => derivable sha ikm info (b_len okm) /\
        snd r = mk_buf (a_hkdf a sha (match salt with [] => repeat 0 (digest_len sha) | _ => salt end) ikm info (b_len okm) ++ skipn (N.to_nat (b_len okm)) (b_mem okm)) (b_len okm)
    | Err e => (e = E_UNSUPPORTED_FORMAT /\ sha = NOSHA /\ snd r = okm) \/
               (e = E_CRYPTO_UNKNOWN /\ sha <> NOSHA /\ (faulty fault \/ ~ derivable sha ikm info (b_len okm)) /\ (cleared okm (snd r) \/ faulty fault /\ snd r = okm))
    end /\
    (~ faulty fault -> derivable sha ikm info (b_len okm) -> fst r = Ok tt)).
Proof. exact hkdf_ok. Qed.
Print Assumptions C81_derive_partial.

(** The derived key is that of RFC 5869, salt or no salt, if OpenSSL's HKDF is for the salts that it gets. *)
Theorem C81_derive_is_rfc5869 : forall a hmac fault okm sha salt ikm info s b s', asym_wf a -> hkdf_is_rfc a hmac ->
  Nlen salt < 2 ^ 31 -> Nlen ikm < 2 ^ 31 -> Nlen info < 2 ^ 31 -> b_len okm <= b_cap okm ->
  openssl_hkdf a fault okm sha salt ikm info s = inr (Ok tt, b, s') ->
  rfc_hkdf (hmac sha) (digest_len sha) salt ikm info (N.to_nat (b_len okm)) (firstn (N.to_nat (b_len okm)) (b_mem b)) /\
  skipn (N.to_nat (b_len okm)) (b_mem b) = skipn (N.to_nat (b_len okm)) (b_mem okm) /\ b_len b = b_len okm.
Proof. exact derive_rfc. Qed.
Print Assumptions C81_derive_is_rfc5869.

(** The two implementations of aws_cryptosdk_hkdf, the library's own for old versions of OpenSSL (C68) and this one, derive the same
    keys. *)
Theorem C81_versions_agree : forall a m fault sha salt ikm info okm0 okm1 s b s', asym_wf a -> hkdf_is_rfc a (mac_fn m) -> hmac_sane (mac_fn m) -> sha <> NOSHA ->
  Nlen salt < 2 ^ 31 -> Nlen ikm < 2 ^ 31 -> Nlen info < 2 ^ 31 -> Nlen okm0 + 64 <= two64 ->
  own_hkdf m sha salt ikm info okm0 = HRet (Ok tt) okm1 ->
  openssl_hkdf a fault (mk_buf okm0 (Nlen okm0)) sha salt ikm info s = inr (Ok tt, b, s') -> b_mem b = okm1.
Proof. exact versions_agree. Qed.
Print Assumptions C81_versions_agree.
(** Test vectors A.1 and A.3 (no salt) of RFC 5869, with HMAC-SHA-256. *)
Example C81_hkdf_example : asym_wf toy_asym /\ hkdf_is_rfc toy_asym (mac_fn test_mac) /\ hmac_sane (mac_fn test_mac) /\
  (exists s okm, openssl_hkdf toy_asym works (mk_buf (repeat 77 42) 42) SHA256 (map N.of_nat (seq 0 13)) (repeat 11 22) (map N.of_nat (seq 240 10)) nothing = inr ((Ok tt, mk_buf okm 42), s) /\
     own_hkdf test_mac SHA256 (map N.of_nat (seq 0 13)) (repeat 11 22) (map N.of_nat (seq 240 10)) (repeat 77 42) = HRet (Ok tt) okm /\
     firstn 4 okm = [60; 178; 95; 37]) /\
  (exists s okm, openssl_hkdf toy_asym works (mk_buf (repeat 77 44) 42) SHA256 [] (repeat 11 22) [] nothing = inr ((Ok tt, mk_buf (okm ++ [77; 77]) 42), s) /\
     firstn 4 okm = [141; 164; 231; 117]).
Proof.
  split; [exact toy_asym_wf|]. split; [exact toy_asym_rfc|]. split; [exact toy_hmac_sane|]. split.
  - eexists. eexists. split; [vm_compute; reflexivity|]. split; vm_compute; reflexivity.
  - eexists. exists (firstn 42 (toy_hkdf SHA256 [] (repeat 11 22) [] 42)). split; vm_compute; reflexivity.
Qed.
(** The cases of failure: each of the calls; no input key; too much info; too many bytes. *)
Example C81_hkdf_failures :
  returned (openssl_hkdf toy_asym (breaks 0) (mk_buf [7; 7] 2) SHA256 [1] [2] [3] nothing) = Some (Err E_CRYPTO_UNKNOWN, mk_buf [7; 7] 2) /\
  Forall (fun n => returned (openssl_hkdf toy_asym (breaks n) (mk_buf [7; 7] 2) SHA256 [1] [2] [3] nothing) = Some (Err E_CRYPTO_UNKNOWN, mk_buf [0; 0] 0)) (seq 1 6) /\
  returned (openssl_hkdf toy_asym works (mk_buf [7; 7] 2) SHA256 [1] [] [3] nothing) = Some (Err E_CRYPTO_UNKNOWN, mk_buf [0; 0] 0) /\
  returned (openssl_hkdf toy_asym works (mk_buf [7; 7] 2) SHA256 [1] [2] (repeat 3 1025) nothing) = Some (Err E_CRYPTO_UNKNOWN, mk_buf [0; 0] 0) /\
  returned (openssl_hkdf toy_asym works (mk_buf [7; 7] 2) NOSHA [1] [2] [3] nothing) = Some (Err E_UNSUPPORTED_FORMAT, mk_buf [7; 7] 2) /\
  derivable SHA256 [2] [3] 2.
Proof.
  split; [vm_compute; reflexivity|]. split; [repeat (constructor; [vm_compute; reflexivity|]); constructor|]. repeat (split; [vm_compute; reflexivity|]).
  repeat split; try discriminate; vm_compute; discriminate.
Qed.

(** The length of the salt is cut to an int as well. *)
Theorem C81_long_salt_refuted : exists p0 p1 : list N, p0 <> p1 /\ Nlen p0 = 2 ^ 32 + 1 /\ Nlen p1 = 2 ^ 32 + 1 /\
  forall a fault okm sha ikm info s, openssl_hkdf a fault okm sha p0 ikm info s = openssl_hkdf a fault okm sha p1 ikm info s.
Proof. exact (long_salts 45). Qed.
Print Assumptions C81_long_salt_refuted.

(** In full, for PEM strings and arguments of HKDF of any length.  [pem_part] is what OpenSSL reads of a PEM string; [int_part] what it
    uses of an argument of HKDF, whose call fails if there is no such part; a salt of a multiple of 2^32 bytes is an empty salt. *)
Theorem C81_rsa_wrap_any_length : forall a fault, asym_wf a -> forall cipher plain pem mode seed s,
  ends_clean (AsymModel.rsa_encrypt a fault cipher plain pem mode seed) s (fun r s' =>
    match fst r with
    | Ok _ => cipher = None /\ p_errs s' = [] /\ exists c, rsa_wraps a (pem_part pem) mode seed plain c /\ snd r = Some (c, Nlen c)
    | Err e => (e = E_BAD_STATE /\ cipher <> None /\ snd r = cipher) \/
               (cipher = None /\ snd r = None /\
                ((e = E_UNSUPPORTED_FORMAT /\ ~ exists p, rsa_scheme mode p) \/
                 (e = E_CRYPTO_UNKNOWN /\ p_errs s' = [] /\ (faulty fault \/ ~ exists c, rsa_wraps a (pem_part pem) mode seed plain c))))
    end /\
    (~ faulty fault -> cipher = None -> (exists c, rsa_wraps a (pem_part pem) mode seed plain c) -> fst r = Ok tt)).
Proof. exact (fun a fault W cipher plain pem mode seed s => rsa_encrypt_read a fault W cipher plain pem (pem_part pem) mode seed s eq_refl). Qed.
Print Assumptions C81_rsa_wrap_any_length.
Theorem C81_rsa_unwrap_any_length : forall a fault, asym_wf a -> forall plain cipher pem mode s,
  ends_clean (AsymModel.rsa_decrypt a fault plain cipher pem mode) s (fun r s' =>
    match fst r with
    | Ok _ => plain = None /\ p_errs s' = [] /\ exists t, rsa_unwraps a (pem_part pem) mode cipher t /\ holds (snd r) t
    | Err e => (e = E_BAD_STATE /\ plain <> None /\ snd r = plain) \/
               (plain = None /\ snd r = None /\
                ((e = E_UNSUPPORTED_FORMAT /\ ~ exists p, rsa_scheme mode p) \/
                 (e = E_CRYPTO_UNKNOWN /\ p_errs s' = [] /\ (faulty fault \/ ~ private_key a (pem_part pem))) \/
                 (e = E_BAD_CIPHERTEXT /\ p_errs s' = [] /\ private_key a (pem_part pem) /\ (faulty fault \/ ~ exists t, rsa_unwraps a (pem_part pem) mode cipher t))))
    end /\
    (~ faulty fault -> plain = None -> (exists t, rsa_unwraps a (pem_part pem) mode cipher t) -> fst r = Ok tt)).
Proof. exact (fun a fault W plain cipher pem mode s => rsa_decrypt_read a fault W plain cipher pem (pem_part pem) mode s eq_refl). Qed.
Print Assumptions C81_rsa_unwrap_any_length.
Theorem C81_derive_any_length : forall a fault, asym_wf a -> forall okm sha salt ikm info s, b_len okm <= b_cap okm ->
  let used salt' ikm' info' := int_part salt = Some salt' /\ int_part ikm = Some ikm' /\ int_part info = Some info' /\ derivable sha ikm' info' (b_len okm) in
  ends_clean (openssl_hkdf a fault okm sha salt ikm info) s (fun r _ =>
    match fst r with
    | Ok _ => exists salt' ikm' info', used salt' ikm' info' /\
        snd r = mk_buf (a_hkdf a sha (match salt with [] => repeat 0 (digest_len sha) | _ => salt' end) ikm' info' (b_len okm) ++ skipn (N.to_nat (b_len okm)) (b_mem okm)) (b_len okm)
    | Err e => (e = E_UNSUPPORTED_FORMAT /\ sha = NOSHA /\ snd r = okm) \/
               (e = E_CRYPTO_UNKNOWN /\ sha <> NOSHA /\ (faulty fault \/ ~ exists salt' ikm' info', used salt' ikm' info') /\ (cleared okm (snd r) \/ faulty fault /\ snd r = okm))
    end /\
    (~ faulty fault -> (exists salt' ikm' info', used salt' ikm' info') -> fst r = Ok tt)).
Proof. exact hkdf_any. Qed.
Print Assumptions C81_derive_any_length.
(** The parts of short arguments are the arguments; of 2^31 bytes there is no part; of 2^31 bytes beginning with 7 and 0 a PEM string of one byte is read. *)
Example C81_parts : pem_part [1; 50] = [1; 50] /\ int_part [3; 0; 4] = Some [3; 0; 4] /\ asym_wf toy_asym /\
  (exists h, Nlen h = 2 ^ 31 /\ int_part h = None /\ pem_part h = [7]) /\ exists h, Nlen h = 2 ^ 32 + 1 /\ int_part h = Some [7].
Proof.
  split; [vm_compute; reflexivity|]. split; [vm_compute; reflexivity|]. split; [exact toy_asym_wf|].
  assert (G : forall n, 2 <= n -> exists h : list N, Nlen h = n /\ exists t, h = 7 :: 0 :: t).
  { intros n H. exists (7 :: 0 :: repeat 1 (N.to_nat (n - 2))). split; [|eauto]. unfold Nlen. cbn [length]. rewrite repeat_length. rewrite !Nat2N.inj_succ, N2Nat.id, <- !N.add_1_l.
    rewrite (N.add_assoc 1 1). change (1 + 1) with 2. rewrite N.add_comm. now apply N.sub_add. }
  split.
  - destruct (G (2 ^ 31) ltac:(discriminate)) as (h & L & t & E). exists h. split; [exact L|]. unfold int_part, pem_part. rewrite L.
    change (2 ^ 31 mod 2 ^ 32) with (2 ^ 31). change (2 ^ 31 <? 2 ^ 31) with false. split; [reflexivity|]. subst h. reflexivity.
  - destruct (G (2 ^ 32 + 1) ltac:(discriminate)) as (h & L & t & E). exists h. split; [exact L|]. unfold int_part. rewrite L.
    change ((2 ^ 32 + 1) mod 2 ^ 32) with 1. change (1 <? 2 ^ 31) with true. subst h. reflexivity.
Qed.

(** RSA and HKDF as the other models use them are these functions. *)
Theorem C81_refines_rsa_encrypt : forall a rs fault plain pem mode seed s, asym_wf a -> rsa_for a rs -> Nlen pem < 2 ^ 31 ->
  ends_clean (AsymModel.rsa_encrypt a fault None plain pem (Z.of_N mode) seed) s (fun r _ =>
    (fst r = Err E_CRYPTO_UNKNOWN /\ faulty fault) \/
    match KeyringModel.rsa_encrypt rs mode pem seed plain with Ok c => r = (Ok tt, Some (c, Nlen c)) | Err e => r = (Err e, None) end).
Proof. exact refines_rsa_encrypt. Qed.
Print Assumptions C81_refines_rsa_encrypt.
Theorem C81_refines_rsa_decrypt : forall a rs fault cipher pem mode s, asym_wf a -> rsa_for a rs -> Nlen pem < 2 ^ 31 ->
  ends_clean (AsymModel.rsa_decrypt a fault None cipher pem (Z.of_N mode)) s (fun r _ =>
    (exists e, fst r = Err e /\ faulty fault) \/
    match KeyringModel.rsa_decrypt rs mode pem cipher with Ok t => fst r = Ok tt /\ holds (snd r) t | Err _ => exists e, r = (Err e, None) end).
Proof. exact refines_rsa_decrypt. Qed.
Print Assumptions C81_refines_rsa_decrypt.
Theorem C81_refines_hkdf : forall a cr fault sha salt ikm info mem s, asym_wf a -> hkdf_for a cr -> Nlen salt < 2 ^ 31 -> Nlen ikm < 2 ^ 31 -> Nlen info < 2 ^ 31 ->
  ends_clean (openssl_hkdf a fault (mk_buf mem (Nlen mem)) sha salt ikm info) s (fun r _ =>
    (fst r = Err E_CRYPTO_UNKNOWN /\ faulty fault) \/
    match CryptoModel.hkdf cr sha salt ikm info (Nlen mem) with inl okm => r = (Ok tt, mk_buf okm (Nlen mem)) | inr e => fst r = Err e end).
Proof. exact refines_hkdf. Qed.
Print Assumptions C81_refines_hkdf.
Example C81_refines_example : rsa_for toy_asym (rsa_of toy_asym) /\ hkdf_for toy_asym (hkdf_crypto toy_asym toy_cr) /\
  KeyringModel.rsa_encrypt (rsa_of toy_asym) 2 [1; 50] [] [5; 6; 7] = Ok [9; 3; 5; 6; 7; 0; 0; 0] /\
  KeyringModel.rsa_decrypt (rsa_of toy_asym) 2 [2; 50] [9; 3; 5; 6; 7; 0; 0; 0] = Ok [5; 6; 7] /\
  CryptoModel.hkdf (hkdf_crypto toy_asym toy_cr) SHA256 [] (repeat 11 22) [] 2 = inl [141; 164].
Proof. split; [apply rsa_of_for|]. split; [apply hkdf_crypto_for|]. repeat (apply conj); vm_compute; reflexivity. Qed.
