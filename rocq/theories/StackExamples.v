(** Concrete stacks: an environment whose materials come from default CMMs over raw keyrings. *)
From Verif Require Import Base AlgModel EncCtxModel HdrModel FrameModel CryptoModel SessionModel KeyringModel
  BaseProofs WireSpec SessionSpec SuiteSpec StreamSpec LiveSpec KeyringSpec StackSpec SessionTheorems SessionExamples StreamExamples LiveExamples
  KeyringProofs KeyringExamples StackProofs StackTheorems StackKeyrings.
From Coq Require Import Permutation ZArith ZifyBool ZifyNat ZifyN.
Import List.
Open Scope list_scope.
Open Scope N_scope.

(** An RSA that prefixes the key, of at most 64 bytes; key pairs whose public key is also the private one. *)
Definition st_rsa : rsa := mk_rsa
  (fun pad pub seed p => if forallb (fun x => x <? 256) p && (Nlen p <=? 64) then Some (hd 0 pub mod 256 :: p) else None)
  (fun pad priv c => match c with x :: p => if x =? hd 0 priv mod 256 then Some p else None | [] => None end).
Definition st_ec : ecdsa := mk_ecdsa (fun _ => Ok (mk_sigctx [80; 81] [], [80; 81])) (fun _ pub => Ok (mk_sigctx pub [])).

(** An environment over two default CMMs. *)
Definition st_res {A B} (f : A -> B) (x : cres A) : res B :=
  match x with COk a => Ok (f a) | CErr e => Err e | CUB => Err E_STALE end.
Definition st_env (c d : default_cmm) : env := mk_env false false
  (fun rq => let (ctx, x) := default_cmm_generate st_ec None None c rq in (ctx, st_res session_enc_mat x))
  (fun rq => st_res session_dec_mat (default_cmm_decrypt st_ec None d rq))
  (fun n => Some (repeat 7 (N.to_nat n)))
  (fun sc => Ok [toy_sum (sc_key sc ++ sc_data sc)])
  0.

Definition st_ke : kenv := mk_kenv (fun _ => None) (fun i n => repeat (N.of_nat i mod 200 + 5) (N.to_nat n)) 77 zeros [3].
(** Two AES keys and an RSA key pair. *)
Definition st_aes1 : raw * kenv := (RawAes toy_aes, st_ke).
Definition st_aes2 : raw * kenv := (RawAes toy_aes2, st_ke).
Definition st_pub : raw * kenv := (RawRsa (mk_raw_rsa [110; 115] [107; 51] None (Some [4]) 2), st_ke).
Definition st_priv : raw * kenv := (RawRsa (mk_raw_rsa [110; 115] [107; 51] (Some [4]) None 2), st_ke).
Definition st_other : raw * kenv := (RawAes (mk_raw_aes [120] [121] (repeat 1 32)), st_ke).
(** Encryption for all three; decryption by somebody who has an unrelated AES key and the RSA private key. *)
Definition st_write : keyring := raw_multi toy_cr st_rsa st_aes1 [st_pub; st_aes2] good_mem.
Definition st_read : keyring := raw_multi toy_cr st_rsa st_other [st_priv] good_mem.
Definition st_e : env := st_env (mk_default_cmm st_write None) (mk_default_cmm st_read None).

Lemma toy_sum_byte : forall l, toy_sum l < 256.
Proof.
  intros l. unfold toy_sum. assert (H : forall l a, a < 256 -> fold_left (fun a x => (3 * a + x + 1) mod 251) l a < 256).
  { clear l. induction l as [|x l IH]; intros a A; cbn [fold_left]; [exact A|]. apply IH.
    pose proof (N.mod_lt (3 * a + x + 1) 251 ltac:(discriminate)). lia. }
  apply H. reflexivity.
Qed.
Lemma repeat_bytes : forall x n, x < 256 -> bytes_ok (repeat x n).
Proof. intros x n X. induction n; cbn; constructor; auto. Qed.
Lemma toy_bytes : crypto_bytes toy_cr.
Proof.
  split; cbn.
  - intros k iv a p c t B E. injection E as <- <-. split; [exact B|]. constructor; [apply toy_sum_byte|apply (repeat_bytes 0); reflexivity].
  - intros h s i f n k E. injection E as <-. apply repeat_bytes, toy_sum_byte.
Qed.

Lemma st_rsa_bytes : rsa_bytes st_rsa.
Proof.
  intros pad pub seed p c. cbn [rs_enc st_rsa]. destruct (forallb _ p) eqn:F; cbn [andb]; [|discriminate].
  destruct (N.leb_spec (Nlen p) 64); [|discriminate]. intros E. injection E as <-.
  split; [constructor|unfold fits16; rewrite Nlen_cons; lia].
  - apply N.mod_lt. discriminate.
  - apply Forall_forall. intros x I. rewrite forallb_forall in F. now apply N.ltb_lt, F.
Qed.
Lemma st_rsa_pair : rsa_pair st_rsa [4] [4].
Proof.
  intros pad seed p c. cbn [rs_enc rs_dec st_rsa]. destruct (_ && _); [|discriminate]. intros E. injection E as <-. split; [discriminate|reflexivity].
Qed.

Lemma st_ke_ok : kenv_ok st_ke.
Proof.
  split.
  - split; intros; cbn; [unfold Nlen; rewrite repeat_length; lia|apply Nlen_zeros].
  - intros i n. apply repeat_bytes. pose proof (N.mod_lt (N.of_nat i) 200 ltac:(discriminate)). lia.
Qed.
Lemma st_ke_works : kenv_works st_ke.
Proof. intros i. reflexivity. Qed.

Ltac raw_ok := repeat split; try discriminate; try bytes; try (vm_compute; reflexivity); try (vm_compute; discriminate); auto.
Lemma st_oks : raw_ok (fst st_aes1) /\ raw_ok (fst st_aes2) /\ raw_ok (fst st_pub) /\ raw_ok (fst st_priv) /\ raw_ok (fst st_other).
Proof. raw_ok. Qed.

(** Default CMMs over these keyrings answer, so the environment above is theirs. *)
Definition defined (k : keyring) : Prop :=
  (forall ctx alg a, suite alg -> snd (keyring_on_encrypt k ctx alg a) <> KrUB) /\
  (forall edks ctx alg d, suite alg -> snd (keyring_on_decrypt k edks ctx alg d) <> KrUB).
Lemma st_generates : forall k da d, defined k -> generates_with st_ec (mk_default_cmm k da) (st_env (mk_default_cmm k da) d).
Proof.
  intros k da d [D _] rq. cbn [st_env e_gen]. destruct (default_cmm_generate st_ec None None (mk_default_cmm k da) rq) as [ctx x] eqn:G.
  cbn [fst snd]. split; [reflexivity|]. destruct x; cbn [answer st_res]; auto. exfalso.
  unfold default_cmm_generate in G. cbn [dc_keyring] in G. destruct (ctx_find _ _); [discriminate|].
  destruct (alg_lookup _) as [p|] eqn:L; [|discriminate].
  assert (S : suite (default_alg_choice (mk_default_cmm k da) (rq_alg rq) (rq_policy rq))) by exact (proj1 (suite_lookup _ _ L)).
  cbn [ec_keygen st_ec] in G. destruct (ap_sig_len p =? 0).
  - specialize (D (rq_ctx rq) _ (mk_kargs None [] []) S). destruct (keyring_on_encrypt _ _ _ _) as [a []]; try discriminate; cbn in D; congruence.
  - specialize (D (fst (ctx_put EC_PUBLIC_KEY_FIELD [80; 81] (rq_ctx rq))) _ (mk_kargs None [] []) S). destruct (keyring_on_encrypt _ _ _ _) as [a []]; try discriminate; cbn in D; congruence.
Qed.
Lemma st_decrypts : forall k da c, defined k -> decrypts_with st_ec (mk_default_cmm k da) (st_env c (mk_default_cmm k da)).
Proof.
  intros k da c [_ D] rq S. cbn [st_env e_dec]. destruct (default_cmm_decrypt st_ec None (mk_default_cmm k da) rq) as [x|x|] eqn:G;
    cbn [answer st_res]; auto. exfalso. unfold default_cmm_decrypt in G. cbn [dc_keyring] in G.
  specialize (D (dq_edks rq) (dq_ctx rq) (dq_alg rq) (mk_dargs None []) S). destruct (keyring_on_decrypt _ _ _ _ _) as [a []]; try discriminate; [|cbn in D; congruence].
  destruct (da_key a); [|discriminate]. destruct (lookup_suite _ S) as [p L]. rewrite L in G.
  destruct (ap_sig_len p =? 0), (ctx_find _ _); discriminate.
Qed.
Lemma st_multi_defined : forall x l mem, defined (raw_multi toy_cr st_rsa x l mem).
Proof. split; intros; [apply multi_enc_defined|apply multi_dec_defined]; assumption. Qed.

Lemma st_stack : stack_env toy_cr st_ec st_ec (mk_default_cmm st_write None) 0x0578 st_e.
Proof.
  split; [apply st_generates, st_multi_defined|]. split.
  - intros n l E. cbn in E. injection E as <-. apply repeat_bytes. reflexivity.
  - intros _ sc pub E. cbn in E. injection E as <- <-. split; [bytes|]. eexists. split; [reflexivity|]. split; [reflexivity|].
    intros data sg E. cbn [st_e st_env e_sign sc_key sc_data] in E. assert (E2 : sg = [toy_sum ([80; 81] ++ data)]) by congruence. subst sg. clear E. split; [constructor; [apply toy_sum_byte|constructor]|]. split; [reflexivity|].
    apply bytes_eqb_spec. reflexivity.
Qed.
Lemma st_helpers : helpers_work st_ec 0x0578 st_e.
Proof.
  constructor.
  - intros n. eexists. split; [reflexivity|]. unfold Nlen. rewrite repeat_length. apply N2Nat.id.
  - intros _. eexists _, _. reflexivity.
  - intros sc. eexists. split; [reflexivity|]. vm_compute. discriminate.
Qed.

Lemma st_rights : rights st_rsa [st_aes1; st_pub; st_aes2] [st_other; st_priv].
Proof.
  assert (CP : counterpart st_rsa (fst st_pub) (fst st_priv)).
  { repeat split. exists [4], [4]. split; [reflexivity|]. split; [reflexivity|]. exact st_rsa_pair. }
  split.
  - intros x y X Y. destruct Y as [<-|[<-|[]]]; [left; apply apart_ns; destruct X as [<-|[<-|[<-|[]]]]; discriminate|].
    destruct X as [<-|[<-|[<-|[]]]]; [|right; exact CP|].
    + left. intros e [_ [iv [L A]]] [_ B]. rewrite A in B. apply (f_equal Nlen) in B. unfold aes_info in B. rewrite !Nlen_app, L in B. vm_compute in B. discriminate.
    + left. intros e [_ [iv [L A]]] [_ B]. rewrite A in B. apply (f_equal Nlen) in B. unfold aes_info in B. rewrite !Nlen_app, L in B. vm_compute in B. discriminate.
  - exists st_pub, st_priv. split; [cbn; auto|]. split; [cbn; auto|]. split; [exact CP|exact st_ke_works].
Qed.
Lemma st_write_ok : Forall (fun x => raw_ok (fst x) /\ kenv_ok (snd x)) [st_aes1; st_pub; st_aes2].
Proof. destruct st_oks as (A & B & C & _). repeat apply Forall_cons; auto; split; auto using st_ke_ok. Qed.
Lemma st_read_ok : Forall (fun y => raw_ok (fst y)) [st_other; st_priv].
Proof. destruct st_oks as (_ & _ & _ & A & B). repeat apply Forall_cons; auto. Qed.
Lemma st_wrappers : Forall (wrapper st_rsa) [st_aes1; st_pub; st_aes2].
Proof.
  destruct st_oks as (A & B & C & _). repeat apply Forall_cons; auto; (split; [auto|]); (split; [exact st_ke_ok|]); (split; [exact st_ke_works|]); cbn; auto.
  exists [4]. split; [reflexivity|]. intros seed p BP L.
  assert (F : forallb (fun x => x <? 256) p = true).
  { apply forallb_forall. intros x I. apply N.ltb_lt. unfold bytes_ok in BP. rewrite Forall_forall in BP. exact (BP x I). }
  rewrite F. cbn [andb]. destruct (N.leb_spec (Nlen p) 64); [discriminate|lia].
Qed.
Lemma st_tidy : forall alg, tidy st_write alg 3.
Proof. intros alg. apply (multi_tidy toy_cr st_rsa st_aes1 [st_pub; st_aes2] good_mem alg toy_sizes toy_bytes st_rsa_bytes st_write_ok). vm_compute. discriminate. Qed.
Lemma st_recovers : forall alg, recovers st_write st_read alg.
Proof. intros alg. exact (multi_recovers toy_cr st_rsa _ _ good_mem _ _ good_mem alg toy_sizes toy_inverts toy_bytes st_rsa_bytes st_write_ok st_read_ok st_rights). Qed.
Lemma st_wraps : forall alg, suite alg -> wraps st_write alg.
Proof. intros alg S. apply multi_wraps; auto using toy_sizes, toy_works, st_wrappers. Qed.
