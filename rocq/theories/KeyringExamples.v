(** Concrete keyrings, used only to show that the hypotheses of the keyring theorems can be met and as witnesses of
    refutations. *)
From Verif Require Import Base AlgModel EncCtxModel HdrModel FrameModel CryptoModel SessionModel KeyringModel
  BaseProofs WireSpec SessionSpec StreamSpec KeyringSpec SessionExamples StreamExamples KeyringProofs RawKeyringProofs.
From Coq Require Import Permutation ZArith ZifyBool ZifyNat ZifyN.
Import List.
Open Scope list_scope.
Open Scope N_scope.

Definition toy_ke : kenv := mk_kenv (fun _ => None) (fun i n => repeat (N.of_nat i + 5) (N.to_nat n)) 77 zeros [3].
Definition toy_aes : raw_aes := mk_raw_aes [110; 115] [107; 49] (repeat 9 32).
Definition toy_aes2 : raw_aes := mk_raw_aes [110; 115] [107; 50] (repeat 8 16).
Definition aes_kr (k : raw_aes) : keyring := raw_aes_keyring toy_cr k toy_ke.
Definition no_args : kargs := mk_kargs None [] [].
Definition no_dargs : dargs := mk_dargs None [].

Lemma toy_ke_sizes : random_sizes toy_ke.
Proof. split; intros; cbn; [unfold Nlen; rewrite repeat_length; lia|apply Nlen_zeros]. Qed.
Lemma toy_aes_ok : raw_aes_ok toy_aes.
Proof. split; [discriminate|right; right; reflexivity]. Qed.
Lemma toy_distinct : distinct_keys toy_ctx.
Proof. repeat constructor; cbn; intuition discriminate. Qed.

(** An RSA that shifts. *)
Definition toy_rsa : rsa := mk_rsa
  (fun pad pub seed p => Some (seed ++ map (N.add (hd 0 pub)) p))
  (fun pad priv c => Some (map (fun x => x - hd 0 priv) (tl c))).
Definition toy_rsa_pub : raw_rsa := mk_raw_rsa [110; 115] [107; 49] None (Some [4]) 2.
Definition toy_rsa_priv : raw_rsa := mk_raw_rsa [110; 115] [107; 49] (Some [4]) None 2.

(** A padding that names the recipient, so that the pair recovers what was encrypted. *)
Definition toy_rsa1 : rsa := mk_rsa
  (fun pad pub seed p => match seed with [_] => Some (seed ++ map (N.add (hd 0 pub)) p) | _ => None end)
  (rs_dec toy_rsa).
Lemma toy_rsa_pair : rsa_pair toy_rsa1 [4] [4].
Proof.
  intros pad seed p c. cbn. destruct seed as [|s [|? ?]]; try discriminate. intros E. injection E as <-. split; [discriminate|].
  cbn [tl]. f_equal. rewrite map_map. transitivity (map (fun x => x) p); [apply map_ext; intros; lia|apply map_id].
Qed.

(** Keyrings that misbehave: a data key of one byte with an error; a data key changed in place. *)
Definition short_key_kr : keyring := mk_keyring None (Some (fun _ _ _ a => (mk_dargs (Some (mk_kbuf 1 [1])) (da_trace a), KrErr E_OOM))).
Definition failing_kr : keyring := mk_keyring (Some (fun _ _ a => (a, KrErr E_KMS_FAILURE))) (Some (fun _ _ _ a => (a, KrErr E_KMS_FAILURE))).
Definition scribble_kr : keyring := mk_keyring
  (Some (fun _ _ a => (mk_kargs (option_map (fun b => mk_kbuf (kb_meta b) (zeros (Nlen (kb_bytes b)))) (ka_key a)) (ka_trace a) (ka_edks a), KrOk))) None.

Lemma aes_appends : forall k, appends (aes_kr k).
Proof.
  intros k ctx alg a a' H. apply on_encrypt_inv in H as [_ H]. destruct (H eq_refl) as ((f & Ef & H') & _). cbn in Ef. injection Ef as <-.
  destruct (aes_encrypt_inv _ _ _ _ _ _ _ H') as (_ & b & c & t & _ & _ & _ & _ & _ & _ & _ & _ & E & T).
  eexists _, _. split; [exact E|]. now apply T.
Qed.

Definition toy_multi : multi := mk_multi (Some (aes_kr toy_aes)) [aes_kr toy_aes2; aes_kr toy_aes].
Definition good_mem : multi_mem := mk_multi_mem None (fun _ => true) (fun _ => true).
Definition bad_mem : multi_mem := mk_multi_mem None (fun n => Nat.ltb n 2) (fun _ => true).

Definition toy_wrapped : kargs := fst (keyring_on_encrypt (aes_kr toy_aes) toy_ctx 0x0578 no_args).
Definition toy_other_edk : edk := mk_edk [120] [1; 2] [3].

(** Elliptic curve operations and a default CMM over the raw AES keyring. *)
Definition toy_ec : ecdsa := mk_ecdsa (fun _ => Ok (mk_sigctx [5; 5] [], [80; 81])) (fun _ pub => Ok (mk_sigctx pub [])).
Definition toy_cmm : default_cmm := mk_default_cmm (aes_kr toy_aes) None.
Definition toy_request : enc_request := mk_enc_request toy_ctx 0 10 CP_REQUIRE_REQUIRE.

Lemma toy_ideal_aes : let w := mk_wrap_call toy_ke toy_ctx 0x0578 None in
  let aad := wire_ctx [([97], [2; 3]); ([98], [1])] in
  let cr := mk_crypto (cr_enc toy_cr)
    (fun k iv a c t => if bytes_eqb iv (repeat 5 12) && bytes_eqb a aad && bytes_eqb c (repeat 7 32) && bytes_eqb t (toy_tag (repeat 9 32) iv a c)
                       then OpenOk c else OpenBadTag) (cr_hkdf toy_cr) (cr_upd_ok toy_cr) (cr_verify toy_cr) in
  distinct_keys (wc_ctx w) /\
  (forall iv a c t p, cr_dec cr (ra_key toy_aes) iv a c t = OpenOk p -> exists w', In w' [w] /\ wc_seals w' iv a p) /\
  (exists d', keyring_on_decrypt (raw_aes_keyring cr toy_aes toy_ke) (ka_edks toy_wrapped) toy_ctx 0x0578 no_dargs = (d', KrOk) /\ da_key d' <> None) /\
  (exists d', keyring_on_decrypt (raw_aes_keyring cr toy_aes toy_ke) (ka_edks toy_wrapped) [([98], [1])] 0x0578 no_dargs = (d', KrOk) /\ da_key d' = None).
Proof.
  intros w aad cr. split; [exact toy_distinct|]. split; [|split].
  - intros iv a c t p. cbn [cr_dec cr]. destruct (_ && _) eqn:E; [|discriminate]. intros X. injection X as <-.
    apply andb_prop in E as [E _]. apply andb_prop in E as [E E3]. apply andb_prop in E as [E1 E2].
    apply bytes_eqb_spec in E1, E2, E3. subst iv a c. exists w. split; [now left|].
    split; [reflexivity|]. split; [|reflexivity].
    exists [([97], [2; 3]); ([98], [1])]. split; [constructor|]. split; [|split; [vm_compute; discriminate|reflexivity]].
    repeat constructor.
  - eexists. split; [vm_compute; reflexivity|discriminate].
  - eexists. split; [vm_compute; reflexivity|reflexivity].
Qed.
