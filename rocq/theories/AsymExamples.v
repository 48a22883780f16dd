(** Stand-ins for OpenSSL's RSA and HKDF, for the examples of Prop_Asym.v. *)
From Verif Require Import Base BaseProofs AlgModel CryptoModel HkdfModel HkdfSpec HkdfProofs HkdfExamples CipherModel AsymModel AsymSpec.
From Coq Require Import ZArith ZifyBool ZifyNat ZifyN.
Import List ListNotations.
Open Scope list_scope.
Open Scope N_scope.

(** "RSA" with 8-byte keys: a byte for the padding, the length, the text, zeros.  PEM strings begin with 1 (public key), 2 (private key)
    or 3 (private key of another kind). *)
Definition pad_byte (p : padding) : N := match p with PadPkcs1 => 7 | PadOaep H_SHA1 _ => 8 | PadOaep H_SHA256 _ => 9 end.
Definition toy_enc (k : list N) (p : padding) (seed t : list N) : option (list N) :=
  if Nlen t <=? 6 then Some (pad_byte p :: Nlen t :: t ++ repeat 0 (6 - length t)) else None.
Definition toy_dec (k : list N) (p : padding) (c : list N) : option (list N) :=
  match c with
  | x :: n :: r => if (x =? pad_byte p) && (n <=? 6) then Some (firstn (N.to_nat n) r) else None
  | _ => None
  end.
(** RFC 5869 with HMAC of real hash functions *)
Definition toy_hkdf (sha : sha_version) (salt ikm info : list N) (len : N) : list N :=
  let h := digest_len sha in
  if (N.of_nat h =? 0) || (255 * N.of_nat h <? len) then zeros len
  else firstn (N.to_nat len) (concat (map (rfc_block (mac_fn test_mac sha) (rfc_extract (mac_fn test_mac sha) h salt ikm) info) (seq 1 (N.to_nat ((len + N.of_nat h - 1) / N.of_nat h))))).
Definition toy_asym : asym :=
  mk_asym (fun pem => match pem with 1 :: k => Some k | _ => None end) (fun pem => match pem with 2 :: k => Some k | 3 :: k => Some (3 :: k) | _ => None end)
          (fun k => match k with 3 :: _ => false | _ => true end) (fun _ => 8) toy_enc toy_dec (fun _ m => firstn 8 (map (fun _ => 170) m)) zeros toy_hkdf.

Lemma blocks_len sha prk info n i : sha <> NOSHA -> (0 < i)%nat -> length (concat (map (rfc_block (mac_fn test_mac sha) prk info) (seq i n))) = (n * digest_len sha)%nat.
Proof.
  intro N. revert i. induction n as [|n IH]; intros i I; [reflexivity|]. cbn [seq map concat]. rewrite app_length, IH by lia.
  destruct i as [|i]; [lia|]. cbn [rfc_block]. rewrite toy_hmac_sane by exact N. lia.
Qed.
Lemma toy_asym_wf : asym_wf toy_asym.
Proof.
  split; [|split; [|split; [|split]]]; cbn [toy_asym a_enc a_dec a_size a_junk a_fresh a_hkdf].
  - intros k p r t c. unfold toy_enc. destruct (N.leb_spec (Nlen t) 6) as [L|]; [|discriminate]. intro E. injection E as <-. unfold Nlen in *.
    do 7 (destruct t as [|? t]; [reflexivity|]). cbn [length] in L. lia.
  - intros k p c t. unfold toy_dec. destruct c as [|x [|n r]]; try discriminate. destruct ((x =? pad_byte p) && (n <=? 6))%bool eqn:B; [|discriminate]. intro E. injection E as <-.
    unfold Nlen. rewrite firstn_length. lia.
  - intros _ m _. change (Nlen (firstn 8 (map (fun _ => 170) m)) <= 8). unfold Nlen. rewrite firstn_length. lia.
  - intro n. unfold Nlen, zeros. rewrite repeat_length. lia.
  - intros sha s k i n. unfold toy_hkdf. destruct ((N.of_nat (digest_len sha) =? 0) || (255 * N.of_nat (digest_len sha) <? n))%bool eqn:B; [unfold Nlen, zeros; rewrite repeat_length; lia|].
    assert (SN : sha <> NOSHA) by (intros ->; discriminate B). unfold Nlen. rewrite firstn_length, blocks_len by (exact SN || lia).
    assert (D : N.of_nat (digest_len sha) <> 0) by lia. set (d := N.of_nat (digest_len sha)) in *. pose proof (N.div_mod (n + d - 1) d D). pose proof (N.mod_lt (n + d - 1) d D). nia.
Qed.
Lemma toy_asym_rfc : hkdf_is_rfc toy_asym (mac_fn test_mac).
Proof.
  intros sha salt ikm info len SN _ L. cbn [a_hkdf toy_asym]. unfold toy_hkdf. destruct (N.eqb_spec (N.of_nat (digest_len sha)) 0) as [Z|D]; [destruct sha; [contradiction|discriminate..]|].
  destruct (N.ltb_spec (255 * N.of_nat (digest_len sha)) len); [lia|]. cbn [orb]. unfold rfc_hkdf, rfc_okm.
  exists (N.to_nat ((len + N.of_nat (digest_len sha) - 1) / N.of_nat (digest_len sha))). set (d := N.of_nat (digest_len sha)) in *.
  pose proof (N.div_mod (len + d - 1) d D). pose proof (N.mod_lt (len + d - 1) d D). split; [nia|]. split; [nia|reflexivity].
Qed.
Lemma toy_pair k seed t p c : toy_enc k p seed t = Some c -> toy_dec k p c = Some t.
Proof.
  unfold toy_enc, toy_dec. destruct (N.leb_spec (Nlen t) 6) as [L|]; [|discriminate]. intro E. injection E as <-. rewrite N.eqb_refl. destruct (N.leb_spec (Nlen t) 6); [|lia]. cbn [andb].
  unfold Nlen. rewrite Nat2N.id, firstn_app, Nat.sub_diag, firstn_O, app_nil_r, firstn_all. reflexivity.
Qed.

Definition nothing : pst := mk_pst 0 [] [] 0 [].
(** A state with an object of somebody else. *)
Definition busy : pst := mk_pst 5 [99] [(4%nat, OBio [1; 2])] 5 [].
Definition works : nat -> option (list N) := fun _ => None.
Definition breaks (n : nat) : nat -> option (list N) := fun m => if Nat.eqb m n then Some [13] else None.
Definition returned {A} (r : stop + (res unit * A) * pst) : option (res unit * A) := match r with inr (x, _) => Some x | inl _ => None end.
