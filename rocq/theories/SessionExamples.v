(** Concrete primitives, environments and call histories, used only to show that the hypotheses of the
    session theorems can be met and as witnesses of refutations. *)
From Verif Require Import Base AlgModel EncCtxModel HdrModel FrameModel CryptoModel SessionModel
  BaseProofs WireSpec SessionSpec SessionTheorems.
From Coq Require Import ZArith ZifyBool ZifyNat ZifyN.
Import List.
Open Scope list_scope.
Open Scope N_scope.

(** A checksum stands in for every primitive. *)
Definition toy_sum (l : list N) : N := fold_left (fun a x => (3 * a + x + 1) mod 251) l 0.
Definition toy_tag (k iv a c : list N) : list N := toy_sum (k ++ iv ++ a ++ c) :: zeros 15.
Definition toy_cr : crypto := mk_crypto
  (fun k iv a p => Some (p, toy_tag k iv a p))
  (fun k iv a c t => if bytes_eqb t (toy_tag k iv a c) then OpenOk c else OpenBadTag)
  (fun h s i f n => Some (repeat (toy_sum (s ++ i ++ f)) (N.to_nat n)))
  (fun _ _ => true)
  (fun sc sg => bytes_eqb sg [toy_sum (sc_key sc ++ sc_data sc)]).

Lemma toy_sizes : crypto_sizes toy_cr.
Proof.
  split; [|split]; cbn.
  - intros k iv a p c t E. injection E as <- <-. split; reflexivity.
  - intros k iv a c t p. destruct (bytes_eqb _ _); [|discriminate]. congruence.
  - intros h s i f n k E. injection E as <-. unfold Nlen. rewrite repeat_length. lia.
Qed.

(** Bytes as a test. *)
Definition op_bytesb (o : op) : bool :=
  match o with OProcess _ _ i | OProcessFull _ _ i => forallb (fun x => x <? 256) i | _ => true end.
Lemma op_bytesb_ok : forall ops, forallb op_bytesb ops = true -> Forall op_bytes ops.
Proof.
  intros ops H. apply Forall_forall. intros o I. rewrite forallb_forall in H. specialize (H o I).
  destruct o; cbn in *; auto; apply Forall_forall; intros x J; rewrite forallb_forall in H; specialize (H x J); now apply N.ltb_lt in H.
Qed.

Ltac bytes := repeat (apply Forall_cons; [reflexivity|]); apply Forall_nil.

Definition toy_ok (m : smode) (ops : list op) : bool :=
  is_valid_mode m && forallb op_bytesb ops && forallb (fun r => negb (stuck (o_rc r))) (snd (run toy_cr (new_world m) ops)).
Lemma toy_history : forall m ops, toy_ok m ops = true -> history toy_cr m ops (fst (run toy_cr (new_world m) ops)).
Proof.
  intros m ops H. unfold toy_ok in H. apply andb_prop in H as [H1 H3]. apply andb_prop in H1 as [H1 H2].
  apply history_run; auto using op_bytesb_ok.
Qed.

(** Materials: one encrypted data key, a key of the right size, a signature context for signed suites. *)
Definition toy_edk : edk := mk_edk [107; 109; 115] [1; 2; 3] [9; 8; 7].
Definition toy_sig (alg : N) : option sigctx :=
  if existsb (N.eqb alg) signed_suites then Some (mk_sigctx [5; 5] []) else None.
Definition toy_key (alg : N) : list N := repeat 42 (N.to_nat (suite_key_len alg)).
Definition toy_ctx : enc_ctx := [([98], [1]); ([97], [2; 3])].
Definition toy_env (alg : N) : env := mk_env false false
  (fun rq => (rq_ctx rq, Ok (mk_enc_mat (toy_key alg) [] [toy_edk] (toy_sig alg) alg)))
  (fun rq => Ok (mk_dec_mat (toy_key (dq_alg rq)) [] (toy_sig (dq_alg rq)) (dq_alg rq)))
  (fun n => Some (repeat 7 (N.to_nat n)))
  (fun sc => Ok [toy_sum (sc_key sc ++ sc_data sc)])
  0.

(** A ten-byte message in frames of four bytes, fed in two pieces, the size declared late. *)
Definition toy_enc_ops (alg fs : N) (c : cpolicy) : list op :=
  [OSetPolicy c; OSetFrame fs; OCtx toy_ctx; OProcess (toy_env alg) 1000 [10; 11; 12; 13; 14; 15];
   OSetBound 20; OSetSize 0 10; OProcess (toy_env alg) 1000 [14; 15; 16; 17; 18; 19]].
Definition toy_enc (alg fs : N) (c : cpolicy) : world := fst (run toy_cr (new_world M_ENCRYPT) (toy_enc_ops alg fs c)).
(** Decryption of [msg] in four calls; [k] bytes are header and first frame. *)
Definition toy_dec_ops (alg : N) (k : nat) (c : cpolicy) (msg : list N) : list op :=
  [OSetPolicy c; OProcess (toy_env alg) 1000 (firstn 60 msg); OProcess (toy_env alg) 3 (firstn (k - 36) msg);
   OProcess (toy_env alg) 1000 (firstn 37 (skipn (k - 36) msg)); OProcess (toy_env alg) 1000 (skipn k msg)].
Definition toy_dec (alg : N) (k : nat) (c : cpolicy) (msg : list N) : world :=
  fst (run toy_cr (new_world M_DECRYPT) (toy_dec_ops alg k c msg)).

(** The CMM returned materials for the requested suite. *)
Lemma faithful_cmm : forall log,
  forallb (fun ev => match ev with EvUnwrap rq dm => dm_alg dm =? dq_alg rq | _ => true end) log = true ->
  forall rq dm, In (EvUnwrap rq dm) log -> dm_alg dm = dq_alg rq.
Proof. intros log H rq dm I. rewrite forallb_forall in H. specialize (H _ I). cbn in H. now apply N.eqb_eq. Qed.

(** ** Witnesses *)

Lemma C20_assert_witness : exists cr m ops w e cap input, crypto_sizes cr /\ history cr m ops w /\ bytes_ok input /\
  o_rc (snd (exec cr w (OProcess e cap input))) = PAssert.
Proof.
  set (e := mk_env true false (e_gen (toy_env 0x0578)) (e_dec (toy_env 0x0578)) (e_rand (toy_env 0x0578))
              (e_sign (toy_env 0x0578)) 0).
  set (msg := w_out (toy_enc 0x0578 4 CP_REQUIRE_REQUIRE)).
  exists toy_cr, M_DECRYPT, [OProcess e 10 (firstn 5 msg); OSetPolicy (CP_INVALID 99)]. eexists. exists e, 10, msg.
  split; [exact toy_sizes|]. split; [apply toy_history; vm_compute; reflexivity|].
  split; [unfold msg; set (m := w_out _); vm_compute in m; unfold m; bytes|vm_compute; reflexivity].
Qed.

(** Three frames of four bytes go through although the bound is four. *)
Definition C22_ops : list op :=
  [OSetFrame 4; OSetBound 4; OProcess (toy_env 0x0578) 1000 [1; 2; 3; 4; 5; 6; 7; 8; 9; 10; 11; 12; 13]].
Lemma C22_bound_witness : exists cr ops w rs, crypto_sizes cr /\ Forall op_bytes ops /\
  run cr (new_world M_ENCRYPT) ops = (w, rs) /\ Forall (fun r => o_rc r = POk) rs /\
  bound_in_force (combine ops rs) < Nlen (w_in w) /\ s_state (w_s w) <> ST_ERROR.
Proof.
  exists toy_cr, C22_ops. eexists. eexists. split; [exact toy_sizes|]. split; [apply op_bytesb_ok; reflexivity|].
  split; [vm_compute; reflexivity|]. split; [repeat constructor|]. split; [reflexivity|discriminate].
Qed.
(** A size below what was processed is accepted. *)
Lemma C22_size_witness : exists cr ops w n w' r, crypto_sizes cr /\ history cr M_ENCRYPT ops w /\
  n < Nlen (w_in w) /\ exec cr w (OSetSize 0 n) = (w', r) /\ o_rc r = POk /\ s_state (w_s w') <> ST_ERROR.
Proof.
  exists toy_cr, [OSetFrame 4; OProcess (toy_env 0x0578) 1000 [1; 2; 3; 4; 5; 6; 7; 8; 9; 10]]. eexists. exists 3. eexists. eexists.
  split; [exact toy_sizes|]. split; [apply toy_history; vm_compute; reflexivity|].
  split; [vm_compute; reflexivity|]. split; [vm_compute; reflexivity|]. split; [reflexivity|discriminate].
Qed.

(** The CMM returns materials for an unsigned suite, the header names a signed one. *)
Definition C27_env : env := mk_env false false
  (fun rq => (rq_ctx rq, Err E_OOM))
  (fun rq => Ok (mk_dec_mat (toy_key (dq_alg rq)) [] (toy_sig (dq_alg rq)) 0x0178))
  (fun n => None) (fun sc => Err E_OOM) 0.
Lemma C27_witness : exists cr ops w h hb ha rest, crypto_sizes cr /\ history cr M_DECRYPT_UNSIGNED ops w /\
  s_mode (w_s w) = M_DECRYPT_UNSIGNED /\ w_out w <> [] /\ w_in w = hb ++ ha ++ rest /\ wire_header h hb ha /\ hdr_wf h /\
  In (h_alg_id h) signed_suites.
Proof.
  set (msg := w_out (toy_enc 0x0378 4 CP_FORBID_ALLOW)).
  set (ops := [OSetPolicy CP_FORBID_ALLOW; OProcess C27_env 1000 msg]).
  assert (H : history toy_cr M_DECRYPT_UNSIGNED ops (fst (run toy_cr (new_world M_DECRYPT_UNSIGNED) ops)))
    by (apply toy_history; vm_compute; reflexivity).
  assert (M : s_mode (w_s (fst (run toy_cr (new_world M_DECRYPT_UNSIGNED) ops))) = M_DECRYPT_UNSIGNED) by (vm_compute; reflexivity).
  assert (O : w_out (fst (run toy_cr (new_world M_DECRYPT_UNSIGNED) ops)) <> []) by (vm_compute; discriminate).
  assert (A : get_alg_id (w_s (fst (run toy_cr (new_world M_DECRYPT_UNSIGNED) ops))) = Some 0x0378) by (vm_compute; reflexivity).
  assert (L : s_state (w_s (fst (run toy_cr (new_world M_DECRYPT_UNSIGNED) ops))) <> ST_ERROR) by (vm_compute; discriminate).
  set (w := fst _) in *. clearbody w.
  destruct (C17_lemma _ _ _ _ toy_sizes H ltac:(now rewrite M) (or_introl O))
    as [h [hb [ha [iv [key [dm [l [tr [log [AH [E1 [_ [_ [_ [_ E]]]]]]]]]]]]]]].
  destruct (E L) as [E2 _]. rewrite A in E2. injection E2 as E2.
  exists toy_cr, ops, w, h, hb, ha, (body_wire l ++ tr). destruct AH.
  split; [exact toy_sizes|]. repeat (split; auto). rewrite <- E2. cbn. auto.
Qed.

(** process_full after the size was declared: fails without touching the buffer. *)
Lemma C28_witness : exists cr ops w e cap input w' r x, crypto_sizes cr /\ history cr M_ENCRYPT ops w /\ bytes_ok input /\
  s_state (w_s w) = ST_CONFIG /\ exec cr w (OProcessFull e cap input) = (w', r) /\ o_rc r = PErr x /\ o_mem r <> zeros cap.
Proof.
  exists toy_cr, [OSetSize 0 3]. eexists. exists (toy_env 0x0578), 10, [1; 2; 3]. eexists. eexists. eexists.
  split; [exact toy_sizes|]. split; [apply toy_history; vm_compute; reflexivity|].
  split; [bytes|]. split; [reflexivity|]. split; [vm_compute; reflexivity|]. split; [reflexivity|discriminate].
Qed.

(** A decryption changes the frame size that reset keeps for encryption. *)
Lemma C31_witness : exists cr ops w n, crypto_sizes cr /\
  history cr M_ENCRYPT ([OSetFrame n] ++ ops ++ [OReset M_ENCRYPT]) w /\
  (forall k, ~ In (OSetFrame k) ops) /\ s_fsize (w_s w) <> n.
Proof.
  exists toy_cr, [OReset M_DECRYPT; OSetPolicy CP_FORBID_ALLOW; OProcess (toy_env 0x0378) 1000 (w_out (toy_enc 0x0378 4 CP_FORBID_ALLOW))].
  eexists. exists 4096. split; [exact toy_sizes|]. split; [apply toy_history; vm_compute; reflexivity|].
  split; [cbn; intuition discriminate|vm_compute; discriminate].
Qed.

(** An encrypted data key of 65536 bytes is written with length field 0. *)
Definition C56_env : env := mk_env false false
  (fun rq => (rq_ctx rq, Ok (mk_enc_mat (toy_key 0x0478) [] [mk_edk [107] [1] (zeros 65536)] None 0x0478)))
  (fun rq => Err E_OOM) (fun n => Some (repeat 7 (N.to_nat n))) (fun sc => Err E_OOM) 0.
Definition C56_ops : list op := [OSetSize 0 3; OProcess C56_env 70000 [1; 2; 3]].
Lemma C56_witness : exists cr ops w, crypto_sizes cr /\ history cr M_ENCRYPT ops w /\ is_done (w_s w) = true /\
  hdr_parse 0 (w_out w) = Err E_BAD_CIPHERTEXT.
Proof.
  exists toy_cr, C56_ops. eexists. split; [exact toy_sizes|]. split; [apply toy_history; vm_compute; reflexivity|].
  split; vm_compute; reflexivity.
Qed.
