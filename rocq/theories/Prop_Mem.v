(** C73: allocation and release.  C74: key material in memory.
    Specification: MemSpec.v.  Example data: MemExamples.v. *)
From Coq Require Import List Bool PeanoNat.
Import ListNotations.
From Verif Require Import MemModel MemSpec MemTop MemExamples.

(** ** C73 *)
(** A session is made on a keyring, used in any way for any messages in both directions, and destroyed: whatever fails on the way
    except at the six sites in [session_sites], nothing is released twice or used after release, and nothing stays allocated.
    Missing: the failures at those sites; there the claim is false (below). *)
Theorem C73_session_life_partial : forall w r via enc ops,
  never w session_sites -> leaves_nothing (life r via enc ops) w.
Proof. exact life_leaves_nothing. Qed.
Print Assumptions C73_session_life_partial.
Example C73_session_life_ex :
  never good session_sites /\
  match use RAes false true whole (started good) with
  | Some (m, Some s) => s_stage s = GDone /\ length (m_live m) = 19 /\ m_next m = 39
  | _ => False
  end /\
  forallb (fun n => match life RAes true true whole (started (fun k s => at_times SAlloc [n] k s || good k s)) with
                    | Some (m, _) => match m_live m with [] => true | _ => false end
                    | None => false
                    end) (seq 0 100) = true /\
  forallb (fun n => match life clouds true true whole (started (at_times SCall [n])) with
                    | Some (m, _) => match m_live m with [] => true | _ => false end
                    | None => false
                    end) (seq 0 100) = true.
Proof. split; [repeat constructor|]. vm_compute. auto. Qed.

(** The same for a caching CMM made on a keyring and on a cache of the client's. *)
Theorem C73_caching_cmm_life_partial : forall w r named,
  never w caching_sites -> leaves_nothing (caching_life r named) w.
Proof. exact caching_life_leaves_nothing. Qed.
Print Assumptions C73_caching_cmm_life_partial.
Example C73_caching_cmm_life_ex :
  never good caching_sites /\
  match caching_life (RRsa true false) true (started good) with Some (m, _) => m_next m = 10 | None => False end.
Proof. split; [repeat constructor|]. vm_compute. auto. Qed.

(** A constructor that fails leaves the memory as it was, whatever else is allocated; one that succeeds leaves alone what was
    there. *)
Theorem C73_failed_constructors : forall w,
  fails_clean raw_aes_keyring_new w /\ fails_clean enc_materials_new w /\ fails_clean dec_materials_new w /\
  fails_clean sign_start_keygen w /\ fails_clean verify_start w /\ fails_clean hdr_init w /\
  (forall enc, fails_clean (session_new enc) w) /\
  (forall priv pub, never w [SPem] -> fails_clean (raw_rsa_keyring_new priv pub) w) /\
  (forall priv, fails_clean (raw_rsa_keyring_new priv false) w) /\
  fails_clean (multi_keyring_new None) w.
Proof. exact constructors. Qed.
Print Assumptions C73_failed_constructors.
Example C73_failed_constructors_ex :
  let m := mk_mem [mkc 4 true 0; mkc 7 false 2] 9 0 (fun n s => at_times SAlloc [5] n s) [] in
  well_formed m /\
  match raw_aes_keyring_new m with Some (m', None) => m_live m' = m_live m /\ m_next m' = 11 | _ => False end.
Proof.
  split.
  - split; [repeat constructor; cbn; intuition discriminate|]. cbn. intros c [<-|[<-|[]]]; cbn; repeat constructor.
  - vm_compute. auto.
Qed.

(** A list that cannot grow in aws_cryptosdk_transfer_list: EDKs that were already moved are released twice. *)
Theorem C73_transfer_double_free_refuted :
  exists r via enc ops w, only STransfer w /\ life r via enc ops (started w) = None.
Proof. exact transfer_double_free. Qed.
Print Assumptions C73_transfer_double_free_refuted.

(** A list that cannot grow while the header is parsed: the EDK just read is lost. *)
Theorem C73_parse_edks_leak_refuted : exists r via enc ops w, only SParse w /\ leaks (life r via enc ops) w.
Proof. exact parse_leak. Qed.
Print Assumptions C73_parse_edks_leak_refuted.

(** The private PEM string of a raw RSA keyring cannot be copied: the public one is lost. *)
Theorem C73_rsa_keyring_leak_refuted : exists r via enc ops w, only SPem w /\ leaks (life r via enc ops) w.
Proof. exact pem_leak. Qed.
Print Assumptions C73_rsa_keyring_leak_refuted.

(** A child cannot be added to a multi-keyring: it is never released. *)
Theorem C73_add_child_leak_refuted : exists r via enc ops w, only SChild w /\ leaks (life r via enc ops) w.
Proof. exact child_leak. Qed.
Print Assumptions C73_add_child_leak_refuted.

(** One of the two numbers of a signature of the wrong length cannot be copied: the other copy is lost. *)
Theorem C73_sign_finish_leak_refuted : exists r via enc ops w, only SBigNum w /\ leaks (life r via enc ops) w.
Proof. exact bignum_leak. Qed.
Print Assumptions C73_sign_finish_leak_refuted.

(** The structure of a caching CMM cannot be allocated: its partition id is lost. *)
Theorem C73_partition_id_leak_refuted : exists r named w, only SPart w /\ leaks (caching_life r named) w.
Proof. exact partition_leak. Qed.
Print Assumptions C73_partition_id_leak_refuted.

(** The KMS keyrings' list guard (cpp/aws/cryptosdk/private/cpputils.h) has no initial value for its flag: if its list cannot be
    made, its destructor reads a value that nothing has set. *)
Theorem C73_kms_list_refuted :
  exists r via enc ops w, only SRaii w /\ life r via enc ops (started w) = None.
Proof. exact raii_undefined. Qed.
Print Assumptions C73_kms_list_refuted.

(** ** C74 *)
(** Key material is overwritten before the block that holds it is given back, at all places but four: three when encrypting, one
    when decrypting.  Missing: those four places; there the claim is false (below). *)
Theorem C74_erased_elsewhere_partial : forall w r via enc ops,
  never w session_sites ->
  exists m a, life r via enc ops (started w) = Some (m, a) /\ forall p, In p (m_spilled m) -> In p (may_spill enc ops).
Proof. exact life_spills. Qed.
Print Assumptions C74_erased_elsewhere_partial.
Example C74_erased_elsewhere_ex :
  never good session_sites /\ may_spill true whole = [PAesKey; PRsaKey; PKmsKey] /\
  may_spill false whole = [PLocalKey] /\ may_spill false both = [PAesKey; PRsaKey; PKmsKey; PLocalKey] /\
  match life RAes false true whole (started good) with Some (m, _) => m_spilled m = [] /\ m_next m = 39 | None => False end /\
  match life RAes true false both (started (always SGrow)) with Some (m, _) => m_spilled m = [PLocalKey] | None => False end /\
  filter (fun n => match life clouds true true whole (started (at_times SCall [n])) with
                   | Some (m, _) => negb (match m_spilled m with [] => true | _ => false end)
                   | None => true
                   end) (seq 0 100) = [40; 51].
Proof. split; [repeat constructor|]. vm_compute. auto 10. Qed.

(** Between calls, key material is held only by the keyrings (one block for each private key) and by at most one more block, the
    session structure; when the session has just been made or reset, only by the keyrings. *)
Theorem C74_keys_held : forall w r via enc ops,
  never w session_sites ->
  exists m o, use r via enc ops (started w) = Some (m, o) /\
    (o = None -> m_live m = []) /\
    (o <> None -> secrets (m_live m) <= keys r + 1) /\
    (o <> None -> rested ops -> secrets (m_live m) = keys r).
Proof. exact use_holds. Qed.
Print Assumptions C74_keys_held.
Example C74_keys_held_ex :
  let r := RMulti (Some RAes) [RRsa true true; RRsa false true] in
  keys r = 2 /\ rested [round; round; OReset false] /\
  match use r true true [round; round] (started (always SGrow)) with
  | Some (m, Some s) => s_stage s = GWriteHeader /\ secrets (m_live m) = 3
  | _ => False
  end /\
  match use r true true [round; round; OReset false] (started (always SGrow)) with
  | Some (m, Some s) => s_stage s = GConfig /\ secrets (m_live m) = 2
  | _ => False
  end.
Proof.
  split; [reflexivity|]. split; [right; exists [round; round], false; reflexivity|]. vm_compute. auto.
Qed.

(** raw_aes_keyring.c 173: the new data key is given back as it is if it cannot be encrypted. *)
Theorem C74_raw_aes_refuted : spills PAesKey.
Proof. exact aes_spills. Qed.
Print Assumptions C74_raw_aes_refuted.

(** raw_rsa_keyring.c 95: likewise. *)
Theorem C74_raw_rsa_refuted : spills PRsaKey.
Proof. exact rsa_spills. Qed.
Print Assumptions C74_raw_rsa_refuted.

(** kms_keyring.cpp 298 and kms_mrk_keyring.cpp 605: the data key that KMS made is given back as it is if a call for a later key
    fails. *)
Theorem C74_kms_refuted : spills PKmsKey.
Proof. exact kms_spills. Qed.
Print Assumptions C74_kms_refuted.

(** session_decrypt.c 80: the copy of the data key on the stack is never overwritten. *)
Theorem C74_decrypt_local_refuted : spills PLocalKey.
Proof. exact local_spills. Qed.
Print Assumptions C74_decrypt_local_refuted.
