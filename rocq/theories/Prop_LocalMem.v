(** C79: memory of the local cache and of the methods of the caching CMM.
    Specification: MemSpec.v, LocalMemSpec.v. *)
From Coq Require Import List Bool PeanoNat.
Import ListNotations.
From Verif Require Import MemModel MemSpec MemTop LocalMemModel LocalMemSpec LocalMemTop.

(** A message is encrypted with signed materials, which are cached, and another with the cached ones; three are decrypted, so that
    an entry has to go; entries are looked for and used, materials are put in the place of other ones, the cache is cleared, and
    entries are used that are no longer in it. *)
Definition busy : list lop :=
  [LGenerate 2 0 9; LGenerate 2 0 9; LDecrypt 1 2 9 9; LDecrypt 1 2 9 9; LDecrypt 1 2 9 9; LFind 0; LHint 0; LGetDec 0; LFind 1;
   LPutEnc 0 1 1; LClear; LGetDec 1; LRelease 0 true].
Definition calm : world := at_times SCond [50; 86].

(** A client makes a keyring of any shape, a local cache and a caching CMM on them; uses the CMM and the cache in any way, holding
    entries and materials as long as it likes; and releases everything, the cache and the CMM in either order.  Whatever fails on
    the way except at the eight sites in [local_sites], nothing is released twice or used after release, no assertion of the cache
    fails, its mutex is never locked twice, and nothing stays allocated.
    Missing: the failures at those sites; at three of them the claim is false (below), at the others by C73. *)
Theorem C79_local_life_partial : forall w r capacity named cmm_first ops,
  never w local_sites -> leaves_nothing (local_life r capacity named cmm_first ops) w.
Proof. intros w r capacity named cmm_first ops N. exact (local_life_leaves_nothing w N r capacity named cmm_first ops). Qed.
Print Assumptions C79_local_life_partial.
Example C79_local_life_ex :
  never calm local_sites /\
  match local_use RAes 2 false (firstn 10 busy) (started calm) with
  | Some (m, Some c) =>
      length (v_els (z_cache c)) = 2 /\ length (v_all (z_cache c)) = 3 /\ length (v_ttl (z_cache c)) = 1 /\
      length (z_hands c) = 3 /\ length (z_encs c) = 2 /\ length (z_decs c) = 4 /\ length (m_live m) = 85
  | _ => False
  end /\
  forallb (fun n => match local_life RAes 2 false true busy (started (fun k s => at_times SAlloc [n] k s || calm k s)) with
                    | Some (m, _) => match m_live m with [] => true | _ => false end
                    | None => false
                    end) (seq 60 40 ++ seq 480 40) = true.
Proof. split; [repeat constructor|]. vm_compute. repeat split. Qed.

(** Key material is overwritten before the block that holds it is given back, except where the keyrings make new data keys (C74). *)
Theorem C79_erased_elsewhere_partial : forall w r capacity named cmm_first ops,
  never w local_sites ->
  exists m a, local_life r capacity named cmm_first ops (started w) = Some (m, a) /\
              forall p, In p (m_spilled m) -> In p (local_spill ops).
Proof. intros w r capacity named cmm_first ops N. exact (local_life_spills w N r capacity named cmm_first ops). Qed.
Print Assumptions C79_erased_elsewhere_partial.
Example C79_erased_elsewhere_ex :
  never calm local_sites /\ local_spill busy = [PAesKey; PRsaKey; PKmsKey] /\ local_spill (skipn 2 busy) = [] /\
  match local_life RAes 2 false false busy (started calm) with Some (m, _) => m_spilled m = [] /\ 200 < m_next m | None => False end.
Proof. split; [repeat constructor|]. vm_compute. split; [reflexivity|]. split; [reflexivity|]. split; [reflexivity|]. repeat constructor. Qed.

(** Between calls, key material is held only by the keyrings (one block for each private key), by the materials that the client has
    (at most one block each) and by the entries that are allocated (at most two each: a data key and a signing key).  Once the cache
    is cleared, those entries are only the ones that the client holds; if it holds none and no materials, only the private keys of
    the keyrings are left. *)
Theorem C79_keys_held : forall w r capacity named ops,
  never w local_sites ->
  exists m o, local_use r capacity named ops (started w) = Some (m, o) /\
    (o = None -> m_live m = []) /\
    forall c, o = Some c ->
      keys r <= secrets (m_live m) /\
      secrets (m_live m) <= keys r + length (z_encs c) + length (z_decs c) + 2 * length (v_all (z_cache c)) /\
      (cleared ops -> secrets (m_live m) <= keys r + length (z_encs c) + length (z_decs c) + 2 * length (z_hands c)) /\
      (cleared ops -> idle c -> secrets (m_live m) = keys r).
Proof. intros w r capacity named ops N. exact (local_use_holds w N r capacity named ops). Qed.
Print Assumptions C79_keys_held.
Example C79_keys_held_ex :
  let ops := [LGenerate 2 0 9; LGenerate 2 0 9; LDropEnc 0; LDropEnc 0] in
  never calm local_sites /\ cleared (ops ++ [LClear]) /\
  match local_use RAes 2 false ops (started calm) with
  | Some (m, Some c) => length (v_all (z_cache c)) = 1 /\ idle c /\ secrets (m_live m) = 3
  | _ => False
  end /\
  match local_use RAes 2 false (ops ++ [LClear]) (started calm) with
  | Some (m, Some c) => idle c /\ secrets (m_live m) = 1
  | _ => False
  end.
Proof.
  split; [repeat constructor|]. split; [eexists; reflexivity|]. vm_compute. repeat split.
Qed.

(** hash_enc_request, caching_cmm.c 275-277: if the second hash context cannot be made, the first one is lost. *)
Theorem C79_hash_leak_refuted : exists r cap named first ops w, only SSecondMd w /\ leaks (local_life r cap named first ops) w.
Proof. exact second_md_leak. Qed.
Print Assumptions C79_hash_leak_refuted.

(** hash_dec_request, caching_cmm.c 432-441: if an EDK cannot be hashed, a hash context that is gone is released again. *)
Theorem C79_hash_double_free_refuted :
  exists r cap named first ops w, only SEdkHash w /\ local_life r cap named first ops (started w) = None.
Proof. exact edk_hash_double_free. Qed.
Print Assumptions C79_hash_double_free_refuted.

(** release_entry, local_cache.c 832: if the mutex cannot be locked, the reference on the entry is never given up. *)
Theorem C79_release_leak_refuted : exists r cap named first ops w, only SLock w /\ leaks (local_life r cap named first ops) w.
Proof. exact lock_leak. Qed.
Print Assumptions C79_release_leak_refuted.

(** clear_cache, local_cache.c 871: if the mutex cannot be locked, nothing is cleared, and the caller cannot see that. *)
Theorem C79_clear_refuted :
  exists r cap named ops w m c,
    only SLock w /\ local_use r cap named ops (started w) = Some (m, Some c) /\
    cleared ops /\ idle c /\ keys r < secrets (m_live m).
Proof. exact clear_does_nothing. Qed.
Print Assumptions C79_clear_refuted.
