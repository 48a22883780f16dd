(** What the properties of the memory of the local cache say, beside [MemSpec]. *)
From Coq Require Import List Bool.
Import ListNotations.
From Verif Require Import MemModel MemSpec LocalMemModel.

(** The sites at which a failure is known not to be cleaned up. *)
Definition local_sites : list site := [STransfer; SPem; SChild; SPart; SSecondMd; SEdkHash; SLock; SRaii].

(** Where key material may be given back unerased: in the keyrings, when materials for encryption are made. *)
Definition local_spill (ops : list lop) : list place :=
  if existsb (fun o => match o with LGenerate _ _ _ => true | _ => false end) ops then [PAesKey; PRsaKey; PKmsKey] else [].

(** The cache has just been cleared. *)
Definition cleared (ops : list lop) : Prop := exists before, ops = before ++ [LClear].

(** The client has nothing in hand: no entries and no materials. *)
Definition idle (c : mclient) : Prop := z_hands c = [] /\ z_encs c = [] /\ z_decs c = [].
