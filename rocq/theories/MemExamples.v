(** Example lives for the theorems about memory. *)
From Coq Require Import List Bool PeanoNat.
Import ListNotations.
From Verif Require Import MemModel MemSpec MemTop.

(** Nothing fails; the message is signed (the question 17, the suite of the default CMM, is answered with yes) and one frame is
    enough (question 82). *)
Definition good : world := at_times SCond [17; 82].
Definition whole : list mop := [round; round; round; round; round; round].

(** KMS keyrings beside a raw one. *)
Definition clouds : recipe := RMulti (Some (RKms true 3)) [RKms false 2; RAes; RKms false 0].

(** A message is decrypted up to its last frame, the session is reset and used to encrypt. *)
Definition both : list mop := [round; round; round; OReset true; round; round].
