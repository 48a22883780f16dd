(** What the properties of memory say, in terms of the blocks that are allocated. *)
From Coq Require Import List Bool PeanoNat Permutation.
Import ListNotations.
From Verif Require Import MemModel.

(** A world answers every question: the [n]-th question is of sort [s]. *)
Definition world := nat -> site -> bool.

(** Nothing is allocated yet. *)
Definition started (w : world) : mem := mk_mem [] 0 0 w [].

(** The world never lets these fail. *)
Definition never (w : world) (l : list site) : Prop := Forall (fun s => forall n, w n s = false) l.

(** The sites at which a failure is known not to be cleaned up. *)
Definition session_sites : list site := [STransfer; SParse; SBigNum; SPem; SChild; SRaii].
Definition caching_sites : list site := [SPem; SChild; SPart].

(** Blocks have different names, and names are never used twice. *)
Definition well_formed (m : mem) : Prop :=
  NoDup (map c_id (m_live m)) /\ forall c, In c (m_live m) -> c_id c < m_next m.

(** The program has no undefined behaviour and leaves nothing allocated. *)
Definition leaves_nothing {A} (c : M A) (w : world) : Prop :=
  exists m a, c (started w) = Some (m, a) /\ m_live m = [].

(** A function that makes something: whatever is allocated at the start, it has no undefined behaviour, touches nothing of what
    was there, and if it fails, it leaves the memory as it was. *)
Definition fails_clean {A} (c : M (option A)) (w : world) : Prop :=
  forall m, well_formed m -> m_env m = w ->
  exists m' o, c m = Some (m', o) /\
    (forall b, In b (m_live m) -> In b (m_live m')) /\
    (o = None -> Permutation (m_live m') (m_live m)).

(** How many blocks hold key material. *)
Definition secrets (l : list cell) : nat := length (filter c_secret l).

(** How many private keys a keyring made by this recipe has. *)
Fixpoint keys (r : recipe) : nat :=
  match r with
  | RAes => 1
  | RRsa priv _ => if priv then 1 else 0
  | RKms _ _ => 0
  | RMulti gen kids =>
      match gen with None => 0 | Some g => keys g end +
      (fix go (l : list recipe) : nat := match l with [] => 0 | x :: r => keys x + go r end) kids
  end.

(** Does the client ever encrypt, decrypt. *)
Definition directs (d enc : bool) (ops : list mop) : bool :=
  Bool.eqb enc d || existsb (fun o => match o with OReset e => Bool.eqb e d | _ => false end) ops.
(** Where key material may be given back unerased. *)
Definition may_spill (enc : bool) (ops : list mop) : list place :=
  (if directs true enc ops then [PAesKey; PRsaKey; PKmsKey] else []) ++ (if directs false enc ops then [PLocalKey] else []).

(** Nothing has been processed since the session was made or reset. *)
Definition rested (ops : list mop) : Prop := ops = [] \/ exists before e, ops = before ++ [OReset e].

(** Nothing but [s] fails; conditions on data may go either way. *)
Definition only (s : site) (w : world) : Prop := forall n s', s' <> s -> s' <> SCond -> w n s' = false.

(** Something is still allocated at the end. *)
Definition leaks {A} (c : M A) (w : world) : Prop := exists m a, c (started w) = Some (m, a) /\ m_live m <> [].

(** Key material is given back unerased at [p] in some life. *)
Definition spills (p : place) : Prop :=
  exists r via enc ops w m a,
    never w session_sites /\ life r via enc ops (started w) = Some (m, a) /\ In p (m_spilled m).
