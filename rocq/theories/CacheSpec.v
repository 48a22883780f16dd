(** Specification vocabulary for the materials cache: histories of operations, who holds which
    handle, recency of use. *)
From Verif Require Import Base EncCtxModel HdrModel CryptoModel SessionModel CacheModel.

(** A history of operations with their results, oldest first, executed one after the other by any
    number of users, under any behaviour of the environment that satisfies [P]. *)
Inductive runs (io : sigio) (P : choice -> Prop) (c0 : cache) : list (cop * resp) -> cache -> Prop :=
| runs_nil : runs io P c0 [] c0
| runs_step : forall h c o ch c' r,
    runs io P c0 h c -> P ch -> cstep io ch o c = Some (c', r) -> runs io P c0 (h ++ [(o, r)]) c'.

(** The entry an operation works on. *)
Definition uses (o : cop) : option nat :=
  match o with
  | KCheck p | KAddBytes p _ | KAddMsgs p _ | KGetEnc p _ | KGetDec p | KCreated p | KHint p _
  | KRelease p _ => Some p
  | KFind _ | KPutEnc _ _ _ _ _ | KPutDec _ _ | KClear | KCount => None
  end.

(** The handle an operation hands out, and the handle it gives back. *)
Definition hands_out (x : cop * resp) : option nat :=
  match snd x with
  | RFound (Some (p, _)) => Some p
  | RPut (Some p) => Some p
  | _ => None
  end.
Definition gives_back (x : cop * resp) : option nat :=
  match x with (KRelease p _, RUnit) => Some p | _ => None end.

Definition is_some_eq (o : option nat) (p : nat) : bool :=
  match o with Some q => Nat.eqb q p | None => false end.
Definition acquired (h : list (cop * resp)) (p : nat) : nat :=
  length (filter (fun x => is_some_eq (hands_out x) p) h).
Definition released (h : list (cop * resp)) (p : nat) : nat :=
  length (filter (fun x => is_some_eq (gives_back x) p) h).
(** Some user holds a handle to [p]. *)
Definition held (h : list (cop * resp)) (p : nat) : Prop := (released h p < acquired h p)%nat.

(** The contract of the callers: an operation on an entry is only made with a handle. *)
Definition legal (h : list (cop * resp)) : Prop :=
  forall h1 o r h2, h = h1 ++ (o, r) :: h2 -> forall p, uses o = Some p -> held h1 p.

(** [p] is in the cache under [id]. *)
Definition live (c : cache) (id : list N) (p : nat) : Prop := In (id, p) (c_map c).

(** [q]'s last find or put is older than some find or put of [r]. *)
Definition older (h : list (cop * resp)) (q r : nat) : Prop :=
  exists h1 x h2, h = h1 ++ x :: h2 /\ hands_out x = Some r /\ r <> q
                  /\ forall y, In y h2 -> hands_out y <> Some q.

(** The id under which a put operation stores. *)
Definition put_id (o : cop) : option (list N) :=
  match o with KPutEnc _ _ _ _ id => Some id | KPutDec _ id => Some id | _ => None end.
