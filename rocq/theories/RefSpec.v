(** Specification of reference counting: who owns which reference, what owners may do, all references on an object. *)
From Verif Require Import Base RefModel.
From Coq Require Import Arith.
Import List.
Open Scope list_scope.

(** References owned by threads: (thread, object). *)
Definition owners := list (nat * nat).

Fixpoint remove1 (x : nat * nat) (l : owners) : owners :=
  match l with
  | [] => []
  | y :: r => if (Nat.eqb (fst y) (fst x) && Nat.eqb (snd y) (snd x))%bool then r else y :: remove1 x r
  end.

(** Who owns what after the call. *)
Definition owns (s : mstate) (ow : owners) (e : revent) : owners :=
  match e with
  | RNew t _ => (t, length (ms_heap s)) :: ow
  | RRetain t o => (t, o) :: ow
  | RRelease t o => remove1 (t, o) ow
  | RSend t t' o => (t', o) :: remove1 (t, o) ow
  | RMove t p k => remove1 (t, k) ow
  | RUse _ _ | RAdd _ _ _ _ | RStep _ => ow
  end.

(** A thread can reach the objects it owns a reference on and those that a reachable object refers to. *)
Inductive reach (h : list obj) (ow : owners) (t : nat) : nat -> Prop :=
| reach_own : forall o, In (t, o) ow -> reach h ow t o
| reach_kid : forall p ob k, reach h ow t p -> nth_error h p = Some ob -> In k (ob_kids ob) -> reach h ow t k.

Definition idle (s : mstate) (t : nat) : Prop := forall a, ~ In (t, a) (ms_todo s).

(** What an owner may do: between calls, with objects it can reach; it gives away only what it owns. *)
Definition lawful (s : mstate) (ow : owners) (e : revent) : Prop :=
  match e with
  | RNew t kids => idle s t /\ forall k, In k kids -> reach (ms_heap s) ow t k
  | RRetain t o => idle s t /\ reach (ms_heap s) ow t o
  | RRelease t o => idle s t /\ In (t, o) ow
  | RUse t os => idle s t /\ forall o, In o os -> reach (ms_heap s) ow t o
  | RSend t t' o => idle s t /\ In (t, o) ow
  | RMove t p k => idle s t /\ In (t, k) ow /\ reach (ms_heap s) (remove1 (t, k) ow) t p
  | RAdd t p k _ => idle s t /\ reach (ms_heap s) ow t p /\ reach (ms_heap s) ow t k
  | RStep t => ~ idle s t
  end.

(** The states that lawful owners can get to, in any interleaving. *)
Inductive reachable : mstate -> owners -> Prop :=
| reachable_init : reachable ms_init []
| reachable_step : forall s ow e s', reachable s ow -> lawful s ow e -> mstep s e = RNext s' -> reachable s' (owns s ow e).

(** All references: owned by threads, held by objects, about to be released, lost. *)
Definition down_of (x : nat * act) : list nat := match snd x with ADown o => [o] | _ => [] end.
Definition references (s : mstate) (ow : owners) : list nat :=
  map snd ow ++ flat_map ob_kids (ms_heap s) ++ flat_map down_of (ms_todo s) ++ ms_leaked s.
Definition refs (s : mstate) (ow : owners) (o : nat) : nat := count_occ Nat.eq_dec (references s ow) o.

(** The destructor of [o] has been called or is about to be. *)
Definition doomed (s : mstate) (o : nat) : Prop := In o (ms_log s) \/ exists t, In (t, ADestroy o) (ms_todo s).

Definition created (s : mstate) (o : nat) : Prop := (o < length (ms_heap s))%nat.
Definition alive (s : mstate) (o : nat) : Prop := exists ob, nth_error (ms_heap s) o = Some ob /\ ob_alive ob = true.

(** Objects refer to older objects only. *)
Definition refers_to_older (s : mstate) : Prop := forall p ob k, nth_error (ms_heap s) p = Some ob -> In k (ob_kids ob) -> (k < p)%nat.

(** Only pending actions are carried out, by the threads [ts] in that order. *)
Inductive steps : mstate -> list nat -> mstate -> Prop :=
| steps_nil : forall s, steps s [] s
| steps_cons : forall s t s1 ts s2, ~ idle s t -> mstep s (RStep t) = RNext s1 -> steps s1 ts s2 -> steps s (t :: ts) s2.
