(** C83: what may be left of key material when a function returns. *)
From Verif Require Import Base.
From Coq Require Import ZArith String.
Import List.
Open Scope list_scope.
Open Scope N_scope.

(** The array [name] of [n] bytes, all of them 0. *)
Definition wiped (name : string) (n : nat) : string * list N := (name, repeat 0 n).
(** Nothing is left in any of the arrays. *)
Definition nothing_left (l : list (string * list N)) : Prop := forall name a b, In (name, a) l -> In b a -> b = 0.
(** A number released without a trace. *)
Definition no_number_left (l : list (string * option Z)) : Prop := forall name v, In (name, v) l -> v = None.
