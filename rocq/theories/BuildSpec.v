(** What a call that builds a keyring should leave behind. *)
From Verif Require Import Base KmsModel RefModel RefSpec BuildModel.
From Coq Require Import Arith.
Import List.
Open Scope list_scope.
Open Scope nat_scope.

(** The accesses [es], all lawful, lead from one state to another. *)
Inductive runs : mstate -> owners -> list revent -> mstate -> owners -> Prop :=
| runs_nil : forall s ow, runs s ow [] s ow
| runs_cons : forall s ow e s1 es s2 ow2, lawful s ow e -> mstep s e = RNext s1 -> runs s1 (owns s ow e) es s2 ow2 ->
    runs s ow (e :: es) s2 ow2.

(** No object that was there has changed. *)
Definition untouched (s s' : mstate) : Prop := forall o, created s o -> nth_error (ms_heap s') o = nth_error (ms_heap s) o.
(** Objects made since [s]. *)
Definition new_object (s s' : mstate) (o : nat) : Prop := created s' o /\ ~ created s o.

(** A call of one of the builders: the accesses and the keyring returned, if any, and how many keyrings it should contain. *)
Inductive builder_call (b base : nat) : list revent -> option nat -> nat -> Prop :=
| call_multi : forall client grants alloc gen ids es r, mrk_multi_ev client grants alloc gen ids b base = (es, r) ->
    builder_call b base es r ((match gen with Some _ => 1 | None => 0 end) + length ids)
| call_discovery : forall client grants f alloc regions es r, mrk_discovery_ev client grants f alloc regions b base = (es, r) ->
    builder_call b base es r (length regions).
