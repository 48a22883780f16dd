(** Which references the builders of MRK-aware multi-keyrings take and give back: MultiKeyringBuilder::_Build,
    kms_mrk_keyring.cpp 754-893, and BuildDiscovery, 897-975, as sequences of the accesses of RefModel.v, and the keyrings BuildDiscovery
    puts together.

    The builder's call is thread [b]; references on the keyrings it makes are owned by [b] until it gives them back or passes them on.
    Each keyring it makes is an object of its own without references.  Simplification: appending to the list of children succeeds (a
    failure leaks a reference, see C55). *)
From Verif Require Import Base KmsModel RefModel.
From Coq Require Import Arith.
Import List.
Open Scope list_scope.
Open Scope nat_scope.

(** Release of keyring [o] and [n] accesses that this entails. *)
Definition release_ev (b o n : nat) : list revent := RRelease b o :: repeat (RStep b) n.

(** The loop over the children, lines 844-870 and 938-955: [oks] says for each child whether its client and keyring could be made.
    The keyrings get the numbers [next], [next + 1], ... *)
Fixpoint children_ev (b m next : nat) (oks : list bool) : list revent * nat * bool :=
  match oks with
  | [] => ([], 0, true)
  | false :: _ => ([], 0, false)
  | true :: r => let '(es, n, ok) := children_ev b m (S next) r in
                 (RNew b [] :: RAdd b m next true :: RStep b :: es, S n, ok)
  end.

(** Lines 806-893 with [base] the number of the next object.  [gen]: [None] without generator, else whether its client and keyring could
    be made; [alloc]: whether aws_cryptosdk_multi_keyring_new succeeds.  The keyring returned, if any.  Destroying the multi-keyring takes
    three accesses, and three for each keyring in it. *)
Definition build_ev (b base : nat) (gen : option bool) (alloc : bool) (oks : list bool) : list revent * option nat :=
  match gen with
  | Some false => ([], None)
  | _ =>
      let gens := match gen with Some _ => [base] | None => [] end in
      let m := base + length gens in
      let make_gen := match gen with Some _ => [RNew b []] | None => [] end in
      if negb alloc then (make_gen ++ flat_map (fun g => release_ev b g 3) gens, None)
      else
        let '(es, n, ok) := children_ev b m (S m) oks in
        let made := make_gen ++ [RNew b gens] ++ repeat (RStep b) (length gens) ++ es in
        if ok then (made, Some m)
        else (made ++ flat_map (fun o => release_ev b o 1) (gens ++ seq (S m) n)
                   ++ release_ev b m (3 + 3 * (length gens + n)), None)
  end.

(** The children that MultiKeyringBuilder::_Build tries to make, lines 844-870 *)
Fixpoint child_oks (client : nat -> list N -> bool) (grants : list (list N)) (i : nat) (ids : list (list N)) : list bool :=
  match ids with
  | [] => []
  | id :: ids' => (negb (is_empty (parse_region id)) && client i (parse_region id)
                   && match mrk_build grants id with Some _ => true | None => false end)%bool :: child_oks client grants (S i) ids'
  end.
(** The checks of lines 738-786, the generator of 806-826, then the rest. *)
Definition mrk_multi_ev (client : nat -> list N -> bool) (grants : list (list N)) (alloc : bool) (gen : option (list N)) (ids : list (list N))
  (b base : nat) : list revent * option nat :=
  if match gen with Some g => is_empty g | None => false end then ([], None)
  else
    let all := match gen with Some g => g :: ids | None => ids end in
    if existsb is_empty ids then ([], None)
    else if match all with [] => true | _ => false end then ([], None)
    else if Nat.ltb 0 (length (find_duplicate_kms_mrk_ids all)) then ([], None)
    else build_ev b base
           (match gen with
            | None => None
            | Some g => Some (client 0 (parse_region g) && match mrk_build grants g with Some _ => true | None => false end)%bool
            end) alloc (child_oks client grants 1 ids).

(** MultiKeyringBuilder::BuildDiscovery, kms_mrk_keyring.cpp 897-975.  [regions] is a set: sorted, without repetitions. *)
Fixpoint discovery_children (client : nat -> list N -> bool) (grants : list (list N)) (f : option dfilter) (i : nat) (regions : list (list N))
  : option (list mrk) :=
  match regions with
  | [] => Some []
  | r :: rs =>
    if negb (client i r) then None
    else match mrk_build_discovery grants r f, discovery_children client grants f (S i) rs with
         | Some k, Some ks => Some (k :: ks)
         | _, _ => None
         end
  end.
Definition mrk_multi_discovery (client : nat -> list N -> bool) (grants : list (list N)) (f : option dfilter) (regions : list (list N)) : option (list mrk) :=
  match regions with
  | [] => None
  | _ => if existsb is_empty regions then None else discovery_children client grants f 0 regions
  end.
(** The references it takes and gives back. *)
Fixpoint discovery_oks (client : nat -> list N -> bool) (grants : list (list N)) (f : option dfilter) (i : nat) (regions : list (list N)) : list bool :=
  match regions with
  | [] => []
  | r :: rs => (client i r && match mrk_build_discovery grants r f with Some _ => true | None => false end)%bool
               :: discovery_oks client grants f (S i) rs
  end.
Definition mrk_discovery_ev (client : nat -> list N -> bool) (grants : list (list N)) (f : option dfilter) (alloc : bool) (regions : list (list N))
  (b base : nat) : list revent * option nat :=
  match regions with
  | [] => ([], None)
  | _ => if existsb is_empty regions then ([], None) else build_ev b base None alloc (discovery_oks client grants f 0 regions)
  end.
