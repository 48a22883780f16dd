(** Reference counting of CMMs, keyrings and materials caches: include/aws/cryptosdk/materials.h 301-362, 449-466, 602-622,
    cache.h 492-515, the destructors default_cmm.c 152-156, multi_keyring.c 129-144, caching_cmm.c 52-59, session.c 138-151, and
    the constructors default_cmm.c 166-179, multi_keyring.c 151-170, 180-190, caching_cmm.c 163-203, session.c 104-136.

    Threads are interleaved at every atomic access and every access of an object.  Simplifications: the machine is sequentially
    consistent (the acquire/release annotations of lines 326 and 356 are not modelled); an object is its counter and the list of
    the objects it holds references on; every other access is [RUse].  A session is not counted in C; here it is an object with
    the single reference of its creator.  Releasing a null pointer does nothing and is left out. *)
From Verif Require Import Base.
From Coq Require Import Arith.
Import List.
Open Scope list_scope.

(** The counter; [false] once the memory is released; the objects it refers to. *)
Record obj := mk_obj { ob_count : N; ob_alive : bool; ob_kids : list nat }.

(** What a thread still has to do within its current call.  [AAttach p k ok]: retain [k], then store it in [p]; storing fails if
    [ok] is [false] (aws_array_list_push_back in aws_cryptosdk_multi_keyring_add_child). *)
Inductive act := ADown (o : nat) | ADestroy (o : nat) | AFree (o : nat) | AAttach (p k : nat) (ok : bool).

(** [ms_todo]: pending actions of all threads, in order for each thread.  [ms_log]: destructors called so far.  [ms_leaked]:
    references taken and not stored anywhere; both are observations, the code never reads them. *)
Record mstate := mk_ms { ms_heap : list obj; ms_todo : list (nat * act); ms_log : list nat; ms_leaked : list nat }.

(** One access by thread [t].  [RNew]: a constructor whose object will hold references on [kids], the creator has the first
    reference.  [RUse]: any access to these objects.  [RSend]: the caller's reference passes to thread [t'].  [RMove]: the caller's
    reference on [k] becomes that of [p] without counting (session.c 131).  [RStep]: the next pending action. *)
Inductive revent :=
| RNew (t : nat) (kids : list nat)
| RRetain (t o : nat)
| RRelease (t o : nat)
| RUse (t : nat) (os : list nat)
| RSend (t t' o : nat)
| RMove (t p k : nat)
| RAdd (t p k : nat) (ok : bool)
| RStep (t : nat).

(** [RBad]: an object was accessed after its memory was released.  [RAssert]: one of the assertions failed.  [RNone]: there is no
    pending action. *)
Inductive routcome := RNext (s : mstate) | RBad | RAssert | RNone.

Fixpoint upd {A} (l : list A) (i : nat) (x : A) : list A :=
  match l, i with
  | [], _ => []
  | _ :: r, O => x :: r
  | y :: r, S j => y :: upd r j x
  end.

Definition live (h : list obj) (o : nat) : option obj :=
  match nth_error h o with Some ob => if ob_alive ob then Some ob else None | None => None end.

Inductive counted := CBad | CAssert | COk (h : list obj) (old : N).

(** aws_cryptosdk_private_refcount_up, materials.h 336-362 *)
Definition refcount_up (h : list obj) (o : nat) : counted :=
  match live h o with
  | None => CBad
  | Some ob =>
      if (ob_count ob =? 0) || (ob_count ob =? UINT64_MAX) then CAssert
      else COk (upd h o (mk_obj (add64 (ob_count ob) 1) true (ob_kids ob))) (ob_count ob)
  end.

(** aws_cryptosdk_private_refcount_down, materials.h 301-331 *)
Definition refcount_down (h : list obj) (o : nat) : counted :=
  match live h o with
  | None => CBad
  | Some ob =>
      if ob_count ob =? 0 then CAssert
      else COk (upd h o (mk_obj (sub64 (ob_count ob) 1) true (ob_kids ob))) (ob_count ob)
  end.

(** The new heap, what the thread does next, destructors called and references lost. *)
Inductive aresult := ABad | AAssert | ADone (h : list obj) (next : list act) (log leaked : list nat).

Definition run_act (h : list obj) (a : act) : aresult :=
  match a with
  | ADown o =>                                    (* materials.h 451, 604; cache.h 503 *)
      match refcount_down h o with
      | CBad => ABad | CAssert => AAssert
      | COk h' old => ADone h' (if old =? 1 then [ADestroy o] else []) [] []
      end
  | ADestroy o =>                                 (* the destructors: release what the object holds, then its memory *)
      match live h o with
      | None => ABad
      | Some ob => ADone (upd h o (mk_obj (ob_count ob) true [])) (map ADown (ob_kids ob) ++ [AFree o]) [o] []
      end
  | AFree o =>
      match live h o with
      | None => ABad
      | Some ob => ADone (upd h o (mk_obj (ob_count ob) false (ob_kids ob))) [] [] []
      end
  | AAttach p k ok =>
      match refcount_up h k with
      | CBad => ABad | CAssert => AAssert
      | COk h' _ =>
          match live h' p with
          | None => ABad
          | Some ob => if ok then ADone (upd h' p (mk_obj (ob_count ob) true (ob_kids ob ++ [k]))) [] [] []
                       else ADone h' [] [] [k]
          end
      end
  end.

(** The first pending action of thread [t]: what is before it, the action, what is after it. *)
Fixpoint next_of (t : nat) (l : list (nat * act)) : option (list (nat * act) * act * list (nat * act)) :=
  match l with
  | [] => None
  | (t', a) :: r =>
      if Nat.eqb t' t then Some ([], a, r)
      else match next_of t r with Some (l1, b, l2) => Some ((t', a) :: l1, b, l2) | None => None end
  end.

Definition mstep (s : mstate) (e : revent) : routcome :=
  match e with
  | RNew t kids =>
      let n := length (ms_heap s) in
      RNext (mk_ms (ms_heap s ++ [mk_obj 1 true []]) (ms_todo s ++ map (fun k => (t, AAttach n k true)) kids) (ms_log s) (ms_leaked s))
  | RRetain t o =>
      match refcount_up (ms_heap s) o with
      | CBad => RBad | CAssert => RAssert
      | COk h _ => RNext (mk_ms h (ms_todo s) (ms_log s) (ms_leaked s))
      end
  | RRelease t o => RNext (mk_ms (ms_heap s) (ms_todo s ++ [(t, ADown o)]) (ms_log s) (ms_leaked s))
  | RUse t os => if forallb (fun o => match live (ms_heap s) o with Some _ => true | None => false end) os then RNext s else RBad
  | RSend t t' o => RNext s
  | RMove t p k =>
      match live (ms_heap s) p with
      | None => RBad
      | Some ob => RNext (mk_ms (upd (ms_heap s) p (mk_obj (ob_count ob) true (ob_kids ob ++ [k]))) (ms_todo s) (ms_log s) (ms_leaked s))
      end
  | RAdd t p k ok => RNext (mk_ms (ms_heap s) (ms_todo s ++ [(t, AAttach p k ok)]) (ms_log s) (ms_leaked s))
  | RStep t =>
      match next_of t (ms_todo s) with
      | None => RNone
      | Some (l1, a, l2) =>
          match run_act (ms_heap s) a with
          | ABad => RBad | AAssert => RAssert
          | ADone h next log leaked => RNext (mk_ms h (l1 ++ map (pair t) next ++ l2) (ms_log s ++ log) (ms_leaked s ++ leaked))
          end
      end
  end.

Definition ms_init : mstate := mk_ms [] [] [] [].
