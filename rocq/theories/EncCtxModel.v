(** Encryption context: source/enc_ctx.c, source/utils.c 19-48.

    A struct aws_hash_table from strings to strings is modelled as an association list; the list
    order is the (arbitrary) iteration order of the table.  Table invariant: [ctx_ok], keys are
    pairwise distinct.  Allocation failures are not modelled. *)
From Verif Require Import Base.

Definition enc_ctx := list (list N * list N).

Definition ctx_keys (c : enc_ctx) : list (list N) := map fst c.

(** aws_hash_table invariant: no two entries with equal keys. *)
Definition ctx_ok (c : enc_ctx) : Prop := NoDup (ctx_keys c).

(** aws_hash_table_find *)
Fixpoint ctx_find (k : list N) (c : enc_ctx) : option (list N) :=
  match c with
  | [] => None
  | (k', v) :: c' => if bytes_eqb k k' then Some v else ctx_find k c'
  end.

(** aws_hash_table_put: replace the value of an existing key (second component [false]: not
    created) or add a new entry. *)
Fixpoint ctx_put (k v : list N) (c : enc_ctx) : enc_ctx * bool :=
  match c with
  | [] => ([(k, v)], true)
  | (k', v') :: c' =>
      if bytes_eqb k k' then ((k, v) :: c', false)
      else let '(c'', b) := ctx_put k v c' in ((k', v') :: c'', b)
  end.

(** Loop of aws_cryptosdk_enc_ctx_size, source/enc_ctx.c 57-74.  Simplification: the overflow
    check of aws_add_size_checked_varargs cannot fire for objects in memory and is omitted. *)
Fixpoint enc_ctx_size_loop (c : enc_ctx) (serialized_len : N) : res N :=
  match c with
  | [] => Ok serialized_len
  | (k, v) :: c' =>
      let n := serialized_len + Nlen k + Nlen v + 4 in
      if UINT16_MAX <? n then Err E_LIMIT_EXCEEDED
      else enc_ctx_size_loop c' n
  end.

(** aws_cryptosdk_enc_ctx_size, source/enc_ctx.c 43-80 *)
Definition enc_ctx_size (c : enc_ctx) : res N :=
  if UINT16_MAX <? Nlen c then Err E_LIMIT_EXCEEDED
  else match c with
       | [] => Ok 0
       | _ => enc_ctx_size_loop c 2
       end.

(** aws_array_list_sort with aws_cryptosdk_compare_hash_elems_by_key_string
    (source/enc_ctx.c 103, source/utils.c 19-26).  qsort of distinct keys has one result;
    modelled as insertion sort. *)
Fixpoint ctx_insert (e : list N * list N) (l : enc_ctx) : enc_ctx :=
  match l with
  | [] => [e]
  | x :: l' =>
      match bytes_compare (fst e) (fst x) with
      | Gt => x :: ctx_insert e l'
      | _ => e :: l
      end
  end.

Fixpoint ctx_sort (l : enc_ctx) : enc_ctx :=
  match l with
  | [] => []
  | x :: l' => ctx_insert x (ctx_sort l')
  end.

(** One element, source/enc_ctx.c 117-120; lengths are cast to uint16_t. *)
Definition ser_entry (e : list N * list N) : list N :=
  be_bytes 2 (Nlen (fst e)) ++ fst e ++ be_bytes 2 (Nlen (snd e)) ++ snd e.

(** aws_cryptosdk_enc_ctx_serialize, source/enc_ctx.c 82-129.  [cap]/[len] are the capacity
    and current length of the output buffer; the result is the bytes appended.  The sequence of
    bounded writes fails iff the whole does not fit, which is tested once. *)
Definition enc_ctx_serialize (cap len : N) (c : enc_ctx) : res (list N) :=
  if UINT16_MAX <? Nlen c then Err E_LIMIT_EXCEEDED
  else
    do length <- enc_ctx_size c;
    if length =? 0 then Ok []
    else if cap <? length then Err E_SHORT_BUFFER
    else
      let out := be_bytes 2 (Nlen c) ++ concat (map ser_entry (ctx_sort c)) in
      if cap <? len + Nlen out then Err E_SHORT_BUFFER else Ok out.

(** Loop of aws_cryptosdk_enc_ctx_deserialize, source/enc_ctx.c 150-176: [n] pairs remain. *)
Fixpoint enc_ctx_des_loop (n : nat) (c : enc_ctx) (s : list N) : res (enc_ctx * list N) :=
  match n with
  | O => Ok (c, s)
  | S n' =>
      do (klen, s) <- read_be 2 s;
      do (k, s) <- read_bytes klen s;
      do (vlen, s) <- read_be 2 s;
      do (v, s) <- read_bytes vlen s;
      let '(c', was_created) := ctx_put k v c in
      if was_created then enc_ctx_des_loop n' c' s
      else Err E_BAD_CIPHERTEXT
  end.

(** aws_cryptosdk_enc_ctx_deserialize, source/enc_ctx.c 131-188.  [old] is the previous content
    of the table; result: new content of the table, and the rest of the cursor or an error.  The
    position of the cursor after a failure is not modelled. *)
Definition enc_ctx_deserialize (old : enc_ctx) (s : list N) : enc_ctx * res (list N) :=
  let cleared : enc_ctx := [] in
  match s with
  | [] => (cleared, Ok [])
  | _ =>
      match read_be 2 s with
      | Err e => ([], Err e)
      | Ok (elem_count, s') =>
          if elem_count =? 0 then (cleared, Err E_BAD_CIPHERTEXT)
          else match enc_ctx_des_loop (N.to_nat elem_count) cleared s' with
               | Ok (c, r) => (c, Ok r)
               | Err e => ([], Err e)
               end
      end
  end.

(** aws_cryptosdk_enc_ctx_clone, source/enc_ctx.c 202-257: first loop (209-218) removes keys of
    the destination that are not in the source. *)
Definition clone_remove (dest src : enc_ctx) : enc_ctx :=
  filter (fun e => match ctx_find (fst e) src with Some _ => true | None => false end) dest.

(** Second loop (221-254): update or add every source element.  [it] is the rest of the
    iteration over the source. *)
Fixpoint clone_update (dest it : enc_ctx) : enc_ctx :=
  match it with
  | [] => dest
  | (k, v) :: it' =>
      let dest' :=
        match ctx_find k dest with
        | Some v' => if negb (bytes_eqb v' v) then fst (ctx_put k v dest) else dest
        | None => fst (ctx_put k v dest)
        end in
      clone_update dest' it'
  end.

Definition enc_ctx_clone (dest src : enc_ctx) : enc_ctx :=
  clone_update (clone_remove dest src) src.
