(** * Fn methods that take callbacks, and the Array copies built on them

    Models lib/SPVM/Fn.spvm (merge_options 1186-1208, check_option_names
    1230-1248, grep 1297-1323, map 1325-1349, map_expand 1351-1377, sort_asc
    and sort_desc 1611-1678, sort 1680-1687, the object branch of slice
    1579-1604) and lib/SPVM/Array.spvm (copy_object 141-152,
    copy_object_address 154-156, copy_string 184-209, copy_object_with_proto
    1088-1123, copy_any_numeric 1398-1428).

    [S] is the state of the whole program and [arr s] the elements of the array
    argument in state [s].  A callback is a function of the state and its
    argument; it may change the state, the array included, and may throw.
    [accepts] is the run-time check of a store into an array of the type of the
    array argument.  The list that a method fills is reachable from that method
    only, so it is kept beside the state. *)

From Verif Require Import Base StM Array_model List_model Buckets Val Hash_model Sort_model FnMem_model.
Import StM.

Definition e_array : string := "The array $array must be defined.".
Definition e_callback : string := "The callback $callback must be defined.".

Section Hof.
  Context {S A : Type}.
  Variable arr : S -> list A.
  Variable undef : A.
  Variable accepts : A -> bool.

  Definition callback (R : Type) : Type := S -> A -> S * outcome R.

  (** A call of the callback, and a method of the private list. *)
  Definition call {L R} (cb : callback R) (x : A) : M (S * L) R :=
    fun s => let (s', o) := cb (fst s) x in ((s', snd s), o).
  Definition on_local {L R} (m : M L R) : M (S * L) R :=
    fun s => let (l, o) := m (snd s) in ((fst s, l), o).

  (** for my $element (@$array), spvm_op.c:1899-1991: the length is read once,
      element [i] when its turn comes; [n] iterations are left. *)
  Fixpoint foreach {L} (n : nat) (i : Z) (body : A -> M (S * L) unit) : M (S * L) unit :=
    match n with
    | O => StM.ret tt
    | Datatypes.S n =>
        do x <- (fun s => (s, elem_get (arr (fst s)) i));
        do_ body x;
        foreach n (i + 1) body
    end.

  (** Array->new_proto($array, 0) and List->new, Fn.spvm:1307-1309; the body
      of the loop; $list->to_array. *)
  Definition collect (has_array has_callback : bool) (body : A -> M (S * lst A) unit) (s : S)
    : S * outcome (list A) :=
    if negb has_array then (s, Die e_array)
    else if negb has_callback then (s, Die e_callback)
    else
      match ls_new undef accepts (Some []) (-1) with
      | Ret l =>
          match (do_ foreach (Z.to_nat (zlen (arr s))) 0 body; on_local (ls_to_array undef accepts)) (s, l) with
          | ((s', _), o) => (s', o)
          end
      | Die e => (s, Die e)
      | UB => (s, UB)
      | Fuel => (s, Fuel)
      end.

  (** grep, Fn.spvm:1297-1323. *)
  Definition fn_grep (has_array has_callback : bool) (cb : callback Z) : S -> S * outcome (list A) :=
    collect has_array has_callback (fun x =>
      do ok <- call cb x;
      if negb (ok =? 0) then on_local (ls_push undef accepts x) else StM.ret tt).

  (** map, Fn.spvm:1325-1349. *)
  Definition fn_map (has_array has_callback : bool) (cb : callback A) : S -> S * outcome (list A) :=
    collect has_array has_callback (fun x =>
      do y <- call cb x;
      on_local (ls_push undef accepts y)).

  (** The inner loop of map_expand, Fn.spvm:1369-1371: no callback runs in it,
      so the array can be read in one go. *)
  Fixpoint push_all (ys : list A) : M (lst A) unit :=
    match ys with
    | [] => StM.ret tt
    | y :: ys => do_ ls_push undef accepts y; push_all ys
    end.

  (** map_expand, Fn.spvm:1351-1377; @$new_elements of undef throws
      (spvm_implement.h:1092-1097). *)
  Definition fn_map_expand (has_array has_callback : bool) (cb : callback (option (list A)))
    : S -> S * outcome (list A) :=
    collect has_array has_callback (fun x =>
      do ys <- call cb x;
      match ys with
      | None => die "The array must be defined."
      | Some ys => on_local (push_all ys)
      end).

  (** The loop of copy_object_with_proto with a cloner, Array.spvm:1114-1116. *)
  Fixpoint clone_loop (cloner : callback A) (offset : Z) (n : nat) (i : Z) : M (S * list A) unit :=
    match n with
    | O => StM.ret tt
    | Datatypes.S n =>
        do x <- (fun s => (s, elem_get (arr (fst s)) (wrap32 (offset + i))));
        do y <- call cloner x;
        do_ on_local (fun out =>
          match elem_set out i y with
          | Ret out' =>
              if accepts y then (out', Ret tt)
              else (out, Die "The element must be assigned to the element type of the array.")
          | Die e => (out, Die e)
          | UB => (out, UB)
          | Fuel => (out, Fuel)
          end);
        clone_loop cloner offset n (i + 1)
    end.

  (** copy_object_with_proto, Array.spvm:1088-1123, with a prototype: [accepts]
      is the check of its element type.  new_proto throws for a negative length
      (Array.c:622-642). *)
  Definition copy_object_with_proto (has_array : bool) (cloner : option (callback A))
      (offset length : Z) (s : S) : S * outcome (list A) :=
    if negb has_array then (s, Die e_array)
    else if negb (offset >=? 0) then (s, Die "The offset $offset must be greater than or equal to 0.")
    else
      let array_length := zlen (arr s) in
      let length := if length <? 0 then wrap32 (array_length - offset) else length in
      if negb (wrap32 (offset + length) <=? array_length) then
        (s, Die "The offset $offset + the length $length must be less than or equal to the length of the array $array.")
      else if negb (length >=? 0) then (s, Die "The length $length must be greater than or equal to 0.")
      else
        match cloner with
        | Some cloner =>
            match clone_loop cloner offset (Z.to_nat length) 0 (s, zrep length undef) with
            | ((s', out), Ret _) => (s', Ret out)
            | ((s', _), Die e) => (s', Die e)
            | ((s', _), UB) => (s', UB)
            | ((s', _), Fuel) => (s', Fuel)
            end
        | None =>
            match memcpy_object_address accepts false (zrep length undef) 0 (arr s) offset length with
            | (out, Ret _) => (s, Ret out)
            | (_, Die e) => (s, Die e)
            | (_, UB) => (s, UB)
            | (_, Fuel) => (s, Fuel)
            end
        end.

  (** copy_object, Array.spvm:141-152: the prototype has the type of the array
      itself; copy_object_address, 154-156, passes no cloner. *)
  Definition copy_object := copy_object_with_proto.
  Definition copy_object_address (has_array : bool) (offset length : Z) (s : S) : S * outcome (list A) :=
    copy_object has_array None offset length s.

  (** slice of an object array, Fn.spvm:1579-1604. *)
  Definition slice_object (has_array : bool) (offset length : Z) (s : S) : S * outcome (list A) :=
    if negb has_array then (s, Die e_array)
    else if negb (length >=? 0) then (s, Die "The length $length must be greater than or equal to 0.")
    else
      match memcpy_object_address accepts false (zrep length undef) 0 (arr s) offset length with
      | (out, Ret _) => (s, Ret out)
      | (_, Die e) => (s, Die e)
      | (_, UB) => (s, UB)
      | (_, Fuel) => (s, Fuel)
      end.
End Hof.

(** sort, Fn.spvm:1680-1687.  The result is the comparator's state, the
    contents of $array afterwards, and what the method returns.  [fuel] bounds
    the recursion of Sort->sort_object. *)
Definition fn_sort {S A} (cmp : S -> A -> A -> S * outcome Z) (undef : A) (accepts : A -> bool) (fuel : nat)
    (s : S) (array : option (list A)) (has_comparator : bool) : S * option (list A) * outcome (list A) :=
  match array with
  | None => (s, None, Die e_array)
  | Some a =>
      match snd (copy_object_address (fun a => a) undef accepts true 0 (-1) a) with
      | Ret sorted_array =>
          match Sort_model.sort cmp undef fuel s array has_comparator 0 (-1) with
          | (s', array', Ret _) => (s', array', Ret sorted_array)
          | (s', array', Die e) => (s', array', Die e)
          | (s', array', UB) => (s', array', UB)
          | (s', array', Fuel) => (s', array', Fuel)
          end
      | Die e => (s, array, Die e)
      | UB => (s, array, UB)
      | Fuel => (s, array, Fuel)
      end
  end.

(** copy_any_numeric, Array.spvm:1398-1428, on the heap of FnMem_model; the new
    array is the last object. *)
Definition copy_any_numeric (h : heap) (o : ref) (offset length : Z) : outcome heap :=
  match o with
  | None => Die e_array
  | Some a =>
      match znth h a with
      | None => UB
      | Some b =>
          match b_kind b with
          | KNumArray | KMulArray =>
              check! offset >=? 0 else "The offset $offset must be greater than or equal to 0." in
              let array_length := b_length b in
              let length := if length <? 0 then wrap32 (array_length - offset) else length in
              check! wrap32 (offset + length) <=? array_length
                else "The offset $offset + the length $length must be less than or equal to the length of the array $array." in
              let elem_size := b_elem_size b in
              check! length >=? 0 else "The length $length must be greater than or equal to 0." in
              let new_array := mk_blob (b_kind b) false elem_size length (zrep (elem_size * length) 0) in
              fn_memcpy (h ++ [new_array]) (Some (zlen h)) 0 (Some a)
                (wrap32 (elem_size * offset)) (wrap32 (elem_size * length))
          | _ => Die "The type of the array $array must be a numeric array type or a multi-numeric type."
          end
      end
  end.

(** sort_asc and sort_desc, Fn.spvm:1611-1678, for one numeric type: Fn->copy
    (1534-1569) makes a copy with copy_any_numeric, Sort->sort_T_asc or _desc
    sorts it.  [cmp] is the built-in order.  Simplified: the copy is taken by
    elements; when the array has more than INT32_MAX bytes, where
    copy_any_numeric leaves int arithmetic, the model answers UB. *)
Definition fn_sort_num {A} (cmp : unit -> A -> A -> unit * outcome Z) (zero : A) (fuel : nat) (elem_size : Z)
    (array : option (list A)) : outcome (list A) :=
  match array with
  | None => Die e_array
  | Some a =>
      if elem_size * zlen a >? INT32_MAX then UB
      else
        match Sort_model.sort cmp zero fuel tt (Some a) true 0 (-1) with
        | (_, Some sorted_array, Ret _) => Ret sorted_array
        | (_, _, Die e) => Die e
        | (_, _, UB) => UB
        | (_, _, _) => Fuel
        end
  end.

(** ** Strings: copy_string, Array.spvm:184-209 *)

(** A heap of strings: bytes and read-only flag; an address is a position. *)
Record str := mk_str { s_bytes : list Z; s_read_only : bool }.
Definition strings := list str.

(** copy $s, spvm_implement.h:1428 and spvm_api.c:4432-4450: undef gives undef,
    a string a new writable one. *)
Definition str_copy (h : strings) (o : option Z) : outcome (strings * option Z) :=
  match o with
  | None => Ret (h, None)
  | Some p =>
      match znth h p with
      | None => UB
      | Some s => Ret (h ++ [mk_str (s_bytes s) false], Some (zlen h))
      end
  end.

(** Array.spvm:204-206, [n] iterations from counter [i]. *)
Fixpoint copy_string_loop (a : list (option Z)) (offset : Z) (n : nat) (i : Z) (h : strings) (out : list (option Z))
  : outcome (strings * list (option Z)) :=
  match n with
  | O => Ret (h, out)
  | S n =>
      let! p := elem_get a (wrap32 (offset + i)) in
      let! (h, q) := str_copy h p in
      let! out := elem_set out i q in
      copy_string_loop a offset n (i + 1) h out
  end.

Definition copy_string (h : strings) (array : option (list (option Z))) (offset length : Z)
  : outcome (strings * list (option Z)) :=
  match array with
  | None => Die e_array
  | Some a =>
      check! offset >=? 0 else "The offset $offset must be greater than or equal to 0." in
      let array_length := zlen a in
      let length := if length <? 0 then wrap32 (array_length - offset) else length in
      check! wrap32 (offset + length) <=? array_length
        else "The offset $offset + the length $length must be less than or equal to the length of the array $array." in
      let! new_array := new_elems length None in
      copy_string_loop a offset (Z.to_nat length) 0 h new_array
  end.

(** ** Options *)

(** merge_options, Fn.spvm:1186-1208; [{}] is an empty array; merge_object is
    Array.spvm:1013-1037. *)
Definition merge_options (options1 options2 : option (list val)) : outcome (list val) :=
  let options1 := match options1 with Some o => o | None => [] end in
  let options2 := match options2 with Some o => o | None => [] end in
  check! Z.rem (zlen options1) 2 =? 0 else "The length of the options1 $options1 must be an even number." in
  check! Z.rem (zlen options2) 2 =? 0 else "The length of the options2 $options2 must be an even number." in
  Array_model.merge VUndef (Some options1) (Some options2).

(** The message, with the name between the quotes. *)
Inductive option_error := NotAvailable (name : key) | OtherError (e : string).

(** Fn.spvm:1236-1239: the names are stored in a hash with the value 1. *)
Fixpoint store_names (sip : key -> Z) (names : list (option key)) (h : hash) : outcome hash :=
  match names with
  | [] => Ret h
  | n :: names =>
      match hash_set sip h n (VInt 1) with
      | (h, Ret _) => store_names sip names h
      | (_, Die e) => Die e
      | (_, UB) => UB
      | (_, Fuel) => Fuel
      end
  end.

(** (string)$options->[$i]. *)
Definition to_string (v : val) : outcome (option key) :=
  match v with
  | VUndef => Ret None
  | VString s => Ret (Some s)
  | _ => Die "The object must be assigned to the string type."
  end.

(** Fn.spvm:1241-1247: every second element, from the first; [None] is the
    normal return. *)
Fixpoint check_names (sip : key -> Z) (h : hash) (options : list val) : outcome (option option_error) :=
  match options with
  | [] => Ret None
  | v :: rest =>
      let! name := to_string v in
      let! found := hash_get sip h name in
      match name with
      | Some name =>
          if is_defined found
          then match rest with [] => Ret None | _ :: rest => check_names sip h rest end
          else Ret (Some (NotAvailable name))
      | None => UB (* not reached: hash_get has thrown *)
      end
  end.

(** check_option_names, Fn.spvm:1230-1248. *)
Definition check_option_names (sip : key -> Z) (options : option (list val)) (names : option (list (option key)))
  : outcome unit + option_error :=
  match options with
  | None => inl (Ret tt)
  | Some options =>
      match names with
      | None => inr (OtherError "The array must be defined.")
      | Some names =>
          match (let! h := store_names sip names hash_empty in check_names sip h options) with
          | Ret None => inl (Ret tt)
          | Ret (Some e) => inr e
          | Die e => inr (OtherError e)
          | UB => inl UB
          | Fuel => inl Fuel
          end
      end
  end.
