(** * Model of the List class (List.spvm), a ring buffer of objects

    Elements are values of any type [A] with an undefined value.  [accepts] is
    the run-time check that an element can be stored in the list's array (its
    element type is the one of the array given to new); undef is always
    accepted.  StringList inherits every method. *)

From Verif Require Import Base StM Array_model.

Section List.
  Context {A : Type}.
  Variable undef : A.
  Variable defined : A -> bool.
  Variable accepts : A -> bool.

  (** Fields, List.spvm:14-20. *)
  Record lst := mk_lst {
    ls_capacity : Z;
    ls_length : Z;
    ls_array : list A;
    ls_offset : Z
  }.

  Definition set_length (n : Z) : M lst unit :=
    modify (fun s => mk_lst (ls_capacity s) n (ls_array s) (ls_offset s)).
  Definition set_offset (n : Z) : M lst unit :=
    modify (fun s => mk_lst (ls_capacity s) (ls_length s) (ls_array s) n).

  (** init_len, List.spvm:58-79.  Array->new_proto throws for a negative
      length (Array.c:622-642). *)
  Definition ls_new_len (length capacity : Z) : outcome lst :=
    check! length >=? 0 else "The length $length must be greater than or equal to 0." in
    let capacity := if capacity <? 0 then 4 else capacity in
    let capacity := if length >? capacity then length else capacity in
    let! a := new_elems capacity undef in
    Ret (mk_lst capacity length a 0).

  (** new and init, List.spvm:23-47. *)
  Definition ls_new (array : option (list A)) (capacity : Z) : outcome lst :=
    match array with
    | None => ls_new_len 0 capacity
    | Some a =>
        let! s := ls_new_len (zlen a) capacity in
        match memcpy_object_address accepts false (ls_array s) 0 a 0 (zlen a) with
        | (a', Ret _) => Ret (mk_lst (ls_capacity s) (ls_length s) a' (ls_offset s))
        | (_, Die e) => Die e
        | (_, UB) => UB
        | (_, Fuel) => Fuel
        end
    end.

  (** The position of an element: ($offset + $index) % $capacity,
      List.spvm:96 and 276; % throws for a zero divisor. *)
  Definition real_index (index : Z) (s : lst) : outcome Z :=
    check! negb (ls_capacity s =? 0) else "Integral type values cannot be divided by 0." in
    Ret (Z.rem (wrap32 (ls_offset s + index)) (ls_capacity s)).

  (** get, List.spvm:82-102. *)
  Definition ls_get (index : Z) : M lst A :=
    do length <- gets ls_length;
    unless index >=? 0 die_ "The index $index must be greater than or equal to 0.";
    unless index <? length die_ "The index $index must be less than the length of $list.";
    fun s => (s, let! i := real_index index s in elem_get (ls_array s) i).

  (** set, List.spvm:262-280. *)
  Definition ls_set (index : Z) (element : A) : M lst unit :=
    do length <- gets ls_length;
    unless index >=? 0 die_ "The index $index must be greater than or equal to 0.";
    unless index <? length die_ "The index $index must be less than the length of $list.";
    fun s =>
      match (let! i := real_index index s in
             check! (0 <=? i) && (i <? zlen (ls_array s))
               else "The index of the array must be greater than or equal to 0 and less than the length of the array." in
             check! accepts element else "The element must be assigned to the element type of the array." in
             Ret (zupd (ls_array s) i element)) with
      | Ret a => (mk_lst (ls_capacity s) (ls_length s) a (ls_offset s), Ret tt)
      | Die e => (s, Die e)
      | UB => (s, UB)
      | Fuel => (s, Fuel)
      end.

  (** _extend, List.spvm:352-393. *)
  Definition ls_extend (at_least : Z) (just : bool) : M lst unit := fun s =>
    let capacity := ls_capacity s in
    if negb (at_least >? capacity) then (s, Ret tt)
    else
      let new_capacity :=
        if just then at_least
        else wrap32 ((if capacity <? at_least then at_least else capacity) * 2) in
      match new_elems new_capacity undef with
      | Ret new_array =>
          if negb (capacity =? zlen (ls_array s)) then
            (s, Die "[Unexpected Error]The capacity field must be equal to the length of the array field.")
          else
            match memcpy_object_address accepts false new_array (ls_offset s) (ls_array s) (ls_offset s)
                    (wrap32 (capacity - ls_offset s)) with
            | (new_array, Ret _) =>
                match memcpy_object_address accepts false new_array capacity (ls_array s) 0 (ls_offset s) with
                | (new_array, Ret _) => (mk_lst new_capacity (ls_length s) new_array (ls_offset s), Ret tt)
                | (_, Die e) => (s, Die e)
                | (_, UB) => (s, UB)
                | (_, Fuel) => (s, Fuel)
                end
            | (_, Die e) => (s, Die e)
            | (_, UB) => (s, UB)
            | (_, Fuel) => (s, Fuel)
            end
      | Die e => (s, Die e)
      | UB => (s, UB)
      | Fuel => (s, Fuel)
      end.

  (** pop, List.spvm:127-143. *)
  Definition ls_pop : M lst A :=
    do length <- gets ls_length;
    unless length >? 0 die_ "The length of the list $list must be greater than 0.";
    let index := wrap32 (length - 1) in
    do r <- ls_get index;
    do_ ls_set index undef;
    do_ set_length (wrap32 (length - 1));
    ret r.

  (** push, List.spvm:145-160: the length is increased before the element is
      stored. *)
  Definition ls_push (element : A) : M lst unit :=
    do length <- gets ls_length;
    let new_length := wrap32 (length + 1) in
    do_ ls_extend new_length false;
    do_ set_length new_length;
    ls_set length element.

  (** The upward shift of replace, List.spvm:213-217: [n] iterations, the
      current one has counter n-1. *)
  Fixpoint move_up (n : nat) (src dst : Z) : M lst unit :=
    match n with
    | O => ret tt
    | S n =>
        do element <- ls_get (wrap32 (src + Z.of_nat n));
        do_ ls_set (wrap32 (dst + Z.of_nat n)) element;
        move_up n src dst
    end.

  (** The downward shift of replace, List.spvm:221-226. *)
  Fixpoint move_down (n : nat) (i src dst : Z) : M lst unit :=
    match n with
    | O => ret tt
    | S n =>
        do element <- ls_get (wrap32 (src + i));
        do_ ls_set (wrap32 (dst + i)) element;
        do_ ls_set (wrap32 (src + i)) undef;
        move_down n (i + 1) src dst
    end.

  (** List.spvm:231-236. *)
  Fixpoint store_all (index i : Z) (r : list A) : M lst unit :=
    match r with
    | [] => ret tt
    | x :: r => do_ ls_set (wrap32 (index + i)) x; store_all index (i + 1) r
    end.

  (** replace, List.spvm:182-236. *)
  Definition ls_replace (index remove_length : Z) (replace : option (list A)) : M lst unit :=
    unless index >=? 0 die_ "The index $index must be greater than or equal to 0.";
    unless remove_length >=? 0 die_ "The removal length $remove_length must be greater than or equal to 0.";
    do length <- gets ls_length;
    unless wrap32 (index + remove_length) <=? length
      die_ "The index $index + the removal length $remove_length must be less than or equal to the length of this list.";
    let replace_length := match replace with Some r => zlen r | None => 0 end in
    let new_length := wrap32 (wrap32 (length - remove_length) + replace_length) in
    do_ ls_extend new_length false;
    let diff_length := wrap32 (replace_length - remove_length) in
    let move_length := wrap32 (wrap32 (length - index) - remove_length) in
    do_ (if diff_length =? 0 then ret tt
         else if diff_length >? 0 then
           do_ set_length (wrap32 (length + diff_length));
           move_up (Z.to_nat move_length) (wrap32 (index + remove_length)) (wrap32 (index + replace_length))
         else
           move_down (Z.to_nat move_length) 0 (wrap32 (index + remove_length)) (wrap32 (index + replace_length)));
    do_ set_length new_length;
    match replace with Some r => store_all index 0 r | None => ret tt end.

  (** insert, List.spvm:104-125: an undefined element inserts nothing. *)
  Definition ls_insert (index : Z) (element : A) : M lst unit :=
    do length <- gets ls_length;
    unless index >=? 0 die_ "The index $index must be greater than or equal to 0.";
    unless index <=? length die_ "The index $index must be less than or equal to the length of $list.";
    ls_replace index 0 (if defined element then Some [element] else None).

  (** remove, List.spvm:162-180. *)
  Definition ls_remove (index : Z) : M lst A :=
    unless index >=? 0 die_ "The index $index must be greater than or equal to 0.";
    do length <- gets ls_length;
    unless index <? length die_ "The index $index must be less than the length of $list.";
    do remove_value <- ls_get index;
    do_ ls_replace index 1 None;
    ret remove_value.

  (** reserve, List.spvm:238-241. *)
  Definition ls_reserve (new_capacity : Z) : M lst unit := ls_extend new_capacity true.

  (** List.spvm:254-256. *)
  Fixpoint clear_from (index : Z) (n : nat) : M lst unit :=
    match n with
    | O => ret tt
    | S n => do_ ls_set index undef; clear_from (index + 1) n
    end.

  (** resize, List.spvm:243-260. *)
  Definition ls_resize (new_length : Z) : M lst unit :=
    unless new_length >=? 0 die_ "The new length $new_length must be greater than or equal to 0.";
    do length <- gets ls_length;
    do_ (if new_length >? length then ls_extend new_length false
         else if new_length <? length then clear_from new_length (Z.to_nat (length - new_length))
         else ret tt);
    set_length new_length.

  (** shift, List.spvm:282-305. *)
  Definition ls_shift : M lst A :=
    do length <- gets ls_length;
    unless length >? 0 die_ "The length of the list $list must be greater than 0.";
    do element <- ls_get 0;
    do_ ls_set 0 undef;
    do_ set_length (wrap32 (length - 1));
    do offset <- gets ls_offset;
    do_ set_offset (wrap32 (offset + 1));
    do offset <- gets ls_offset;
    do capacity <- gets ls_capacity;
    do_ (if offset >=? capacity then set_offset (wrap32 (offset - capacity)) else ret tt);
    ret element.

  Definition run_copy (r : list A * outcome unit) : outcome (list A) :=
    match r with
    | (a, Ret _) => Ret a
    | (_, Die e) => Die e
    | (_, UB) => UB
    | (_, Fuel) => Fuel
    end.

  (** to_array, List.spvm:307-329. *)
  Definition ls_to_array : M lst (list A) := fun s =>
    let length := ls_length s in
    let array := ls_array s in
    (s,
     let! new_array := new_elems length undef in
     let leftover := wrap32 (length - wrap32 (ls_capacity s - ls_offset s)) in
     if leftover >? 0 then
       let! new_array := run_copy (memcpy_object_address accepts false new_array 0 array (ls_offset s)
                                     (wrap32 (length - leftover))) in
       run_copy (memcpy_object_address accepts false new_array (wrap32 (length - leftover)) array 0 leftover)
     else
       run_copy (memcpy_object_address accepts false new_array 0 array (ls_offset s) length)).

  (** unshift, List.spvm:331-350. *)
  Definition ls_unshift (element : A) : M lst unit :=
    do length <- gets ls_length;
    do_ ls_extend (wrap32 (length + 1)) false;
    do offset <- gets ls_offset;
    do_ set_offset (wrap32 (offset - 1));
    do offset <- gets ls_offset;
    do capacity <- gets ls_capacity;
    do_ (if offset <? 0 then set_offset (wrap32 (capacity - 1)) else ret tt);
    do_ set_length (wrap32 (length + 1));
    ls_set 0 element.

  (** The operations a caller can issue, and their results. *)
  Inductive lop :=
  | LGet (index : Z) | LInsert (index : Z) (element : A) | LPop | LPush (element : A)
  | LRemove (index : Z) | LReplace (index remove_length : Z) (replace : option (list A))
  | LReserve (new_capacity : Z) | LResize (new_length : Z) | LSet (index : Z) (element : A)
  | LShift | LToArray | LUnshift (element : A) | LLength.

  Inductive lres := LRUnit | LRElem (x : A) | LRArray (l : list A) | LRInt (n : Z).

  Definition wrap_res {R} (f : R -> lres) (r : lst * outcome R) : lst * outcome lres :=
    (fst r, let! x := snd r in Ret (f x)).

  Definition ls_step (s : lst) (op : lop) : lst * outcome lres :=
    match op with
    | LGet i => wrap_res LRElem (ls_get i s)
    | LInsert i x => wrap_res (fun _ => LRUnit) (ls_insert i x s)
    | LPop => wrap_res LRElem (ls_pop s)
    | LPush x => wrap_res (fun _ => LRUnit) (ls_push x s)
    | LRemove i => wrap_res LRElem (ls_remove i s)
    | LReplace o n r => wrap_res (fun _ => LRUnit) (ls_replace o n r s)
    | LReserve n => wrap_res (fun _ => LRUnit) (ls_reserve n s)
    | LResize n => wrap_res (fun _ => LRUnit) (ls_resize n s)
    | LSet i x => wrap_res (fun _ => LRUnit) (ls_set i x s)
    | LShift => wrap_res LRElem (ls_shift s)
    | LToArray => wrap_res LRArray (ls_to_array s)
    | LUnshift x => wrap_res (fun _ => LRUnit) (ls_unshift x s)
    | LLength => wrap_res LRInt (gets ls_length s)
    end.

  (** A history: the caller catches exceptions and goes on. *)
  Fixpoint ls_run (s : lst) (ops : list lop) : list (outcome lres) :=
    match ops with
    | [] => []
    | op :: ops => snd (ls_step s op) :: ls_run (fst (ls_step s op)) ops
    end.
End List.

Arguments lst A : clear implicits.
Arguments lop A : clear implicits.
Arguments lres A : clear implicits.
