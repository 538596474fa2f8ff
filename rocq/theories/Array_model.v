(** * Model of the Array class (Array.c, Array.spvm)

    Arrays are lists of elements of an arbitrary type [A].  The six native
    copies (byte, short, int, long, float, double) have the same text up to the
    element type, so one generic definition stands for all of them; the same
    holds for copy_*, merge_*, equals_* and memset_* in Array.spvm.

    A method that writes into an array it was given returns the pair of that
    array's contents afterwards and the outcome, so that what a caller sees
    after an exception is part of the model.  [same] says whether the
    destination and the source are one and the same array object. *)

From Verif Require Import Base.

Section Array.
  Context {A : Type}.

  (** int32_t addition in C: overflow is undefined behaviour. *)
  Definition c_add (a b : Z) : outcome Z :=
    if (INT32_MIN <=? a + b) && (a + b <=? INT32_MAX) then Ret (a + b) else UB.

  (** new T[n], spvm_implement.h:673-690 (NEW_INT_ARRAY) and its siblings:
      a negative length throws.  Simplified: memory never runs out. *)
  Definition new_elems (n : Z) (x : A) : outcome (list A) :=
    check! 0 <=? n else "The length of the array must be greater than or equal to 0." in
    Ret (zrep n x).

  (** $array->[$i], spvm_implement.h:784-900: bounds-checked read. *)
  Definition elem_get (a : list A) (i : Z) : outcome A :=
    match znth a i with
    | Some x => Ret x
    | None => Die "The index of the array must be greater than or equal to 0 and less than the length of the array."
    end.

  (** $array->[$i] = x, spvm_implement.h:914-1071: bounds-checked write. *)
  Definition elem_set (a : list A) (i : Z) (x : A) : outcome (list A) :=
    check! (0 <=? i) && (i <? zlen a)
      else "The index of the array must be greater than or equal to 0 and less than the length of the array." in
    Ret (zupd a i x).

  (** Do the ranges [a, a+n) and [b, b+n) meet? *)
  Definition overlap (a b n : Z) : bool := (a <? b + n) && (b <? a + n).

  (** The argument checks of SPVM__Array__memcpy_int, Array.c:171-205, in the
      order of the code, with the continuation [k] reached when they pass. *)
  Definition copy_checks (dest : option (list A)) (dest_offset : Z) (source : option (list A))
      (source_offset length : Z) (k : list A -> list A -> outcome (list A)) : outcome (list A) :=
    match dest with
    | None => Die "The destination $dest must be defined."
    | Some dest =>
    match source with
    | None => Die "The source $source must be defined."
    | Some source =>
      check! length >=? 0 else "The length $length must be greater than or equal to 0." in
      check! dest_offset >=? 0 else "The destination offset $dest_offset must be greater than or equal to 0." in
      check! source_offset >=? 0 else "The source offset $source_offset must be greater than or equal to 0." in
      if length =? 0 then Ret dest else
      let! dest_end := c_add dest_offset length in
      check! dest_end <=? zlen dest
        else "The destination offset $dest_offset + the length $length must be less than or equal to the length of the destination $dest." in
      let! source_end := c_add source_offset length in
      check! source_end <=? zlen source
        else "The source offset $source_offset + the length $length must be less than or equal to the length of the source $source." in
      k dest source
    end end.

  (** SPVM__Array__memcpy_int, Array.c:163-212 (byte 10, double 61, float 112,
      long 214, short 265).  The C memcpy is undefined on overlapping blocks.
      The result is the new contents of [dest]. *)
  Definition memcpy (same : bool) (dest : option (list A)) (dest_offset : Z)
      (source : option (list A)) (source_offset length : Z) : outcome (list A) :=
    copy_checks dest dest_offset source source_offset length (fun d s =>
      if same && overlap dest_offset source_offset length then UB
      else Ret (zblit d dest_offset (zsub s source_offset length))).

  (** SPVM__Array__memmove_int, Array.c:469-518 (byte 316, double 367,
      float 418, long 520, short 571): the source range is read as it was
      before the call. *)
  Definition memmove (dest : option (list A)) (dest_offset : Z)
      (source : option (list A)) (source_offset length : Z) : outcome (list A) :=
    copy_checks dest dest_offset source source_offset length (fun d s =>
      Ret (zblit d dest_offset (zsub s source_offset length))).

  (** One step of the loops of memcpy_object_address / memmove_object_address,
      Array.spvm:604-608: read the source element, then write it if the
      element type of the destination accepts it (spvm_implement.h:1045-1071).
      When the arrays are the same object the read sees earlier writes. *)
  Definition copy_elem (accepts : A -> bool) (same : bool) (source d : list A)
      (dest_offset source_offset i : Z) : outcome (list A) :=
    let dist_index := wrap32 (dest_offset + i) in
    let source_index := wrap32 (source_offset + i) in
    let! x := elem_get (if same then d else source) source_index in
    check! (0 <=? dist_index) && (dist_index <? zlen d)
      else "The index of the array must be greater than or equal to 0 and less than the length of the array." in
    check! accepts x else "The element must be assigned to the element type of the array." in
    Ret (zupd d dist_index x).

  (** for ($i = $i0; [n] times; $i += $d) { copy_elem } *)
  Fixpoint copy_loop (accepts : A -> bool) (same : bool) (source : list A)
      (dest_offset source_offset : Z) (n : nat) (i step : Z) (d : list A) : list A * outcome unit :=
    match n with
    | O => (d, Ret tt)
    | S n =>
        match copy_elem accepts same source d dest_offset source_offset i with
        | Ret d' => copy_loop accepts same source dest_offset source_offset n (i + step) step d'
        | Die e => (d, Die e)
        | UB => (d, UB)
        | Fuel => (d, Fuel)
        end
    end.

  (** The checks of memcpy_object_address, Array.spvm:575-602; the sums wrap. *)
  Definition object_copy_checks (dest : list A) (dest_offset : Z) (source : list A)
      (source_offset length : Z) : option string :=
    if negb (length >=? 0) then Some "The length $length must be greater than or equal to 0."%string
    else if negb (dest_offset >=? 0) then
      Some "The destination offset $dest_offset must be greater than or equal to 0."%string
    else if negb (source_offset >=? 0) then
      Some "The source offset $source_offset must be greater than or equal to 0."%string
    else if negb (wrap32 (dest_offset + length) <=? zlen dest) then
      Some "The destination offset $dest_offset + the length $length must be less than or equal to the length of the destination $dest."%string
    else if negb (wrap32 (source_offset + length) <=? zlen source) then
      Some "The source offset $source_offset + the length $length must be less than or equal to the length of the source $source."%string
    else None.

  (** memcpy_object_address, Array.spvm:574-609; the arrays are defined here,
      an undefined one throws before anything else (575-580). *)
  Definition memcpy_object_address (accepts : A -> bool) (same : bool) (dest : list A)
      (dest_offset : Z) (source : list A) (source_offset length : Z) : list A * outcome unit :=
    match object_copy_checks dest dest_offset source source_offset length with
    | Some e => (dest, Die e)
    | None => copy_loop accepts same source dest_offset source_offset (Z.to_nat length) 0 1 dest
    end.

  (** memmove_object_address, Array.spvm:620-664: upwards when the destination
      is lower, downwards otherwise. *)
  Definition memmove_object_address (accepts : A -> bool) (same : bool) (dest : list A)
      (dest_offset : Z) (source : list A) (source_offset length : Z) : list A * outcome unit :=
    match object_copy_checks dest dest_offset source source_offset length with
    | Some e => (dest, Die e)
    | None =>
        if dest_offset <? source_offset
        then copy_loop accepts same source dest_offset source_offset (Z.to_nat length) 0 1 dest
        else copy_loop accepts same source dest_offset source_offset (Z.to_nat length) (length - 1) (-1) dest
    end.

  (** The loop of memset_int, Array.spvm:753-755. *)
  Fixpoint set_loop (accepts : A -> bool) (x : A) (offset : Z) (n : nat) (i : Z) (a : list A)
      : list A * outcome unit :=
    match n with
    | O => (a, Ret tt)
    | S n =>
        match elem_set a (wrap32 (offset + i)) x with
        | Ret a' =>
            if accepts x then set_loop accepts x offset n (i + 1) a'
            else (a, Die "The element must be assigned to the element type of the array.")
        | Die e => (a, Die e)
        | UB => (a, UB)
        | Fuel => (a, Fuel)
        end
    end.

  (** memset_int, Array.spvm:735-756 (byte 666, double 689, float 712,
      long 758, object 781, short 804).  [accepts] is constantly true for
      numeric arrays. *)
  Definition memset (accepts : A -> bool) (array : list A) (x : A) (offset length : Z)
      : list A * outcome unit :=
    if negb (offset >=? 0) then (array, Die "The offset $offset must be greater than or equal to 0.")
    else
      let array_length := zlen array in
      let length := if length <? 0 then wrap32 (array_length - offset) else length in
      if negb (wrap32 (offset + length) <=? array_length) then
        (array, Die "The offset $offset + the length $length must be less than or equal to the length of the array $array.")
      else set_loop accepts x offset (Z.to_nat length) 0 array.

  (** copy_int, Array.spvm:89-113 (byte 11, double 37, float 63, long 115,
      short 158, string_address 211): a fresh array, filled with memcpy. *)
  Definition copy (zero : A) (array : option (list A)) (offset length : Z) : outcome (list A) :=
    match array with
    | None => Die "The array $array must be defined."
    | Some array =>
      check! offset >=? 0 else "The offset $offset must be greater than or equal to 0." in
      let array_length := zlen array in
      let length := if length <? 0 then wrap32 (array_length - offset) else length in
      check! wrap32 (offset + length) <=? array_length
        else "The offset $offset + the length $length must be less than or equal to the length of the array $array." in
      let! new_array := new_elems length zero in
      memcpy false (Some new_array) 0 (Some array) offset length
    end.

  (** for ($i = 0; $i < len; $i++) { $out->[$at + $i] = $src->[$i] } *)
  Fixpoint put_loop (src : list A) (at_ : Z) (n : nat) (i : Z) (out : list A) : outcome (list A) :=
    match n with
    | O => Ret out
    | S n =>
        let! x := elem_get src i in
        let! out := elem_set out (wrap32 (at_ + i)) x in
        put_loop src at_ n (i + 1) out
    end.

  (** merge_int, Array.spvm:883-907 (byte 831, short 857, long 909, float 935,
      double 961, string 987). *)
  Definition merge (zero : A) (array1 array2 : option (list A)) : outcome (list A) :=
    match array1, array2 with
    | None, _ => Die "The array1 $array1 must be defined."
    | _, None => Die "The array2 $array2 must be defined."
    | Some a1, Some a2 =>
      let! out := new_elems (wrap32 (zlen a1 + zlen a2)) zero in
      let! out := put_loop a1 0 (Z.to_nat (zlen a1)) 0 out in
      put_loop a2 (zlen a1) (Z.to_nat (zlen a2)) 0 out
    end.

  (** The loop of equals_int, Array.spvm:426-431: leaves at the first
      difference. *)
  Fixpoint equals_loop (eqb : A -> A -> bool) (a1 a2 : list A) (n : nat) (i : Z) : outcome Z :=
    match n with
    | O => Ret 1
    | S n =>
        let! x := elem_get a1 i in
        let! y := elem_get a2 i in
        if negb (eqb x y) then Ret 0 else equals_loop eqb a1 a2 n (i + 1)
    end.

  (** equals_int, Array.spvm:413-438 (byte 331, double 359, float 386,
      long 439, object 466, short 507, string 534); [eqb] is the == of the
      element type (for floating point it is not reflexive on NaN). *)
  Definition equals (eqb : A -> A -> bool) (array1 array2 : option (list A)) : outcome Z :=
    match array1, array2 with
    | None, None => Ret 1
    | Some _, None => Ret 0
    | None, Some _ => Ret 0
    | Some a1, Some a2 =>
        if zlen a1 =? zlen a2 then equals_loop eqb a1 a2 (Z.to_nat (zlen a1)) 0
        else Ret 0
    end.

  (** The loop of shuffle_object, Array.spvm:1053-1062: [rnd] is Fn->crand,
      which reads and updates the seed. *)
  Fixpoint shuffle_loop (rnd : Z -> Z * Z) (n : nat) (i : Z) (seed : Z) (a : list A)
      : outcome (list A * Z) :=
    match n with
    | O => Ret (a, seed)
    | S n =>
        let (r, seed) := rnd seed in
        let j := Z.rem r (i + 1) in
        let! temp := elem_get a i in
        let! y := elem_get a j in
        let! a := elem_set a i y in
        let! a := elem_set a j temp in
        shuffle_loop rnd n (i - 1) seed a
    end.

  (** shuffle_object, Array.spvm:1045-1063. *)
  Definition shuffle (rnd : Z -> Z * Z) (array : option (list A)) (seed : Z) : outcome (list A * Z) :=
    match array with
    | None => Die "The array $array must be defined."
    | Some a => shuffle_loop rnd (Z.to_nat (zlen a - 1)) (zlen a - 1) seed a
    end.

  (** Array.spvm:1502-1504, the object branch of repeat: the loop runs over the
      length of the array and copies [count] elements each time. *)
  Fixpoint repeat_loop (array : list A) (count : Z) (n : nat) (i : Z) (ret : list A) : list A * outcome unit :=
    match n with
    | O => (ret, Ret tt)
    | S n =>
        match memcpy_object_address (fun _ => true) false ret (wrap32 (count * i)) array 0 count with
        | (ret, Ret _) => repeat_loop array count n (i + 1) ret
        | other => other
        end
    end.

  (** repeat, Array.spvm:1477-1511, for an object array. *)
  Definition repeat_array (zero : A) (array : option (list A)) (count : Z) : outcome (list A) :=
    match array with
    | None => Die "The array $array must be defined."
    | Some array =>
      check! count >=? 0 else "The repeat count $count must be a non-negative integer." in
      let length := zlen array in
      let! ret := new_elems (wrap32 (count * length)) zero in
      match repeat_loop array count (Z.to_nat length) 0 ret with
      | (ret, Ret _) => Ret ret
      | (_, Die e) => Die e
      | (_, UB) => UB
      | (_, Fuel) => Fuel
      end
    end.
End Array.

(** SPVM__Fn__static__rand_r and SPVM__Fn__crand, Fn.c:117-146: the value and
    the new seed.  The seed is an unsigned 32-bit number stored in an int. *)
Definition rand_next (x : Z) : Z := u32 (u32 (x * 1103515245) + 12345).
Definition crand (seed : Z) : Z * Z :=
  let next := rand_next (u32 seed) in
  let result := (next / 65536) mod 2048 in
  let next := rand_next next in
  let result := Z.lxor (result * 1024) ((next / 65536) mod 1024) in
  let next := rand_next next in
  let result := Z.lxor (result * 1024) ((next / 65536) mod 1024) in
  (result, wrap32 next).
