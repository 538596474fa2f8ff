(** * Raw byte copy, comparison, reversal and endian conversion of Fn

    Models lib/SPVM/Fn.c: SPVM__Fn__memcpy (346-403), SPVM__Fn__memmove
    (405-462), SPVM__Fn__memcmp (811-862), and lib/SPVM/Fn.spvm: memset_char
    (1252-1275), reverse_inplace (1417-1477), slice (1579-1604), change_endian
    (1689-1720) and the four endian conversions (1722-1752), on a heap of
    objects seen as blocks of bytes.  Addresses are positions in the heap;
    [None] is undef.  Memory never runs out. *)

From Verif Require Import Base CLib Array_model.

(** What the functions ask about an object: is it a string, a numeric array, a
    multi-numeric array, or something else (spvm_api.c is_string,
    is_numeric_array, is_mulnum_array). *)
Inductive kind := KString | KNumArray | KMulArray | KOther.

(** An object: kind, read-only flag, size of an element (get_elem_size,
    spvm_api.c:2936-3002), number of elements, bytes (0..255). *)
Record blob := mk_blob {
  b_kind : kind;
  b_read_only : bool;
  b_elem_size : Z;
  b_length : Z;
  b_data : list Z
}.

Definition heap := list blob.
Definition ref := option Z.

Definition is_raw (b : blob) : bool :=
  match b_kind b with KOther => false | _ => true end.

Definition with_data (b : blob) (data : list Z) : blob :=
  mk_blob (b_kind b) (b_read_only b) (b_elem_size b) (b_length b) data.

(** int32_t multiplication in C. *)
Definition c_mul (a b : Z) : outcome Z :=
  if (INT32_MIN <=? a * b) && (a * b <=? INT32_MAX) then Ret (a * b) else UB.

(** dest_elem_size * dest_length, Fn.c:384-386. *)
Definition byte_length (b : blob) : outcome Z := c_mul (b_elem_size b) (b_length b).

(** A defined object of a raw type, Fn.c:354-368. *)
Definition get_raw (h : heap) (o : ref) (e_undef e_type : string) : outcome (Z * blob) :=
  match o with
  | None => Die e_undef
  | Some a =>
      match znth h a with
      | None => UB
      | Some b => check! is_raw b else e_type in Ret (a, b)
      end
  end.

Definition e_dest_undef : string := "The destination $dest must be defined.".
Definition e_dest_type : string := "The type of the dest $dest must be string type, a numeric array type, or a multi-numeric array type.".
Definition e_source_undef : string := "The source $source must be defined.".
Definition e_source_type : string := "The type of the source $source must be string type, a numeric array type, or a multi-numeric array type.".
Definition e_read_only : string := "The destination $dest must not be a read-only string.".
Definition e_length : string := "The length $length must be greater than or equal to 0.".
Definition e_dest_range : string := "The offset $dest_offset + the length $length must be less than or equal to the length of the dest $obj_dest.".
Definition e_source_range : string := "The offset $source_offset + the length $length must be less than or equal to the length of the source $source.".

(** The C functions memcpy ([move] = false) and memmove ([move] = true) on two
    objects: undefined behaviour outside the data, and for memcpy when the
    ranges overlap. *)
Definition c_copy (move : bool) (h : heap) (d : Z) (bd : blob) (doff : Z) (s : Z) (bs : blob) (soff n : Z)
  : outcome heap :=
  let! data := block_copy (b_data bd) doff (b_data bs) soff n in
  if negb move && (d =? s) && (doff <? soff + n) && (soff <? doff + n) then UB
  else Ret (zupd h d (with_data bd data)).

(** memcpy, Fn.c:346-403, and memmove, Fn.c:405-462; the two differ in the
    library function called and in the wording of three messages (the model
    uses one wording). *)
Definition fn_copy (move : bool) (h : heap) (dest : ref) (dest_offset : Z) (source : ref) (source_offset : Z)
    (length : Z) : outcome heap :=
  let! (d, bd) := get_raw h dest e_dest_undef e_dest_type in
  let! (s, bs) := get_raw h source e_source_undef e_source_type in
  check! negb (b_read_only bd) else e_read_only in
  check! length >=? 0 else e_length in
  if length =? 0 then Ret h
  else
    let! dest_byte_length := byte_length bd in
    let! dest_end := c_add dest_offset length in
    check! dest_end <=? dest_byte_length else e_dest_range in
    let! source_byte_length := byte_length bs in
    let! source_end := c_add source_offset length in
    check! source_end <=? source_byte_length else e_source_range in
    c_copy move h d bd dest_offset s bs source_offset length.

Definition fn_memcpy := fn_copy false.
Definition fn_memmove := fn_copy true.

(** memcmp, Fn.c:811-862.  The value is normalised to -1, 0, 1 (CLib). *)
Definition fn_memcmp (h : heap) (data1 : ref) (data1_offset : Z) (data2 : ref) (data2_offset : Z) (length : Z)
  : outcome Z :=
  let! (_, b1) := get_raw h data1 "The data1 $data1 must be defined." "The type of the data1 $data1 must be string type, a numeric array type, or a multi-numeric array type." in
  let! (_, b2) := get_raw h data2 "The data2 $data2 must be defined." "The type of the data2 $data2 must be string type, a numeric array type, or a multi-numeric array type." in
  check! length >=? 0 else e_length in
  let! byte_length1 := byte_length b1 in
  let! end1 := c_add data1_offset length in
  check! end1 <=? byte_length1 else "The offset $data1_offset + the length $length must be less than or equal to the length of the data1 $obj_data1." in
  let! byte_length2 := byte_length b2 in
  let! end2 := c_add data2_offset length in
  check! end2 <=? byte_length2 else "The offset $data2_offset + the length $length must be less than or equal to the length of the data2 $data2." in
  if (0 <=? data1_offset) && (data1_offset + length <=? zlen (b_data b1)) &&
     (0 <=? data2_offset) && (data2_offset + length <=? zlen (b_data b2))
  then Ret (memcmp (zdrop data1_offset (b_data b1)) (zdrop data2_offset (b_data b2)) length)
  else UB.

(** Bytes stored by SPVM code: (byte)$char keeps the low eight bits. *)
Definition to_byte (c : Z) : Z := u8 c.

(** memset_char, Fn.spvm:1252-1275, on the bytes of the string.  The loop of
    1272-1274 runs [n] more times, from counter [i]; stores are
    bounds-checked. *)
Fixpoint memset_loop (n : nat) (s : list Z) (char offset i : Z) : list Z * outcome unit :=
  match n with
  | O => (s, Ret tt)
  | S n =>
      match elem_set s (wrap32 (offset + i)) (to_byte char) with
      | Ret s => memset_loop n s char offset (i + 1)
      | Die e => (s, Die e)
      | UB => (s, UB)
      | Fuel => (s, Fuel)
      end
  end.
Definition memset_char (s : list Z) (char offset length : Z) : list Z * outcome unit :=
  if negb (offset >=? 0) then (s, Die "The offset $offset must be greater than or equal to 0.")
  else
    let string_length := zlen s in
    let length := if length <? 0 then wrap32 (string_length - offset) else length in
    if negb (wrap32 (offset + length) <=? string_length) then
      (s, Die "The offset $offset + the length $length must be less than or equal to the length of the string $string.")
    else memset_loop (Z.to_nat length) s char offset 0.

(** The swapping loop of reverse_inplace for strings and object arrays,
    Fn.spvm:1440-1444 and 1452-1456: [n] more iterations from counter [i]. *)
Fixpoint swap_loop {A} (n : nat) (s : list A) (length i : Z) : outcome (list A) :=
  match n with
  | O => Ret s
  | S n =>
      let! temp := elem_get s i in
      let! x := elem_get s (wrap32 (wrap32 (length - i) - 1)) in
      let! s := elem_set s i x in
      let! s := elem_set s (wrap32 (wrap32 (length - i) - 1)) temp in
      swap_loop n s length (i + 1)
  end.

(** The loop for numeric and multi-numeric arrays, Fn.spvm:1468-1475; [t] is
    the address of the temporary byte array. *)
Fixpoint elem_swap_loop (n : nat) (h : heap) (t a : Z) (elem_size length i : Z) : outcome heap :=
  match n with
  | O => Ret h
  | S n =>
      let lo := wrap32 (elem_size * i) in
      let hi := wrap32 (elem_size * wrap32 (wrap32 (length - i) - 1)) in
      let! h := fn_memcpy h (Some t) 0 (Some a) lo elem_size in
      let! h := fn_memcpy h (Some a) lo (Some a) hi elem_size in
      let! h := fn_memcpy h (Some a) hi (Some t) 0 elem_size in
      elem_swap_loop n h t a elem_size length (i + 1)
  end.

(** reverse_inplace, Fn.spvm:1417-1477.  Simplified: an array of objects is not
    a byte block here and is left out ([KOther] covers every other type). *)
Definition reverse_inplace (h : heap) (o : ref) : outcome heap :=
  match o with
  | None => Die "$array_or_string must be defined."
  | Some a =>
      match znth h a with
      | None => UB
      | Some b =>
          let length := b_length b in
          match b_kind b with
          | KString =>
              check! negb (b_read_only b) else "The string $array_or_string must not be read-only." in
              let! data := swap_loop (Z.to_nat (length ÷ 2)) (b_data b) length 0 in
              Ret (zupd h a (with_data b data))
          | KNumArray | KMulArray =>
              let elem_size := b_elem_size b in
              let t := zlen h in
              elem_swap_loop (Z.to_nat (length ÷ 2))
                (h ++ [mk_blob KNumArray false 1 elem_size (zrep elem_size 0)]) t a elem_size length 0
          | KOther => Die "The type of $array_or_string must be an array type or string type."
          end
      end
  end.

(** slice for numeric and multi-numeric arrays, Fn.spvm:1579-1604, with
    new_proto_any, Array.c:622-642; the new array is the last object. *)
Definition slice_numeric (h : heap) (o : ref) (offset length : Z) : outcome heap :=
  match o with
  | None => Die "The array $array must be defined."
  | Some a =>
      match znth h a with
      | None => UB
      | Some b =>
          match b_kind b with
          | KNumArray | KMulArray =>
              check! length >=? 0 else e_length in
              let elem_size := b_elem_size b in
              let sliced := mk_blob (b_kind b) false elem_size length (zrep (elem_size * length) 0) in
              fn_memcpy (h ++ [sliced]) (Some (zlen h)) 0 (Some a)
                (wrap32 (elem_size * offset)) (wrap32 (elem_size * length))
          | _ => Die "The type of the array $array must be an object array type, a numeric array type or a multi-numeric array type."
          end
      end
  end.

(** change_endian, Fn.spvm:1689-1720.  [binary] has type mutable string. *)
Definition change_endian (h : heap) (binary : ref) (size offset : Z) : outcome heap :=
  match binary with
  | None => Die "The binary data $binary must be defined."
  | Some a =>
      check! size >? 0 else "The byte size $size must be greater than 0." in
      check! offset >=? 0 else "The offset $offset must be greater than or equal to 0." in
      match znth h a with
      | None => UB
      | Some b =>
          check! wrap32 (offset + size) <=? b_length b
            else "The byte size $size must be less than or equal to the offset $offset plus the length of the binary data $binary." in
          if size =? 1 then Ret h
          else
            let buffer := zlen h in
            let h := h ++ [mk_blob KString false 1 size (zrep size 0)] in
            let! h := fn_memcpy h (Some buffer) 0 binary offset size in
            let! h := reverse_inplace h (Some buffer) in
            fn_memcpy h binary offset (Some buffer) 0 size
      end
  end.

(** The conversions, Fn.spvm:1722-1752; [little] is system_is_little_endian
    (Fn.c:864-883). *)
Definition big_endian_to_system_endian (little : bool) (h : heap) (binary : ref) (size offset : Z) : outcome heap :=
  if little then change_endian h binary size offset else Ret h.
Definition system_endian_to_big_endian (little : bool) (h : heap) (binary : ref) (size offset : Z) : outcome heap :=
  if little then change_endian h binary size offset else Ret h.
Definition little_endian_to_system_endian (little : bool) (h : heap) (binary : ref) (size offset : Z) : outcome heap :=
  if negb little then change_endian h binary size offset else Ret h.
Definition system_endian_to_little_endian (little : bool) (h : heap) (binary : ref) (size offset : Z) : outcome heap :=
  if negb little then change_endian h binary size offset else Ret h.
