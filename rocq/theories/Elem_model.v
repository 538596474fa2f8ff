(** * Array creation and element access

    Models, of lib/SPVM/Builder/include/spvm_implement.h and
    lib/SPVM/Builder/src/spvm_api.c, the creation of numeric and multi-numeric
    arrays and the access to their elements. The data part of an array object
    is a block of bytes (calloc: zeros); the header is represented by the
    fields of the record. Reading or writing outside the block is [UB]. *)

From Verif Require Import Base Bytes.

Definition ARRAY_UNDEFINED : string := "An array access failed. The array must be defined.".
Definition INDEX_OUT_OF_RANGE : string := "An array access failed. The index is out of range.".
Definition NOT_ASSIGNABLE : string := "An array setting failed. The element does not satisfy type assignability.".
Definition NEW_ARRAY_FAILED : string := "A new operator to create an array failed. Memory allocation failed.".
Definition NEW_ARRAY_LENGTH : string :=
  "A new operator to create an array failed. The length must be a non-negative integer.".

(** Signed int32_t arithmetic: undefined on overflow (ISO C 6.5 p5), or
    wrapping as with -fwrapv (no build file of /repo asks for it). *)
Inductive amode := Strict | Wrapping.

Definition i32 (m : amode) (x : Z) : outcome Z :=
  match m with
  | Strict => if (INT32_MIN <=? x) && (x <=? INT32_MAX) then Ret x else UB
  | Wrapping => Ret (wrap32 x)
  end.

(** An array object: element type, number of fields of an element (1 for a
    numeric array), length (header), data block. *)
Record arr := mk_arr { a_kind : nkind; a_fields : Z; a_length : Z; a_data : list Z }.

Section Alloc.
(** calloc: which sizes it can serve. The header (a few bytes) is left out of
    the size. *)
Variable alloc : Z -> bool.

Definition new_block (k : nkind) (fields length size : Z) : outcome (option arr) :=
  if alloc size then Ret (Some (mk_arr k fields length (zrep size 0))) else Die NEW_ARRAY_FAILED.

(** spvm_api.c:3868-3950 new_{byte,short,int,long,float,double}_array_no_mortal
    under spvm_implement.h:636-740 NEW_*_ARRAY: [sizeof(T) * (length + 1)],
    where [length + 1] is an int32_t sum, converted to size_t. *)
Definition new_numeric_array (m : amode) (k : nkind) (length : Z) : outcome (option arr) :=
  if length <? 0 then Die NEW_ARRAY_LENGTH
  else
    let! n := i32 m (length + 1) in
    new_block k 1 length (u64 (ksize k * u64 n)).

(** spvm_api.c:4047-4087 new_mulnum_array_no_mortal under spvm_implement.h:616-634:
    [unit_size * fields_length * (length + 1)], all int32_t, converted to
    size_t. *)
Definition new_mulnum_array (m : amode) (k : nkind) (fields length : Z) : outcome (option arr) :=
  if length <? 0 then Die NEW_ARRAY_LENGTH
  else
    let! a := i32 m (ksize k * fields) in
    let! n := i32 m (length + 1) in
    let! size := i32 m (a * n) in
    new_block k fields length (u64 size).
End Alloc.

(** The test common to all accesses: spvm_implement.h:790-799 and its copies. *)
Definition checked {A} (a : option arr) (index : Z) (k : arr -> outcome A) : outcome A :=
  match a with
  | None => Die ARRAY_UNDEFINED
  | Some a =>
      if (index <? 0) || (a_length a <=? index) then Die INDEX_OUT_OF_RANGE else k a
  end.

(** Reading and writing the [j]-th number of the block. *)
Definition cell_get (a : arr) (j : Z) : outcome Z :=
  let! b := load_at (a_data a) (ksize (a_kind a) * j) (ksize (a_kind a)) in
  Ret (decode (a_kind a) b).
Definition cell_set (a : arr) (j v : Z) : outcome arr :=
  let! d := store_at (a_data a) (ksize (a_kind a) * j) (encode (a_kind a) v) in
  Ret (mk_arr (a_kind a) (a_fields a) (a_length a) d).

(** spvm_implement.h:785-898 GET_ARRAY_ELEMENT_{BYTE..DOUBLE}. *)
Definition get_elem (a : option arr) (index : Z) : outcome Z :=
  checked a index (fun a => cell_get a index).
(** spvm_implement.h:919-1018 SET_ARRAY_ELEMENT_{BYTE..DOUBLE}. *)
Definition set_elem (a : option arr) (index v : Z) : outcome arr :=
  checked a index (fun a => cell_set a index v).

(** [fields_length * index + field_index] (int32_t arithmetic), in the
    multi-numeric accesses. *)
Definition slot (m : amode) (a : arr) (index field : Z) : outcome Z :=
  let! p := i32 m (a_fields a * index) in i32 m (p + field).

(** spvm_implement.h:1756-1862 GET_MULNUM_ARRAY_FIELD_*. *)
Definition get_field (m : amode) (a : option arr) (index field : Z) : outcome Z :=
  checked a index (fun a => let! j := slot m a index field in cell_get a j).
(** spvm_implement.h:1864-1970 SET_MULNUM_ARRAY_FIELD_*. *)
Definition set_field (m : amode) (a : option arr) (index field v : Z) : outcome arr :=
  checked a index (fun a => let! j := slot m a index field in cell_set a j v).

(** spvm_implement.h:1504-1628 GET_MULNUM_ARRAY_*: the loop over the fields.
    [n] fields remain, the next one is [field]. *)
Fixpoint get_all_loop (m : amode) (a : arr) (index field : Z) (n : nat) : outcome (list Z) :=
  match n with
  | O => Ret []
  | S n' =>
      let! j := slot m a index field in
      let! v := cell_get a j in
      let! r := get_all_loop m a index (field + 1) n' in
      Ret (v :: r)
  end.
Definition get_all (m : amode) (a : option arr) (index : Z) : outcome (list Z) :=
  checked a index (fun a => get_all_loop m a index 0 (Z.to_nat (a_fields a))).

(** spvm_implement.h:1630-1754 SET_MULNUM_ARRAY_*. *)
Fixpoint set_all_loop (m : amode) (a : arr) (index field : Z) (vs : list Z) : outcome arr :=
  match vs with
  | [] => Ret a
  | v :: vs' =>
      let! j := slot m a index field in
      let! a' := cell_set a j v in
      set_all_loop m a' index (field + 1) vs'
  end.
Definition set_all (m : amode) (a : option arr) (index : Z) (vs : list Z) : outcome arr :=
  checked a index (fun a => set_all_loop m a index 0 vs).

(** spvm_implement.h:1091-1100 ARRAY_LENGTH. *)
Definition array_length (a : option arr) : outcome Z :=
  match a with None => Die ARRAY_UNDEFINED | Some a => Ret (a_length a) end.

(** ** Programs on one array variable *)

Inductive op :=
| EGet (i : Z) | ESet (i v : Z)                    (* numeric arrays *)
| FGet (i f : Z) | FSet (i f v : Z)                (* multi-numeric arrays *)
| AGet (i : Z) | ASet (i : Z) (vs : list Z)
| Len.

Inductive out := ONum (v : Z) | OTuple (vs : list Z) | ODone.

Definition keep {A} (s : option arr) (o : outcome A) (f : A -> out) : option arr * outcome out :=
  (s, let! x := o in Ret (f x)).
Definition put (s : option arr) (o : outcome arr) : option arr * outcome out :=
  match o with
  | Ret a => (Some a, Ret ODone)
  | Die e => (s, Die e)
  | UB => (s, UB)
  | Fuel => (s, Fuel)
  end.

Definition step (m : amode) (s : option arr) (o : op) : option arr * outcome out :=
  match o with
  | EGet i => keep s (get_elem s i) ONum
  | ESet i v => put s (set_elem s i v)
  | FGet i f => keep s (get_field m s i f) ONum
  | FSet i f v => put s (set_field m s i f v)
  | AGet i => keep s (get_all m s i) OTuple
  | ASet i vs => put s (set_all m s i vs)
  | Len => keep s (array_length s) ONum
  end.

Fixpoint run (m : amode) (s : option arr) (os : list op) : list (outcome out) :=
  match os with
  | [] => []
  | o :: r => let (s', x) := step m s o in x :: run m s' r
  end.

(** ** Arrays of objects

    The elements are references (here: handles, 0 for undef). The reference
    counts kept by [assign_object] are the subject of Mem_model.v. *)

(** spvm_implement.h:900-917 GET_ARRAY_ELEMENT_OBJECT, 1020-1037
    SET_ARRAY_ELEMENT_OBJECT, 1039-1068 .._CHECK_TYPE ([isa] is elem_isa for
    this array, spvm_api.c:4510-4524; the plain form is the one with [isa]
    always true). *)
Definition get_object (a : option (list Z)) (index : Z) : outcome Z :=
  match a with
  | None => Die ARRAY_UNDEFINED
  | Some l =>
      if (index <? 0) || (zlen l <=? index) then Die INDEX_OUT_OF_RANGE
      else match znth l index with Some x => Ret x | None => UB end
  end.
Definition set_object (isa : Z -> bool) (a : option (list Z)) (index x : Z) : outcome (list Z) :=
  match a with
  | None => Die ARRAY_UNDEFINED
  | Some l =>
      if (index <? 0) || (zlen l <=? index) then Die INDEX_OUT_OF_RANGE
      else if isa x then Ret (zupd l index x) else Die NOT_ASSIGNABLE
  end.
