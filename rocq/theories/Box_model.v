(** * Boxing and unboxing

    Models lib/SPVM/Builder/include/spvm_implement.h:2231-2390. *)

From Verif Require Import Base Bytes.

(** The basic types of a runtime: the name of each, its id is its index
    (spvm_api_runtime.c get_basic_type_by_id, get_basic_type_by_name). *)
Notation runtime := (list string).

Definition basic_type_by_id (rt : runtime) (id : Z) : option string := znth rt id.

Fixpoint index_of (n : string) (rt : runtime) (i : Z) : option Z :=
  match rt with
  | [] => None
  | x :: r => if String.eqb x n then Some i else index_of n r (i + 1)
  end.
Definition basic_type_by_name (rt : runtime) (n : string) : option Z := index_of n rt 0.

(** An object: basic type id, type dimension, data block. *)
Record object := mk_object { o_type : Z; o_dim : Z; o_data : list Z }.

Definition UNBOX_UNDEF : string := "An unboxing conversion failed. The operand must defined.".
Definition UNBOX_TYPE : string :=
  "An unboxing conversion failed. The destination type must be a numeric object type corresponding to the source type of the operand.".

(** spvm_native.h: SPVM_NATIVE_C_BASIC_TYPE_ID_{BYTE..DOUBLE}_CLASS. *)
Definition class_id (k : nkind) : Z :=
  match k with KByte => 11 | KShort => 12 | KInt => 13 | KLong => 14 | KFloat => 15 | KDouble => 16 end.

(** The name given to is_type_by_name in spvm_implement.h:2279-2390. *)
Definition class_name (k : nkind) : string :=
  match k with
  | KByte => "Byte" | KShort => "Short" | KInt => "Int"
  | KLong => "Long" | KFloat => "Float" | KDouble => "Double"
  end.

(** spvm_api.c:3800-3823 new_object_no_mortal: [fields_size + 1] zero bytes
    after the header. The classes Byte, ..., Double have one field, [value]
    (spvm_compiler.c:525-600), so fields_size is the size of the number. *)
Definition new_number_object (rt : runtime) (k : nkind) : outcome object :=
  match basic_type_by_id rt (class_id k) with
  | None => UB
  | Some _ => Ret (mk_object (class_id k) 0 (zrep (ksize k + 1) 0))
  end.

(** spvm_implement.h:2231-2277 [X_TO_X_OBJECT]. *)
Definition box (rt : runtime) (k : nkind) (v : Z) : outcome object :=
  let! o := new_number_object rt k in
  let! d := store_at (o_data o) 0 (encode k v) in
  Ret (mk_object (o_type o) (o_dim o) d).

(** spvm_api.c:4526-4550 is_type, is_type_by_name. *)
Definition is_type_by_name (rt : runtime) (o : object) (n : string) (dim : Z) : bool :=
  match basic_type_by_name rt n with
  | None => false
  | Some id => (o_type o =? id) && (o_dim o =? dim)
  end.

(** spvm_implement.h:2279-2390 [X_OBJECT_TO_X]. *)
Definition unbox (rt : runtime) (k : nkind) (o : option object) : outcome Z :=
  match o with
  | None => Die UNBOX_UNDEF
  | Some o =>
      if is_type_by_name rt o (class_name k) 0 then
        let! b := load_at (o_data o) 0 (ksize k) in Ret (decode k b)
      else Die UNBOX_TYPE
  end.
