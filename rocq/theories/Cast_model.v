(** * Model of type casts: the choice of the instruction and its execution

    Builder/src/spvm_opcode_builder.c:2734-3243 (SPVM_OP_C_ID_TYPE_CAST),
    spvm_check.c:3363-3398 (the check of a cast), spvm_check.c:4212-4265
    (SPVM_CHECK_check_assign), include/spvm_implement.h:384-409 and 2053-2390.

    Simplifications.
    - A value is a number of a numeric basic type, another non-object value
      (a reference or a multi-numeric value, which no cast changes), undef or
      an object. The arithmetic of the numeric conversions is the argument
      [num_conv], [string_num], [num_string] (VmConv_model.v models the
      integer ones); a new object gets the identity [fresh].
    - The six branches for the numeric types, and the six for the numeric
      classes, have the same form and are written once.
    - A failing assertion is [UB] (in a build without assertions an instruction
      with id 0 is emitted). *)

From Verif Require Import Base CLib VmConv_model Type_model.

(** An object: identity, dynamic type, read-only flag, and its bytes when it
    is a string or a byte array, or its number when it is of a numeric class. *)
Record obj : Type := Obj { o_ref : Z; o_dyn : Z * Z; o_ro : bool; o_bytes : list Z; o_num : Z }.

Inductive value : Type :=
| VNum (id : Z) (n : Z)
| VOther (t : ty)
| VUndef
| VObj (o : obj).

(** The instructions a cast becomes. *)
Inductive cast_op : Type :=
| MoveUndef                      (* MOVE_OBJECT_UNDEF *)
| Move                           (* MOVE_BYTE ... MOVE_DOUBLE, MOVE_OBJECT *)
| NumConv (src dist : Z)         (* TYPE_CONVERSION_X_TO_Y *)
| Unbox (dist : Z)               (* TYPE_CONVERSION_X_OBJECT_TO_X *)
| StringToNum (dist : Z)         (* TYPE_CONVERSION_STRING_TO_X *)
| BoxNum (cls : Z)               (* TYPE_CONVERSION_X_TO_X_OBJECT *)
| MoveTypeCheck (id dim : Z)     (* MOVE_OBJECT_WITH_TYPE_CHECK *)
| MoveCheckReadOnly              (* MOVE_OBJECT_CHECK_READ_ONLY_STRING *)
| ByteArrayToString
| NumToString (src : Z)          (* TYPE_CONVERSION_X_TO_STRING *)
| StringToByteArray
| AssertFails.

Section Program.
  Variable p : prog.
  Variable w f : nat.

  (** spvm_opcode_builder.c:2742-3243. *)
  Definition select_cast (d s : ty) : outcome cast_op :=
    (* 2744-2759 *)
    if is_undef s then Ret (if is_object p d then MoveUndef else AssertFails)
    (* 2769-2981 *)
    else if is_numeric d then
      Ret (if is_numeric s then (if t_id s =? t_id d then Move else NumConv (t_id s) (t_id d))
           else if is_numeric_object s && (t_id s =? t_id d + UPGRADE_SHIFT) then Unbox (t_id d)
           else if is_any_object s then Unbox (t_id d)
           else if is_string s then StringToNum (t_id d)
           else AssertFails)
    (* 2983-2986 *)
    else if is_mulnum p d then Ret AssertFails
    (* 2987-3106 *)
    else if is_numeric_object d then
      Ret (if is_numeric_object s && (t_id s =? t_id d) then Move
           else if is_numeric s && (t_id d =? t_id s + UPGRADE_SHIFT) then BoxNum (t_id d)
           else if is_any_object s then MoveTypeCheck (t_id d) (t_dim d)
           else AssertFails)
    (* 3107-3152 *)
    else if is_string d then
      Ret (if is_string s then (if is_mutable d && negb (is_mutable s) then MoveCheckReadOnly else Move)
           else if is_byte_array s then ByteArrayToString
           else if is_any_object s then
             (if is_mutable d then MoveCheckReadOnly else MoveTypeCheck (t_id d) (t_dim d))
           else if is_numeric s then NumToString (t_id s)
           else AssertFails)
    (* 3153-3173 *)
    else if is_byte_array d then
      Ret (if is_byte_array s then Move
           else if is_string s then StringToByteArray
           else if is_any_object s then MoveTypeCheck (t_id d) (t_dim d)
           else AssertFails)
    (* 3174-3199 *)
    else if is_any_object d then
      Ret (if is_object p s then Move
           else if is_numeric s then BoxNum (t_id s + UPGRADE_SHIFT)
           else AssertFails)
    (* 3200-3231 *)
    else if is_object p d then
      if is_object p s then
        let! ok := can_assign_types p w f d s in
        Ret (if ok then Move else MoveTypeCheck (t_id d) (t_dim d))
      else Ret AssertFails
    else Ret AssertFails.

  (** spvm_check.c:3363-3398: the check, and the removal of a cast between
      equal types; [None] is a compile error. *)
  Definition compile_cast (d s : ty) : outcome (option cast_op) :=
    let! ok := satisfy_cast p w f d s in
    if negb ok then Ret None
    else if ty_equals d s then Ret (Some Move)
    else let! op := select_cast d s in Ret (Some op).

  (** SPVM_CHECK_check_assign, spvm_check.c:4212-4265: the source of an
      assignment, initialization, argument or return value. A cast is inserted
      exactly when the assignment needs a conversion. *)
  Definition compile_assign (narrow : bool) (d s : ty) : outcome (option cast_op) :=
    if is_void s then Ret None
    else
      let! (ok, conversion) := satisfy_assignment p w (has_interface p w f) narrow false d s in
      if negb ok then Ret None
      else if conversion then let! op := select_cast d s in Ret (Some op)
      else Ret (Some Move).

  Variable num_conv : Z -> Z -> Z -> Z.
  Variable string_num : Z -> option (list Z) -> Z.
  Variable num_string : Z -> Z -> list Z.
  Variable fresh : Z.

  Definition MSG_NON_ASSIGNABLE : string := "An assignment failed. The right operand does not satisfy type assignability.".
  Definition MSG_READ_ONLY : string := "A read-only string cannnot be cast to mutable string type.".
  Definition MSG_UNBOX_UNDEF : string := "An unboxing conversion failed. The operand must defined.".
  Definition MSG_UNBOX_TYPE : string := "An unboxing conversion failed. The destination type must be a numeric object type corresponding to the source type of the operand.".

  (** The execution of one instruction. An operand of the wrong kind (its
      register is in another array) is [UB]. *)
  Definition run_cast (c : cast_op) (v : value) : outcome value :=
    match c with
    | MoveUndef => Ret VUndef
    | Move => Ret v
    | NumConv src dist =>
        match v with
        | VNum id n => if id =? src then Ret (VNum dist (num_conv src dist n)) else UB
        | _ => UB
        end
    | Unbox dist =>
        (* spvm_implement.h:2279-2390 *)
        match v with
        | VUndef => Die MSG_UNBOX_UNDEF
        | VObj o =>
            if (fst (o_dyn o) =? dist + UPGRADE_SHIFT) && (snd (o_dyn o) =? 0)
            then Ret (VNum dist (o_num o)) else Die MSG_UNBOX_TYPE
        | _ => UB
        end
    | StringToNum dist =>
        (* spvm_implement.h:2113-2206: undef gives 0 *)
        match v with
        | VUndef => Ret (VNum dist (string_num dist None))
        | VObj o =>
            if (fst (o_dyn o) =? ID_STRING) && (snd (o_dyn o) =? 0)
            then Ret (VNum dist (string_num dist (Some (o_bytes o)))) else UB
        | _ => UB
        end
    | BoxNum cls =>
        (* spvm_implement.h:2231-2277 *)
        match v with
        | VNum id n => if id + UPGRADE_SHIFT =? cls then Ret (VObj (Obj fresh (cls, 0) false [] n)) else UB
        | _ => UB
        end
    | MoveTypeCheck id dim =>
        (* spvm_implement.h:384-395; SPVM_API_isa of undef is true,
           spvm_api.c:4557 *)
        match v with
        | VUndef => Ret VUndef
        | VObj o =>
            let! ok := isa p w f (o_dyn o) id dim in
            if ok then Ret v else Die MSG_NON_ASSIGNABLE
        | _ => UB
        end
    | MoveCheckReadOnly =>
        (* spvm_implement.h:397-409 *)
        match v with
        | VUndef => Ret VUndef
        | VObj o =>
            if (fst (o_dyn o) =? ID_STRING) && (snd (o_dyn o) =? 0) && o_ro o then Die MSG_READ_ONLY else Ret v
        | _ => UB
        end
    | ByteArrayToString =>
        (* spvm_implement.h:2224-2229: undef is dereferenced *)
        match v with
        | VObj o =>
            if (fst (o_dyn o) =? ID_BYTE) && (snd (o_dyn o) =? 1) then
              let! b := bytes_to_string (Some (o_bytes o)) in
              Ret (VObj (Obj fresh (ID_STRING, 0) false b 0))
            else UB
        | _ => UB
        end
    | NumToString src =>
        (* spvm_implement.h:2053-2111 *)
        match v with
        | VNum id n => if id =? src then Ret (VObj (Obj fresh (ID_STRING, 0) false (num_string src n) 0)) else UB
        | _ => UB
        end
    | StringToByteArray =>
        (* spvm_implement.h:2209-2222 *)
        match v with
        | VUndef => Ret VUndef
        | VObj o =>
            if (fst (o_dyn o) =? ID_STRING) && (snd (o_dyn o) =? 0) then
              match string_to_bytes (Some (o_bytes o)) with
              | Some b => Ret (VObj (Obj fresh (ID_BYTE, 1) false b 0))
              | None => Ret VUndef
              end
            else UB
        | _ => UB
        end
    | AssertFails => UB
    end.
End Program.
