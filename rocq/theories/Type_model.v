(** * Model of the type rules of the compiler and the runtime

    Builder/src/spvm_type.c, spvm_basic_type.c, the class relation checks of
    spvm_check.c, SPVM_API_TYPE_can_assign (spvm_api_type.c), SPVM_API_isa and
    SPVM_API_get_instance_method (spvm_api.c).

    Simplifications.
    - A program is the list of its basic types, a basic type being identified
      by its position (basic_type->id). compiler->basic_type_symtable is the
      search for the first basic type of that name (C01 proves that the C hash
      is such a map); basic_type->parent, which spvm_check.c:97-115 reads from
      that table, is the search for parent_name. A basic type id outside the
      list has the unknown category and no method (SPVM_LIST_get would fail its
      assertion).
    - Names are byte lists without NUL. A method symtable is the search for
      the first method of that name.
    - error_reason is not modelled.
    - The walks along parents get the bound [w], and the recursion between
      interfaces the bound [f]; exceeding one is the distinct outcome [Fuel]. *)

From Verif Require Import Base CLib.

(** ** Types *)

(** SPVM_NATIVE_C_BASIC_TYPE_CATEGORY_*, spvm_native.h. *)
Inductive category : Type :=
| CUnknown | CUndef | CVoid | CNumeric | CMulnum | CString | CClass | CInterface | CAnyObject.

Definition cat_eqb (a b : category) : bool :=
  match a, b with
  | CUnknown, CUnknown | CUndef, CUndef | CVoid, CVoid | CNumeric, CNumeric | CMulnum, CMulnum
  | CString, CString | CClass, CClass | CInterface, CInterface | CAnyObject, CAnyObject => true
  | _, _ => false
  end.

(** A type: basic type id, dimension, flag (spvm_type.h). *)
Record ty : Type := Ty { t_id : Z; t_dim : Z; t_flag : Z }.

(** spvm_method.h: the arguments include the invocant of an instance method
    (spvm_op.c:1462-1490). *)
Record meth : Type := {
  m_name : list Z;
  m_is_class_method : bool;
  m_is_required : bool;
  m_args : list ty;
  m_required_args_length : Z;
  m_return : ty
}.

Record btype : Type := {
  bt_name : list Z;
  bt_category : category;
  bt_parent_name : option (list Z);
  bt_methods : list meth
}.

Definition prog : Type := list btype.

(** spvm_native.h, SPVM_NATIVE_C_BASIC_TYPE_ID_*. *)
Definition ID_UNDEF : Z := 1.
Definition ID_VOID : Z := 2.
Definition ID_BYTE : Z := 3.
Definition ID_SHORT : Z := 4.
Definition ID_INT : Z := 5.
Definition ID_LONG : Z := 6.
Definition ID_FLOAT : Z := 7.
Definition ID_DOUBLE : Z := 8.
Definition ID_STRING : Z := 9.
Definition ID_ANY_OBJECT : Z := 10.
Definition ID_BYTE_CLASS : Z := 11.
Definition ID_INT_CLASS : Z := 13.
Definition ID_DOUBLE_CLASS : Z := 16.
(** SPVM_BASIC_TYPE_C_NUMERIC_OBJECT_UPGRADE_SHIFT, spvm_basic_type.h. *)
Definition UPGRADE_SHIFT : Z := 8.

(** SPVM_NATIVE_C_TYPE_FLAG_REF = 1, _MUTABLE = 2. *)
Definition FLAG_REF : Z := 1.
Definition FLAG_MUTABLE : Z := 2.
Definition is_ref (t : ty) : bool := negb (Z.land (t_flag t) FLAG_REF =? 0).
Definition is_mutable (t : ty) : bool := negb (Z.land (t_flag t) FLAG_MUTABLE =? 0).

Definition name_eqb (a b : list Z) : bool := if list_eq_dec Z.eq_dec a b then true else false.

Section Program.
  Variable p : prog.

  Definition category_of (id : Z) : category :=
    match znth p id with Some b => bt_category b | None => CUnknown end.
  Definition methods_of (id : Z) : list meth :=
    match znth p id with Some b => bt_methods b | None => [] end.
  Definition name_of (id : Z) : list Z :=
    match znth p id with Some b => bt_name b | None => [] end.
  Definition parent_name_of (id : Z) : option (list Z) :=
    match znth p id with Some b => bt_parent_name b | None => None end.

  (** SPVM_HASH_get(compiler->basic_type_symtable, name). *)
  Fixpoint find_from (l : prog) (i : Z) (name : list Z) : option Z :=
    match l with
    | [] => None
    | b :: l' => if name_eqb (bt_name b) name then Some i else find_from l' (i + 1) name
    end.
  Definition find_basic_type (name : list Z) : option Z := find_from p 0 name.

  (** basic_type->parent. *)
  Definition parent_of (id : Z) : option Z :=
    match parent_name_of id with Some n => find_basic_type n | None => None end.

  (** *** Predicates on basic types, spvm_basic_type.c:117-215 *)
  Definition bt_is_numeric (id : Z) : bool := (ID_BYTE <=? id) && (id <=? ID_DOUBLE).
  Definition bt_is_numeric_object (id : Z) : bool := (ID_BYTE_CLASS <=? id) && (id <=? ID_DOUBLE_CLASS).
  Definition bt_is_string (id : Z) : bool := id =? ID_STRING.
  Definition bt_is_mulnum (id : Z) : bool := cat_eqb (category_of id) CMulnum.
  Definition bt_is_class (id : Z) : bool := cat_eqb (category_of id) CClass.
  Definition bt_is_interface (id : Z) : bool := cat_eqb (category_of id) CInterface.

  (** *** Predicates on types, spvm_type.c:20-478 *)
  Definition is_numeric (t : ty) : bool := (t_dim t =? 0) && bt_is_numeric (t_id t) && negb (is_ref t).
  Definition is_numeric_object (t : ty) : bool :=
    (t_dim t =? 0) && bt_is_numeric_object (t_id t) && negb (is_ref t).
  Definition is_mulnum (t : ty) : bool := (t_dim t =? 0) && bt_is_mulnum (t_id t) && negb (is_ref t).
  Definition is_string (t : ty) : bool := (t_dim t =? 0) && bt_is_string (t_id t) && negb (is_ref t).
  Definition is_class (t : ty) : bool := (t_dim t =? 0) && bt_is_class (t_id t) && negb (is_ref t).
  Definition is_interface (t : ty) : bool :=
    (t_dim t =? 0) && bt_is_interface (t_id t) && negb (is_ref t).
  Definition is_any_object (t : ty) : bool := (t_dim t =? 0) && (t_id t =? ID_ANY_OBJECT) && negb (is_ref t).
  Definition is_undef (t : ty) : bool := (t_dim t =? 0) && (t_id t =? ID_UNDEF) && negb (is_ref t).
  Definition is_void (t : ty) : bool := (t_dim t =? 0) && (t_id t =? ID_VOID) && negb (is_ref t).
  Definition is_array (t : ty) : bool := (t_dim t >? 0) && negb (is_ref t).
  Definition is_byte_array (t : ty) : bool := (t_dim t =? 1) && (t_id t =? ID_BYTE) && negb (is_ref t).
  Definition is_numeric_array (t : ty) : bool :=
    (t_dim t =? 1) && bt_is_numeric (t_id t) && negb (is_ref t).
  Definition is_mulnum_array (t : ty) : bool :=
    (t_dim t =? 1) && bt_is_mulnum (t_id t) && negb (is_ref t).
  Definition is_string_array (t : ty) : bool :=
    (t_dim t =? 1) && bt_is_string (t_id t) && negb (is_ref t).
  Definition is_class_array (t : ty) : bool :=
    (t_dim t =? 1) && bt_is_class (t_id t) && negb (is_ref t).
  Definition is_interface_array (t : ty) : bool :=
    (t_dim t =? 1) && bt_is_interface (t_id t) && negb (is_ref t).
  Definition is_any_object_array (t : ty) : bool :=
    (t_id t =? ID_ANY_OBJECT) && (t_dim t =? 1) && negb (is_ref t).
  Definition is_muldim_array (t : ty) : bool := (t_dim t >? 1) && negb (is_ref t).
  (** 227-255 *)
  Definition is_basic_object (t : ty) : bool :=
    is_string t || is_class t || is_interface t || is_any_object t.
  (** 212-225 *)
  Definition is_object (t : ty) : bool := is_array t || is_basic_object t.
  (** 272-286 *)
  Definition is_object_array (t : ty) : bool :=
    is_array t && is_object {| t_id := t_id t; t_dim := t_dim t - 1; t_flag := t_flag t |}.

  (** SPVM_TYPE_equals, spvm_type.c:1815-1823. *)
  Definition ty_equals (a b : ty) : bool :=
    (t_id a =? t_id b) && (t_dim a =? t_dim b) && (t_flag a =? t_flag b).

  (** SPVM_BASIC_TYPE_is_super_class, spvm_basic_type.c:328-360: the walk
      compares names. *)
  Fixpoint super_walk (w : nat) (dist_name : list Z) (parent_name : option (list Z)) : outcome bool :=
    match w with
    | O => Fuel
    | S w' =>
        match parent_name with
        | None => Ret false
        | Some n =>
            if name_eqb dist_name n then Ret true
            else match find_basic_type n with
                 | None => UB (* assert *)
                 | Some i => super_walk w' dist_name (parent_name_of i)
                 end
        end
    end.
  Definition is_super_class (w : nat) (dist src : Z) : outcome bool :=
    if negb (bt_is_class dist) then Ret false
    else if negb (bt_is_class src) then Ret false
    else super_walk w (name_of dist) (parent_name_of src).

  (** SPVM_HASH_get(basic_type->method_symtable, name). *)
  Definition own_method (id : Z) (name : list Z) : option meth :=
    find (fun m => name_eqb (m_name m) name) (methods_of id).

  (** The search of spvm_basic_type.c:289-305, of SPVM_CHECK_search_method
      (spvm_check.c:3914-3935) and of SPVM_API_get_instance_method
      (spvm_api.c:4339-4356): along the parents, the first basic type with a
      method of that name. *)
  Fixpoint search_method (w : nat) (id : option Z) (name : list Z) : outcome (option (Z * meth)) :=
    match w with
    | O => Fuel
    | S w' =>
        match id with
        | None => Ret None
        | Some i =>
            match own_method i name with
            | Some m => Ret (Some (i, m))
            | None => search_method w' (parent_of i) name
            end
        end
    end.

  Section Assign.
    Variable w : nat.
    (** SPVM_BASIC_TYPE_has_interface for the recursive calls. *)
    Variable hi : Z -> Z -> outcome bool.

    (** The answer is (can_assign, need_data_conversion). *)
    Definition no : outcome (bool * bool) := Ret (false, false).
    Definition yes : outcome (bool * bool) := Ret (true, false).
    Definition conv : outcome (bool * bool) := Ret (true, true).
    Definition plain (o : outcome bool) : outcome (bool * bool) := let! b := o in Ret (b, false).
    Definition yes_if (b : bool) : outcome (bool * bool) := Ret (b, false).

    (** SPVM_TYPE_satisfy_assignment_requirement, spvm_type.c:903-1323. *)
    Definition satisfy_assignment (narrow interface_match : bool) (d s : ty) : outcome (bool * bool) :=
      if is_numeric d then
        if is_numeric s then
          if t_id s =? t_id d then yes
          else if t_id d >? t_id s then conv
          else if narrow then conv else no
        else if is_object s then
          if is_numeric_object s then (if t_id s =? t_id d + UPGRADE_SHIFT then conv else no)
          else if is_any_object s then conv
          else no
        else no
      else if is_mulnum d then
        if is_mulnum s then yes_if (ty_equals d s) else no
      else if is_ref d then
        if is_ref s then yes_if (ty_equals d s) else no
      else if is_string d then
        if is_string s then yes_if (negb (is_mutable d && negb (is_mutable s)))
        else if is_numeric s then conv
        else if is_undef s then yes
        else no
      else if is_numeric_object d then
        if is_numeric s then (if t_id d =? t_id s + UPGRADE_SHIFT then conv else no)
        else if is_numeric_object s then yes_if (t_id s =? t_id d)
        else if is_undef s then yes
        else no
      else if is_class d then
        if is_class s then
          if t_id s =? t_id d then yes
          else plain (is_super_class w (t_id d) (t_id s))
        else if is_undef s then yes
        else no
      else if is_interface d then
        if interface_match then
          if is_object s then yes_if (ty_equals d s)
          else if is_undef s then yes
          else no
        else
          if is_interface s then
            if ty_equals d s then yes else plain (hi (t_id s) (t_id d))
          else if is_class s then plain (hi (t_id s) (t_id d))
          else if is_undef s then yes
          else no
      else if is_any_object d then
        if is_numeric s then conv
        else if is_object s then yes
        else if is_undef s then yes
        else no
      else if is_undef d then no
      else if is_numeric_array d then
        if is_numeric_array s then yes_if (ty_equals d s)
        else if is_undef s then yes
        else no
      else if is_mulnum_array d then
        if is_mulnum_array s then yes_if (ty_equals d s)
        else if is_undef s then yes
        else no
      else if is_string_array d then
        if is_string_array s then yes
        else if is_undef s then yes
        else no
      else if is_class_array d then
        if is_class_array s then
          if ty_equals d s then yes
          else plain (is_super_class w (t_id d) (t_id s))
        else if is_undef s then yes
        else no
      else if is_interface_array d then
        if is_interface_array s then
          if ty_equals d s then yes else plain (hi (t_id s) (t_id d))
        else if is_class_array s then plain (hi (t_id s) (t_id d))
        else if is_undef s then yes
        else no
      else if is_any_object_array d then
        if is_object_array s then yes
        else if is_undef s then yes
        else no
      else if is_muldim_array d then
        if is_muldim_array s then
          if t_dim s =? t_dim d then
            if t_id s =? t_id d then yes
            else
              let! super := is_super_class w (t_id d) (t_id s) in
              if super then yes
              else if bt_is_interface (t_id d) then
                if bt_is_interface (t_id s) then plain (hi (t_id s) (t_id d))
                else if bt_is_class (t_id s) then plain (hi (t_id s) (t_id d))
                else no
              else no
          else no
        else if is_undef s then yes
        else no
      else if is_void d then yes_if (is_void s)
      else UB (* assert *).

    (** spvm_type.c:1325-1351 (interface_match = 0) and 1353-1376
        (interface_match = 1). *)
    Definition assign_noconv (interface_match : bool) (d s : ty) : outcome bool :=
      let! (can_assign, need_data_conversion) := satisfy_assignment false interface_match d s in
      Ret (can_assign && negb need_data_conversion).

    (** The argument loop of SPVM_TYPE_satisfy_interface_method_requirement,
        spvm_type.c:1876-1906, from arg_index 1 on: it ends with the shorter
        argument list. *)
    Fixpoint args_match (dist_args src_args : list ty) : outcome bool :=
      match dist_args, src_args with
      | d :: dist_args', s :: src_args' =>
          let! can_assign := assign_noconv true d s in
          if can_assign then args_match dist_args' src_args' else Ret false
      | _, _ => Ret true
      end.

    (** SPVM_TYPE_satisfy_interface_method_requirement, spvm_type.c:1825-1929. *)
    Definition satisfy_method (dist_method src_method : meth) : outcome bool :=
      if m_is_class_method src_method then Ret false
      else if m_is_class_method dist_method then Ret false
      else if negb (zlen (m_args dist_method) >=? m_required_args_length src_method) then Ret false
      else
        let! ok := args_match (tl (m_args dist_method)) (tl (m_args src_method)) in
        if ok then assign_noconv true (m_return dist_method) (m_return src_method) else Ret false.

    (** The loop of SPVM_BASIC_TYPE_has_interface_common,
        spvm_basic_type.c:283-322. *)
    Fixpoint methods_match (src : Z) (dist_methods : list meth) : outcome bool :=
      match dist_methods with
      | [] => Ret true
      | dist_method :: rest =>
          if m_is_class_method dist_method then methods_match src rest
          else
            let! found := search_method w (Some src) (m_name dist_method) in
            match found with
            | None => if m_is_required dist_method then Ret false else methods_match src rest
            | Some (_, src_method) =>
                let! ok := satisfy_method dist_method src_method in
                if ok then methods_match src rest else Ret false
            end
      end.

    (** SPVM_BASIC_TYPE_has_interface_common, spvm_basic_type.c:245-326. *)
    Definition has_interface_common (src dist : Z) : outcome bool :=
      if negb (bt_is_class src || bt_is_interface src) then Ret false
      else if negb (bt_is_class dist || bt_is_interface dist) then Ret false
      else methods_match src (methods_of dist).

    (** SPVM_BASIC_TYPE_has_interface, spvm_basic_type.c:231-243. *)
    Definition has_interface_step (src dist : Z) : outcome bool :=
      if negb (bt_is_interface dist) then Ret false else has_interface_common src dist.
  End Assign.

  (** The recursion has_interface -> satisfy_interface_method_requirement ->
      satisfy_assignment_requirement -> has_interface. *)
  Fixpoint has_interface (w f : nat) (src dist : Z) : outcome bool :=
    match f with
    | O => Fuel
    | S f' => has_interface_step w (has_interface w f') src dist
    end.

  (** The compiler's assignment check, with the recursion tied. *)
  Definition can_assign_types (w f : nat) (d s : ty) : outcome bool :=
    assign_noconv w (has_interface w f) false d s.

  (** SPVM_TYPE_satisfy_cast_requirement, spvm_type.c:1378-1812. *)
  Definition satisfy_cast (w f : nat) (d s : ty) : outcome bool :=
    let hi := has_interface w f in
    let no := Ret false in
    let yes := Ret true in
    if is_numeric d then
      if is_numeric s then yes
      else if is_numeric_object s then Ret (t_id d + UPGRADE_SHIFT =? t_id s)
      else if is_any_object s then yes
      else if is_string s then yes
      else no
    else if is_mulnum d then Ret (ty_equals d s && (t_flag d =? t_flag s))
    else if is_ref d then Ret (ty_equals d s && (t_flag d =? t_flag s))
    else if is_string d then
      if is_string s then yes
      else if is_numeric s then yes
      else if is_byte_array s then yes
      else if is_any_object s then yes
      else if is_undef s then yes
      else no
    else if is_numeric_object d then
      if is_numeric s then Ret (t_id d =? t_id s + UPGRADE_SHIFT)
      else if is_any_object s then yes
      else if is_undef s then yes
      else no
    else if is_class d then
      if is_class s then
        if t_id s =? t_id d then yes
        else
          let! b := is_super_class w (t_id d) (t_id s) in
          if b then yes else is_super_class w (t_id s) (t_id d)
      else if is_interface s then hi (t_id d) (t_id s)
      else if is_any_object s then yes
      else if is_undef s then yes
      else no
    else if is_interface d then
      if is_class s then hi (t_id s) (t_id d)
      else if is_interface s then hi (t_id s) (t_id d)
      else if is_any_object s then yes
      else if is_undef s then yes
      else no
    else if is_any_object d then
      if is_numeric s then yes
      else if is_object s then yes
      else if is_undef s then yes
      else no
    else if is_undef d then UB (* assert *)
    else if is_byte_array d then
      if is_string s then yes
      else if is_byte_array s then yes
      else if is_any_object s then yes
      else if is_undef s then yes
      else no
    else if is_numeric_array d then
      if t_id s =? t_id d then yes
      else if is_any_object s then yes
      else if is_undef s then yes
      else no
    else if is_mulnum_array d then
      if t_id s =? t_id d then yes
      else if is_any_object s then yes
      else if is_undef s then yes
      else no
    else if is_string_array d then
      if is_string_array s then yes
      else if is_any_object s then yes
      else if is_any_object_array s then yes
      else if is_undef s then yes
      else no
    else if is_class_array d then
      if is_class_array s then
        if t_id s =? t_id d then yes
        else
          let! b := is_super_class w (t_id d) (t_id s) in
          if b then yes else is_super_class w (t_id s) (t_id d)
      else if is_interface_array s then hi (t_id d) (t_id s)
      else if is_any_object s then yes
      else if is_any_object_array s then yes
      else if is_undef s then yes
      else no
    else if is_interface_array d then
      if is_class_array s then hi (t_id s) (t_id d)
      else if is_interface_array s then hi (t_id s) (t_id d)
      else if is_any_object s then yes
      else if is_any_object_array s then yes
      else if is_undef s then yes
      else no
    else if is_any_object_array d then
      if is_any_object s then yes
      else if is_object_array s then yes
      else if is_undef s then yes
      else no
    else if is_muldim_array d then
      if is_muldim_array s then
        if t_dim s =? t_dim d then
          if t_id s =? t_id d then yes
          else
            let! b := is_super_class w (t_id d) (t_id s) in
            if b then yes else
            let! b := is_super_class w (t_id s) (t_id d) in
            if b then yes
            else if bt_is_class (t_id d) then
              if bt_is_interface (t_id s) then hi (t_id s) (t_id d) else no
            else if bt_is_interface (t_id d) then
              if bt_is_class (t_id s) then hi (t_id s) (t_id d)
              else if bt_is_interface (t_id s) then hi (t_id s) (t_id d)
              else no
            else no
        else no
      else if is_any_object s then yes
      else if is_any_object_array s then yes
      else if is_undef s then yes
      else no
    else UB (* assert *).

  (** ** The class relation checks of the compiler *)

  (** The walk of the recursive inheritance check, spvm_check.c:133-144. *)
  Fixpoint recursion_walk (w : nat) (name : list Z) (parent : option Z) : outcome unit :=
    match w with
    | O => Fuel
    | S w' =>
        match parent with
        | None => Ret tt
        | Some i =>
            if name_eqb (name_of i) name then Die "Recursive inheritance. Found the current class in a super class."
            else recursion_walk w' name (parent_of i)
        end
    end.

  (** The first loop of SPVM_CHECK_check_basic_types_relation for one basic
      type, spvm_check.c:96-115. The parent is always loaded before
      (spvm_op.c:298-310 adds a use), else the dereference of NULL is UB. *)
  Definition check_parent (id : Z) : outcome unit :=
    match parent_name_of id with
    | None => Ret tt
    | Some n =>
        match find_basic_type n with
        | None => UB
        | Some i =>
            if negb (bt_is_class i) then Die "The parant class must be a class type."
            else if negb (bt_is_class id)
            then Die "The current class must be a class type when the class becomes a child class."
            else if name_eqb (name_of id) (name_of i)
            then Die "The name of the parant class must be different from the name of the class."
            else Ret tt
        end
    end.

  Fixpoint check_all (chk : Z -> outcome unit) (ids : list Z) : outcome unit :=
    match ids with
    | [] => Ret tt
    | i :: rest => let! _ := chk i in check_all chk rest
    end.

  (** spvm_check.c:91-148. *)
  Definition check_relation (w : nat) (ids : list Z) : outcome unit :=
    let! _ := check_all check_parent ids in
    check_all (fun i => recursion_walk w (name_of i) (parent_of i)) ids.

  (** Override check, spvm_check.c:786-803: the class must satisfy the methods
      of each super class. *)
  Fixpoint override_walk (w f wl : nat) (id : Z) (parent : option Z) : outcome unit :=
    match wl with
    | O => Fuel
    | S wl' =>
        match parent with
        | None => Ret tt
        | Some i =>
            let! ok := has_interface_common w (has_interface w f) id i in
            if ok then override_walk w f wl' id (parent_of i)
            else Die "The method of the class must satisfy the method of the super class."
        end
    end.
  Definition check_override (w f : nat) (ids : list Z) : outcome unit :=
    check_all (fun i => override_walk w f w i (parent_of i)) ids.

  (** The ids of the basic types of the program. *)
  Fixpoint ids_from (l : prog) (i : Z) : list Z :=
    match l with [] => [] | _ :: l' => i :: ids_from l' (i + 1) end.
  Definition all_ids : list Z := ids_from p 0.

  (** What SPVM_CHECK_check has established when compilation succeeds. *)
  Definition compiles (w f : nat) : Prop :=
    check_relation w all_ids = Ret tt /\ check_override (S w) f all_ids = Ret tt.

  (** ** The runtime *)

  (** SPVM_API_isa (spvm_api.c:4552-4573) of a defined object of dynamic
      type [o]: SPVM_API_TYPE_can_assign with both flags 0. The cache of
      can_assign is the subject of TypeCache_model.v. *)
  Definition isa (w f : nat) (o : Z * Z) (id dim : Z) : outcome bool :=
    can_assign_types w f (Ty id dim 0) (Ty (fst o) (snd o) 0).

  (** SPVM_API_get_instance_method, spvm_api.c:4323-4359, on an object whose
      basic type is [id]; [get_method_by_name] is in Dispatch_model.v. *)
  Definition get_instance_method (w : nat) (id : Z) (name : list Z) : outcome (option (Z * meth)) :=
    let! found := search_method w (Some id) name in
    match found with
    | Some (i, m) => if m_is_class_method m then Ret None else Ret (Some (i, m))
    | None => Ret None
    end.
End Program.
