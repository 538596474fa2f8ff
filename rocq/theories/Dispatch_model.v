(** * Model of method resolution, dispatch and argument passing

    SPVM_CHECK_check_call_method (Builder/src/spvm_check.c:1125-1250), the
    argument checks of a call (spvm_check.c:3103-3152), the opcodes that pass
    arguments (spvm_opcode_builder.c:1056-1232), SPVM_API_BASIC_TYPE_get_method_by_name
    (spvm_api_basic_type.c:200-233), SPVM_API_get_instance_method
    (spvm_api.c:4323-4359), SPVM_IMPLEMENT_CALL_INSTANCE_METHOD
    (include/spvm_implement.h:2610-2643) and the checks of
    SPVM_API_call_method_common before the body (spvm_api.c:4792-4857).

    Simplifications.
    - The methods of a basic type at run time are the methods of the compiler
      sorted by qsort (spvm_check.c:818). The sorted table is a parameter
      [table]; the theorems assume of it only what qsort guarantees.
    - Access control (private, protected), which spvm_check.c:3088 checks after
      resolution, and enumerations are not modelled here.
    - The value stack is a function from slots to values; a value is an object
      reference (with address and dynamic type) or a number. Reading a number
      as an object reference is [UB].
    - The body of the method is not run: the result is the method entered and
      the stack it is entered with. *)

From Coq Require Import String.
From Coq Require Import List.
Import ListNotations.
From Verif Require Import Base CLib Type_model.

(** strcmp (ISO C 7.24.4.2) on names without NUL: the end of a string compares
    below every byte. *)
Fixpoint strcmp (a b : list Z) : Z :=
  match a, b with
  | [], [] => 0
  | [], _ => -1
  | _, [] => 1
  | x :: a', y :: b' => if x <? y then -1 else if y <? x then 1 else strcmp a' b'
  end.

(** The loop of SPVM_API_BASIC_TYPE_get_method_by_name,
    spvm_api_basic_type.c:208-229. [g] bounds the iterations. *)
Fixpoint method_loop (g : nat) (methods : list meth) (name : list Z) (min max : Z) : outcome (option meth) :=
  match g with
  | O => Fuel
  | S g' =>
      if max <? min then Ret None
      else
        let half := min + (max - min) ÷ 2 in
        match znth methods half with
        | None => UB
        | Some m =>
            let cmp := strcmp name (m_name m) in
            if cmp >? 0 then method_loop g' methods name (half + 1) max
            else if cmp <? 0 then method_loop g' methods name min (half - 1)
            else Ret (Some m)
        end
  end.

(** spvm_api_basic_type.c:200-233. *)
Definition get_method_by_name (g : nat) (methods : list meth) (name : list Z) : outcome (option meth) :=
  if zlen methods >? 0 then method_loop g methods name 0 (zlen methods - 1) else Ret None.

(** An object reference: address and dynamic type (basic type, dimension). *)
Inductive slot : Type :=
| SObj (o : option (Z * (Z * Z)))
| SVal (v : Z).

(** strrchr(name, c): the index of the last occurrence. *)
Fixpoint strrchr (name : list Z) (c : Z) (i : Z) (last : option Z) : option Z :=
  match name with
  | [] => last
  | x :: name' => strrchr name' c (i + 1) (if x =? c then Some i else last)
  end.

Definition SUPER_PREFIX : list Z := [83; 85; 80; 69; 82; 58; 58]. (* "SUPER::" *)
Definition COLON : Z := 58.

Section Call.
  Variable p : prog.
  (** The bound of the walks along parents. *)
  Variable w : nat.
  (** The bound of the recursion between interfaces. *)
  Variable f : nat.

  (** ** Compile-time resolution *)

  (** A resolved call: the class that declares the method, the method, and
      whether it is called without dispatch (is_instance_method_static). *)
  Record resolved : Type := { r_class : Z; r_method : meth; r_static : bool }.

  (** Class method call, spvm_check.c:1134-1172. *)
  Definition resolve_class_call (class_id : Z) (name : list Z) : outcome resolved :=
    match own_method p class_id name with
    | Some m =>
        if m_is_class_method m then Ret {| r_class := class_id; r_method := m; r_static := false |}
        else Die "method is not found."
    | None => Die "method is not found."
    end.

  (** Instance method call, spvm_check.c:1174-1248, on an invocant of type [t]. *)
  Definition resolve_instance_call (t : ty) (name : list Z) : outcome resolved :=
    if negb (is_class p t || is_interface p t)
    then Die "The invocant must be a class type or an interface type."
    else
      match strrchr name COLON 0 None with
      | Some last_colon =>
          let method_name := zdrop (last_colon + 1) name in
          let! found :=
            if name_eqb (ztake 7 name) SUPER_PREFIX then
              match parent_of p (t_id t) with
              | Some parent => search_method p w (Some parent) method_name
              | None => Ret None
              end
            else
              match find_basic_type p (ztake (last_colon - 1) name) with
              | None => Die "The class included in the method call is not found."
              | Some c => Ret (match own_method p c method_name with Some m => Some (c, m) | None => None end)
              end in
          match found with
          | Some (c, m) =>
              if m_is_class_method m then Die "method is found, but this is not an instance method."
              else Ret {| r_class := c; r_method := m; r_static := true |}
          | None => Die "method is not found."
          end
      | None =>
          let! found := search_method p w (Some (t_id t)) name in
          match found with
          | Some (c, m) =>
              if m_is_class_method m then Die "method is found, but this method must be an instance method."
              else Ret {| r_class := c; r_method := m; r_static := false |}
          | None => Die "method is not found in the class or its super classes."
          end
      end.

  (** The loop over the operands, spvm_check.c:3103-3138: [args] are the
      types of the operands (the invocant first, for an instance method), each
      with whether a narrowing conversion is allowed (a constant in range). *)
  Fixpoint check_operands (decls : list ty) (args : list (ty * bool)) : outcome unit :=
    match args with
    | [] => Ret tt
    | (s, narrow) :: args' =>
        match decls with
        | [] => Die "Too many arguments are passed."
        | d :: decls' =>
            let! (can_assign, _) := satisfy_assignment p w (has_interface p w f) narrow false d s in
            if can_assign then check_operands decls' args'
            else Die "The argument must be assigned to the type of the argument."
        end
    end.

  (** spvm_check.c:3103-3152. *)
  Definition check_call_args (m : meth) (args : list (ty * bool)) : outcome unit :=
    let! _ := check_operands (m_args m) args in
    if zlen args <? m_required_args_length m then Die "Too few arguments are passed." else Ret tt.

  (** ** Passing the arguments *)

  (** The number of fields of a multi-numeric type (basic_type->fields->length). *)
  Variable fields_length : Z -> Z.

  (** SPVM_TYPE_get_type_width, spvm_type.c:861-878. *)
  Definition type_width (t : ty) : Z := if is_mulnum p t then fields_length (t_id t) else 1.

  (** arg_var_decl->stack_index, spvm_check.c:725-732, and the running
      args_type_width of the caller, spvm_opcode_builder.c:1104, 1231: the sum
      of the widths of the arguments before. *)
  Fixpoint widths (args : list ty) : Z :=
    match args with [] => 0 | t :: args' => type_width t + widths args' end.
  Definition stack_index (args : list ty) (i : Z) : Z := widths (ztake i args).

  (** SET_STACK_*: the caller writes the slots of its arguments one after the
      other; the rest of the stack keeps what it held. *)
  Definition set_stack (old : Z -> slot) (at_ : Z) (vals : list slot) : Z -> slot :=
    fun k => match znth vals (k - at_) with Some v => v | None => old k end.

  (** spvm_opcode_builder.c:1078-1232: argument [i] is written from the stack
      index of the declaration of argument [i] in the method found at compile
      time. The result is (stack, args_width). *)
  Fixpoint push_args (decls : list ty) (at_ : Z) (vals : list (list slot)) (st : Z -> slot)
      : (Z -> slot) * Z :=
    match decls, vals with
    | d :: decls', v :: vals' => push_args decls' (at_ + type_width d) vals' (set_stack st at_ v)
    | _, _ => (st, at_)
    end.

  (** ** The run time *)

  (** basic_type->methods of the runtime, sorted by name. *)
  Variable table : Z -> list meth.

  (** SPVM_API_get_instance_method, spvm_api.c:4323-4359: the walk. *)
  Fixpoint instance_method_walk (v : nat) (id : option Z) (name : list Z) : outcome (option (Z * meth)) :=
    match v with
    | O => Fuel
    | S v' =>
        match id with
        | None => Ret None
        | Some i =>
            let! method := get_method_by_name (S (length (table i))) (table i) name in
            match method with
            | Some m => if m_is_class_method m then Ret None else Ret (Some (i, m))
            | None => instance_method_walk v' (parent_of p i) name
            end
        end
    end.
  Definition get_instance_method (object : option (Z * (Z * Z))) (name : list Z) : outcome (option (Z * meth)) :=
    match object with
    | None => Ret None
    | Some (_, (basic_type, _)) => instance_method_walk w (Some basic_type) name
    end.

  (** The default value of the i-th argument of the method of that name in
      that class (arg->default_value). *)
  Variable default_value : Z -> list Z -> Z -> slot.

  Definition MSG_DEPTH : string := "Deep recursion occurs. The depth of a method call must be less than 1000.".
  Definition MSG_ARG : string :=
    "The object given in the argument must be assigned to the type of the argument of the method.".
  Definition MSG_UNDEF : string := "The invocant of the method must be defined.".
  Definition MSG_NOT_FOUND : string := "The implementation of the method was not found.".

  (** The type check of the arguments, spvm_api.c:4809-4833. *)
  Fixpoint check_args (st : Z -> slot) (args_width : Z) (args : list ty) (index : Z) : outcome unit :=
    match args with
    | [] => Ret tt
    | t :: args' =>
        if negb (index <? args_width) then Ret tt
        else if is_object p t then
          match st index with
          | SVal _ => UB
          | SObj None => check_args st args_width args' (index + type_width t)
          | SObj (Some (_, o)) =>
              let! can_assign := isa p w f o (t_id t) (t_dim t) in
              if can_assign then check_args st args_width args' (index + type_width t) else Die MSG_ARG
          end
        else check_args st args_width args' (index + type_width t)
    end.

  (** Default values, spvm_api.c:4849-4857: arguments from the first optional
      one on whose stack index is not covered by the arguments passed. *)
  Fixpoint set_defaults (st : Z -> slot) (args_width : Z) (class_id : Z) (m : meth)
      (args : list ty) (i index : Z) : Z -> slot :=
    match args with
    | [] => st
    | t :: args' =>
        let st' := if (m_required_args_length m <=? i) && (index >=? args_width)
                   then set_stack st index [default_value class_id (m_name m) i] else st in
        set_defaults st' args_width class_id m args' (i + 1) (index + type_width t)
    end.

  (** SPVM_API_call_method_common, spvm_api.c:4792-4857, with the call depth
      before the call: the method that is entered and its stack. *)
  Definition call_method (depth : Z) (c : Z * meth) (st : Z -> slot) (args_width : Z)
      : outcome (Z * meth * (Z -> slot)) :=
    let (class_id, m) := c in
    if depth + 1 >? 1000 then Die MSG_DEPTH
    else
      let! _ := if m_is_class_method m then Ret tt else check_args st args_width (m_args m) 0 in
      Ret (class_id, m, set_defaults st args_width class_id m (m_args m) 0 0).

  (** SPVM_IMPLEMENT_CALL_INSTANCE_METHOD, spvm_implement.h:2614-2643, and the
      opcode, spvm_vm.c:2378-2392: only the name of the method found at compile
      time is used. *)
  Definition call_instance_method (depth : Z) (name : list Z) (st : Z -> slot) (args_width : Z)
      : outcome (Z * meth * (Z -> slot)) :=
    match st 0 with
    | SVal _ => UB
    | SObj None => Die MSG_UNDEF
    | SObj (Some o) =>
        let! found := get_instance_method (Some o) name in
        match found with
        | None => Die MSG_NOT_FOUND
        | Some c => call_method depth c st args_width
        end
    end.

  (** The three call opcodes, spvm_vm.c:2352-2392. *)
  Definition run_call (depth : Z) (r : resolved) (st : Z -> slot) (args_width : Z)
      : outcome (Z * meth * (Z -> slot)) :=
    if m_is_class_method (r_method r) || r_static r
    then call_method depth (r_class r, r_method r) st args_width
    else call_instance_method depth (m_name (r_method r)) st args_width.

  (** A call: pass the arguments, then call (spvm_opcode_builder.c:1056-1320). *)
  Definition call (depth : Z) (r : resolved) (vals : list (list slot)) (old : Z -> slot)
      : outcome (Z * meth * (Z -> slot)) :=
    let (st, args_width) := push_args (m_args (r_method r)) 0 vals old in
    run_call depth r st args_width.

  (** GET_STACK_*, spvm_opcode_builder.c:60-222: the parameter [i] of the
      method that is entered. *)
  Definition parameter (st : Z -> slot) (m : meth) (i : Z) : list slot :=
    match znth (m_args m) i with
    | None => []
    | Some t => map (fun k => st (stack_index (m_args m) i + Z.of_nat k)) (seq 0 (Z.to_nat (type_width t)))
    end.
End Call.
