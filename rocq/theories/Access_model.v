(** * Model of access control: private, protected, public and "allow"

    Builder/src/spvm_check.c SPVM_CHECK_can_access (3962-4003), spvm_op.c
    SPVM_OP_is_allowed (3680-3703) and their four uses in spvm_check.c: the
    new operator (2164-2170), class variables (3053-3058), method calls
    (3092-3097) and fields (3280-3295).

    Basic types, parents and method search are those of Type_model.v. What
    access control adds to a basic type is [ainfo]; a basic type is still
    identified by its id.

    Simplifications.
    - The types of fields are left out: a field declared again in a sub class
      with another type does not compile (spvm_check.c:357-360, modelled in
      Fields_model.v).
    - The file and line of the messages are left out, and so is the message:
      what is modelled is whether the compiler reports the error. *)

From Verif Require Import Base Type_model.

(** SPVM_ATTRIBUTE_C_ID_PRIVATE, _PROTECTED, _PUBLIC (spvm_attribute.h). Every
    class, field, class variable and method has one when the checks run: the
    defaults are set in spvm_op.c (fields: 822-841). *)
Inductive access : Type := Private | Protected | Public.

(** The part of SPVM_BASIC_TYPE that the checks read. *)
Record ainfo : Type := {
  ai_anon : bool;                       (* is_generated_by_anon_method *)
  ai_outmost : Z;                       (* outmost, spvm_check.c:200-209; read only if ai_anon *)
  ai_access : access;                   (* access_control_type of the class *)
  ai_allows : list (list Z);            (* the names in the allow statements *)
  ai_fields : list (list Z * access);   (* unmerged_fields: the declared fields, in order *)
  ai_vars : list (list Z * access);     (* class variables *)
  ai_methods : list (list Z * access)   (* access_control_type of the declared methods *)
}.

(** SPVM_HASH_get on a symtable. *)
Fixpoint lookup {A : Type} (l : list (list Z * A)) (name : list Z) : option A :=
  match l with
  | [] => None
  | (n, a) :: l' => if name_eqb n name then Some a else lookup l' name
  end.

Section Program.
  Variable p : prog.
  Variable ai : Z -> ainfo.

  (** SPVM_CHECK_can_access, spvm_check.c:3962-4003. *)
  Definition can_access (w : nat) (src dist : Z) (flag : access) (is_parent_field : bool) : outcome bool :=
    let src := if ai_anon (ai src) then ai_outmost (ai src) else src in
    match flag with
    | Private =>
        if is_parent_field then Ret false
        else if name_eqb (name_of p src) (name_of p dist) then Ret true
        else Ret false
    | Protected =>
        if name_eqb (name_of p src) (name_of p dist) then Ret true
        else is_super_class p w dist src
    | Public => Ret true
    end.

  (** SPVM_OP_is_allowed, spvm_op.c:3680-3703. *)
  Definition is_allowed (current dist : Z) (is_parent_field : bool) : bool :=
    if negb is_parent_field && name_eqb (name_of p current) (name_of p dist) then true
    else existsb (name_eqb (name_of p current)) (ai_allows (ai dist)).

  (** The pattern of the four uses. *)
  Definition accepts (w : nat) (current dist : Z) (flag : access) (is_parent_field : bool) : outcome bool :=
    let! ok := can_access w current dist flag is_parent_field in
    if ok then Ret true else Ret (is_allowed current dist is_parent_field).

  (** What the compiler says about a use. *)
  Inductive verdict : Type := Accepted | Refused | NotFound.
  Definition verdict_of (b : bool) : verdict := if b then Accepted else Refused.

  (** "new C", spvm_check.c:2164-2170. *)
  Definition check_new (w : nat) (current cls : Z) : outcome verdict :=
    let! ok := accepts w current cls (ai_access (ai cls)) false in Ret (verdict_of ok).

  (** A class variable of the class [cls], spvm_check.c:965-1011 (the class is
      the one named, or the current or outmost class; super classes are not
      searched) and 3053-3058. *)
  Definition check_class_var (w : nat) (current cls : Z) (name : list Z) : outcome verdict :=
    match lookup (ai_vars (ai cls)) name with
    | None => Ret NotFound
    | Some flag => let! ok := accepts w current cls flag false in Ret (verdict_of ok)
    end.

  (** The class a call is resolved in, SPVM_CHECK_check_call_method
      (spvm_check.c:1125-1255): "C->m" looks m up in C only and wants a class
      method (1136-1170), "$x->m" searches from the class of $x and wants an
      instance method (1231-1250). Static instance calls ("$x->SUPER::m",
      "$x->C::m") are not modelled. *)
  Definition resolve_call (w : nat) (class_call : bool) (cls : Z) (name : list Z) : outcome (option Z) :=
    if class_call then
      match own_method p cls name with
      | Some m => Ret (if m_is_class_method m then Some cls else None)
      | None => Ret None
      end
    else
      let! found := search_method p w (Some cls) name in
      match found with
      | Some (definer, m) => Ret (if m_is_class_method m then None else Some definer)
      | None => Ret None
      end.

  (** A method call, spvm_check.c:3092-3097. *)
  Definition check_call (w : nat) (current : Z) (class_call : bool) (cls : Z) (name : list Z) : outcome verdict :=
    let! found := resolve_call w class_call cls name in
    match found with
    | None => Ret NotFound
    | Some definer =>
        match lookup (ai_methods (ai definer)) name with
        | None => UB (* a method always has an access control *)
        | Some flag => let! ok := accepts w current definer flag false in Ret (verdict_of ok)
        end
    end.

  (** *** Fields *)

  (** SPVM_CHECK_search_unmerged_field, spvm_check.c:3937-3960. *)
  Fixpoint search_unmerged (w : nat) (id : option Z) (name : list Z) : outcome (option access) :=
    match w with
    | O => Fuel
    | S w' =>
        match id with
        | None => Ret None
        | Some i =>
            match lookup (ai_fields (ai i)) name with
            | Some a => Ret (Some a)
            | None => search_unmerged w' (parent_of p i) name
            end
        end
    end.

  (** spvm_check.c:350-386: the declared fields of one class; a field that a
      super class declares ends the loop (break). *)
  Fixpoint merge_own (w : nat) (parent : option Z) (own : list (list Z * access))
    : outcome (list (list Z * access)) :=
    match own with
    | [] => Ret []
    | (n, a) :: own' =>
        let! found := search_unmerged w parent n in
        match found with
        | Some _ => Ret []
        | None => let! rest := merge_own w parent own' in Ret ((n, a) :: rest)
        end
    end.

  (** spvm_check.c:326-397: the fields of the super classes first
      (basic_type_merge_stack), then the class's own. A field of a super class
      is cloned: its current_basic_type is the class itself, its access
      control that of the declaration (371-378). *)
  Fixpoint merged (w : nat) (id : Z) : outcome (list (list Z * access)) :=
    match w with
    | O => Fuel
    | S w' =>
        let! inherited :=
          match parent_of p id with
          | None => Ret []
          | Some i => merged w' i
          end in
        let! own := merge_own w (parent_of p id) (ai_fields (ai id)) in
        Ret (inherited ++ own)
    end.

  (** SPVM_CHECK_check_field_access, spvm_check.c:1013-1054: the class whose
      field_symtable has the name (the current_basic_type of the field found)
      and the access control of the field. *)
  Fixpoint search_field (w : nat) (id : option Z) (name : list Z) : outcome (option (Z * access)) :=
    match w with
    | O => Fuel
    | S w' =>
        match id with
        | None => Ret None
        | Some i =>
            let! fields := merged w i in
            match lookup fields name with
            | Some a => Ret (Some (i, a))
            | None => search_field w' (parent_of p i) name
            end
        end
    end.

  (** "$x->{name}" in a method of [current], $x being of the class [cls]:
      spvm_check.c:3280-3295. *)
  Definition check_field (w : nat) (current cls : Z) (name : list Z) : outcome verdict :=
    let! found := search_field w (Some cls) name in
    match found with
    | None => Ret NotFound
    | Some (owner, flag) =>
        let found_in_current :=
          match lookup (ai_fields (ai current)) name with Some _ => true | None => false end in
        let is_parent_field := negb found_in_current && negb (ai_anon (ai current)) in
        let! ok := accepts w current owner flag is_parent_field in
        Ret (verdict_of ok)
    end.
End Program.
