(** * Model of the two ways to run a method: interpreted and precompiled

    SPVM_VM_call_method (lib/SPVM/Builder/src/spvm_vm.c:48-2420) runs the
    opcodes of a method. SPVM_PRECOMPILE_build_method_source
    (lib/SPVM/Builder/src/spvm_precompile.c:117-5045) generates a C function
    that is to do the same. The tables of Precomp_table.v say what each does for
    an opcode; this file says what the tables mean.

    Simplifications.
    - The work of the macros and inline functions SPVM_IMPLEMENT_*
      (include/spvm_implement.h) is a parameter [macro] that takes the evaluated
      arguments and the state; both sides call the same. [None] stands for
      undefined behaviour or divergence.
    - The state is abstract: [load] reads a variable of the method, [err] says
      whether error_id is set. The variables are the same arrays on both sides
      (spvm_vm.c:75-176 and spvm_precompile.c:147-224); their allocation is not
      modelled, nor the epilogue (spvm_vm.c:2386-2420, spvm_precompile.c:5027-5045).
    - The generated source is a list of C statements ([citem]) in which
      identifiers, labels, integer literals and string literals are texts, as
      they are written. The C compiler is the functions [c_int], [c_lit],
      [resolve], [find_label] and [c_run].
    - The opcodes at run time are those at the time of generation, and so are
      the basic types: in the code the source is generated, compiled and loaded
      by the same or by a later process that loaded the same classes. What a
      later process may change, ids and offsets, is looked up by name. *)

From Coq Require Import String.
From Coq Require Import List.
Import ListNotations.
From Verif Require Import Base CLib Dec Type_model Dispatch_model Switch_model.
From Verif Require Import Precomp_syntax Precomp_table.

Definition name := list Z.

(** Equality of strings, strcmp(a, b) == 0. *)
Fixpoint name_eq (a b : name) : bool :=
  match a, b with
  | [], [] => true
  | x :: a', y :: b' => (x =? y) && name_eq a' b'
  | _, _ => false
  end.

(** ** Runtime *)

(** SPVM_RUNTIME_BASIC_TYPE, the parts used: spvm_runtime_basic_type.h. A field is
    its name and its offset. current_basic_type of a method in [k_methods] is
    the class itself (spvm_compiler.c sets it so). *)
Record klass := {
  k_name : name;
  k_fields : list (name * Z);
  k_class_vars : list name;
  k_methods : list meth;
  k_consts : list name;
  k_file : name
}.

Definition runtime := list klass.

(** SPVM_OPCODE, spvm_opcode.h:507-513: three uint32_t and one uint16_t. *)
Record op := { o_id : opid; o_0 : Z; o_1 : Z; o_2 : Z; o_3 : Z }.

(** SPVM_RUNTIME_METHOD, the parts used. *)
Record method_code := {
  mc_class : Z;               (* current_basic_type, by id *)
  mc_name : name;
  mc_mortal_length : Z;       (* mortal_stack_length *)
  mc_ops : list op
}.

Definition get (k : opnd) (o : op) : Z :=
  match k with O0 => o_0 o | O1 => o_1 o | O2 => o_2 o | O3 => o_3 o end.

(** An operand assigned to an int32_t. *)
Definition get_int (k : opnd) (o : op) : Z := wrap32 (get k o).

(** *(int64_t* )&opcode->operand1: operand1 and operand2 are adjacent; the machine
    is little-endian. *)
Definition get_long (o : op) : Z := wrap64 (o_1 o + 4294967296 * o_2 o).

(** SPVM_API_RUNTIME_get_basic_type_by_id, spvm_api_runtime.c:146-163; likewise
    get_field_by_index, get_class_var_by_index and get_method_by_index,
    spvm_api_basic_type.c:108-198. Reading a member of the NULL they return is
    [None] here. *)
Definition by_id (rt : runtime) (i : Z) : option klass := znth rt i.

(** Position of the first element with a name. *)
Fixpoint index_of {A} (nm : A -> name) (l : list A) (n : name) (i : Z) : option Z :=
  match l with
  | [] => None
  | x :: l' => if name_eq (nm x) n then Some i else index_of nm l' n (i + 1)
  end.

(** SPVM_API_RUNTIME_get_basic_type_by_name, spvm_api_runtime.c:164-169. The symbol
    table is a hash (property C01 is about it); here a search by name. *)
Definition type_by_name (rt : runtime) (n : name) : option Z := index_of k_name rt n 0.

(** SPVM_API_BASIC_TYPE_get_field_by_name, spvm_api_basic_type.c:161-176. *)
Definition field_by_name (c : klass) (n : name) : option Z := index_of fst (k_fields c) n 0.

(** SPVM_API_BASIC_TYPE_get_class_var_by_name, spvm_api_basic_type.c:126-141. *)
Definition class_var_by_name (c : klass) (n : name) : option Z := index_of (fun x => x) (k_class_vars c) n 0.

(** SPVM_API_BASIC_TYPE_get_method_by_name, spvm_api_basic_type.c:200-233. *)
Definition method_by_name (c : klass) (n : name) : option meth :=
  match get_method_by_name (S (length (k_methods c))) (k_methods c) n with
  | Ret r => r
  | _ => None
  end.

(** ** What a macro is given *)
Inductive arg : Type :=
| ALoc (t : vt) (i : Z)          (* a variable *)
| AAddr (t : vt) (i : Z)         (* its address *)
| AVal (t : vt) (v : Z)          (* its value *)
| AInt (v : Z)
| AFloat (bits : Z)
| ADouble (bits : Z)
| ASym (s : string)
| AType (i : Z)                  (* the basic type with the id i *)
| AClassVar (i j : Z)            (* class variable j of class i *)
| AMethod (i : Z) (m : meth)     (* method m of class i *)
| AStr (s : name).               (* pointer to these characters *)

(** SPVM_IMPLEMENT_ARRAY_LENGTH and SPVM_IMPLEMENT_STRING_LENGTH are inline
    functions (spvm_implement.h:1092,1103): an argument that is a variable is
    passed by value. The macros, and the functions called with the same kind of
    argument on both sides, need no such distinction. *)
Definition by_value (f : string) : bool := String.eqb f "ARRAY_LENGTH" || String.eqb f "STRING_LENGTH".

(** ** Texts *)

(** SPVM_STRING_BUFFER_add_int, spvm_string_buffer.c:202-223. *)
Definition add_int (v : Z) : name :=
  if v =? -2147483648 then bytes "INT32_MIN" else print_dec v.

(** SPVM_STRING_BUFFER_add_long, spvm_string_buffer.c:225-246. *)
Definition add_long (v : Z) : name :=
  if v =? -9223372036854775808 then bytes "INT64_MIN" else print_dec v ++ bytes "LL".

(** SPVM_STRING_BUFFER_add_byte, spvm_string_buffer.c:162-178. *)
Definition add_byte (v : Z) : name := print_dec v.

(** The format "%02X". *)
Definition hex_digit (d : Z) : Z := if d <? 10 then 48 + d else 55 + d.

(** SPVM_STRING_BUFFER_add_hex_char, spvm_string_buffer.c:146-160. *)
Definition add_hex_char (c : Z) : name := [92; 120; hex_digit (u8 c / 16); hex_digit (u8 c mod 16)].

(** SPVM_PRECOMPILE_replace_colon_with_under_score, spvm_precompile.c:5277-5286. *)
Definition replace_colon (s : name) : name := map (fun c => if c =? 58 then 95 else c) s.

Definition SEP : name := bytes "____".

(** A declaration. *)
Inductive kind : Type := KType | KField | KClassVar | KMethod.
Record decl := { d_kind : kind; d_class : name; d_member : name }.

(** The first string added by SPVM_PRECOMPILE_add_basic_type etc., spvm_precompile.c:5147-5203. *)
Definition label (k : kind) : name :=
  match k with
  | KType => bytes "basic_type"
  | KField => bytes "field_offset"
  | KClassVar => bytes "class_var"
  | KMethod => bytes "method"
  end.

(** The identifier SPVM_PRECOMPILE_add_basic_type, _add_class_var,
    _add_field_offset and _add_method add, spvm_precompile.c:5147-5203; it is also the
    one SPVM_PRECOMPILE_contains_access_id searches for (5243-5283). *)
Definition ident (d : decl) : name :=
  label (d_kind d) ++ SEP ++ replace_colon (d_class d) ++ SEP ++
  match d_kind d with
  | KType => []
  | _ => replace_colon (d_member d) ++ SEP
  end.

Definition getter (k : kind) : name :=
  match k with
  | KType => bytes " = SPVM_IMPLEMENT_GET_BASIC_TYPE_BY_NAME(env, stack, """
  | KField => bytes " = SPVM_IMPLEMENT_GET_FIELD_OFFSET_BY_NAME(env, stack, """
  | KClassVar => bytes " = SPVM_IMPLEMENT_GET_CLASS_VAR_BY_NAME(env, stack, """
  | KMethod => bytes " = SPVM_IMPLEMENT_GET_METHOD_BY_NAME(env, stack, """
  end.

Definition NL : name := [10].

Definition error_check : name :=
  bytes """, &error_id);" ++ NL ++ bytes "    if (error_id) {" ++ NL ++ bytes "      goto END_OF_METHOD;" ++ NL ++
  bytes "    }" ++ NL ++ bytes "  }" ++ NL.

(** The text of a declaration, spvm_precompile.c:456-473, 486-506, 520-540, 553-573. *)
Definition decl_text (d : decl) : name :=
  match d_kind d with
  | KField => bytes "  int32_t " ++ ident d ++ (bytes " = -1;" ++ NL ++ bytes "  if (") ++ ident d ++
              (bytes " < 0) {" ++ NL ++ bytes "    ") ++ ident d
  | _ => bytes "  void* " ++ ident d ++ (bytes " = NULL;" ++ NL ++ bytes "  if (!") ++ ident d ++
         (bytes ") {" ++ NL ++ bytes "    ") ++ ident d
  end ++
  getter (d_kind d) ++ d_class d ++
  match d_kind d with
  | KType => []
  | _ => bytes """, """ ++ d_member d
  end ++
  error_check.

(** The text between string_buffer_begin_offset and the current end. *)
Fixpoint decls_text (ds : list decl) : name :=
  match ds with
  | [] => []
  | d :: ds' => decl_text d ++ decls_text ds'
  end.

(** contains_* and, if not found, the declaration: spvm_precompile.c:453-474 etc. *)
Definition declare (ds : list decl) (d : decl) : list decl :=
  if strstr (decls_text ds) (ident d) then ds else ds ++ [d].

(** The declarations for one opcode, in order: the type, then the member,
    spvm_precompile.c:336-578. *)
Definition decls_of (rt : runtime) (o : op) : option (list decl) :=
  match decl_case (o_id o) with
  | None => Some []
  | Some (UType k) =>
      match by_id rt (get_int k o) with
      | Some c => Some [{| d_kind := KType; d_class := k_name c; d_member := [] |}]
      | None => None
      end
  | Some (UField k f) =>
      match by_id rt (get_int k o) with
      | Some c =>
          match znth (k_fields c) (get_int f o) with
          | Some (n, _) => Some [{| d_kind := KType; d_class := k_name c; d_member := [] |};
                                 {| d_kind := KField; d_class := k_name c; d_member := n |}]
          | None => None
          end
      | None => None
      end
  | Some (UClassVar k f) =>
      match by_id rt (get_int k o) with
      | Some c =>
          match znth (k_class_vars c) (get_int f o) with
          | Some n => Some [{| d_kind := KType; d_class := k_name c; d_member := [] |};
                            {| d_kind := KClassVar; d_class := k_name c; d_member := n |}]
          | None => None
          end
      | None => None
      end
  | Some (UMethod k f) =>
      match by_id rt (get_int k o) with
      | Some c =>
          match znth (k_methods c) (get_int f o) with
          | Some m => Some [{| d_kind := KType; d_class := k_name c; d_member := [] |};
                            {| d_kind := KMethod; d_class := k_name c; d_member := m_name m |}]
          | None => None
          end
      | None => None
      end
  end.

(** The first pass over the opcodes, spvm_precompile.c:323-582. *)
Fixpoint uses (rt : runtime) (ops : list op) : option (list decl) :=
  match ops with
  | [] => Some []
  | o :: ops' =>
      match decls_of rt o, uses rt ops' with
      | Some a, Some b => Some (a ++ b)
      | _, _ => None
      end
  end.

Definition declare_all (us : list decl) : list decl := fold_left declare us [].

(** ** The generated statements *)
Inductive cexpr : Type :=
| CVar (t : vt) (n : name)       (* t_vars[n] *)
| CAddr (t : vt) (n : name)
| CRd (t : vt) (n : name)
| CInt (n : name)
| CFloatBits (n : name)
| CDoubleBits (n : name)
| CSym (s : string)
| CId (i : name)                 (* a declared variable *)
| CGetId (i : name)              (* get_id of a declared variable *)
| CTypeOf (n : name)             (* get_basic_type_by_id(int_vars[n]) *)
| CStr (s : name).               (* a literal with the text s *)

Inductive ccond : Type := CEqZero (n : name) | CNeZero (n : name) | CErrorSet.

Inductive citem : Type :=
| CLabel (l : name)                                              (* L<l>: *)
| CDo (f : string) (args : list cexpr)
| CGoto (l : name)
| CIf (c : ccond) (pre : list (string * list cexpr)) (l : name)  (* if (c) { pre; goto l; } *)
| CSwitch (n : name) (cases : list (name * name)) (dflt : name). (* switch(int_vars[n]) ... *)

Definition omap {A B} (f : A -> B) (x : option A) : option B :=
  match x with Some a => Some (f a) | None => None end.

Fixpoint all {A B} (f : A -> option B) (l : list A) : option (list B) :=
  match l with
  | [] => Some []
  | x :: l' => match f x, all f l' with Some y, Some r => Some (y :: r) | _, _ => None end
  end.

Section Emit.
  Variable rt : runtime.
  Variable m : method_code.

  (** current_basic_type->constant_strings[k]. *)
  Definition const (i : Z) : option name :=
    match by_id rt (mc_class m) with Some c => znth (k_consts c) i | None => None end.

  (** The text added by SPVM_STRING_BUFFER_add(string_buffer, s): up to the NUL. *)
  Definition text (o : op) (t : ptext) : option name :=
    match t with
    | TBasicTypeName k => omap k_name (by_id rt (get_int k o))
    | TMethodName k f =>
        match by_id rt (get_int k o) with
        | Some c => omap m_name (znth (k_methods c) (get_int f o))
        | None => None
        end
    | TConstValue k => const (get_int k o)
    | TCurClassName => omap k_name (by_id rt (mc_class m))
    | TCurMethodName => Some (mc_name m)
    | TCurFile => omap k_file (by_id rt (mc_class m))
    end.

  Definition member (o : op) (k : opnd) (f : klass -> option decl) : option cexpr :=
    match by_id rt (get_int k o) with
    | Some c => omap (fun d => CId (ident d)) (f c)
    | None => None
    end.

  (** The argument as generated; the operands of SPVM_PRECOMPILE_add_operand are
      int32_t (spvm_precompile.c:5085-5145). *)
  Definition emit_expr (o : op) (e : pexpr) : option cexpr :=
    match e with
    | PVar t k => Some (CVar t (add_int (get_int k o)))
    | PAddr t k => Some (CAddr t (add_int (get_int k o)))
    | PRd t k => Some (CRd t (add_int (get_int k o)))
    | PInt k => Some (CInt (add_int (get_int k o)))
    | PByte k => Some (CInt (add_byte (wrap8 (get k o))))
    | PLong _ => Some (CInt (add_long (get_long o)))
    | PFloatBits k => Some (CFloatBits (add_int (get_int k o)))
    | PDoubleBits _ => Some (CDoubleBits (add_long (get_long o)))
    | PIntLow k => Some (CInt (add_int (get k o mod 256)))
    | PIntLow1 k => Some (CInt (add_int (get k o mod 256 + 1)))
    | PIntHigh k => Some (CInt (add_int (get k o / 256)))
    | PIntConstLength k => omap (fun s => CInt (add_int (zlen s))) (const (get_int k o))
    | PSym s => Some (CSym s)
    | PBasicType k =>
        member o k (fun c => Some {| d_kind := KType; d_class := k_name c; d_member := [] |})
    | PBasicTypeId k =>
        omap (fun c => CGetId (ident {| d_kind := KType; d_class := k_name c; d_member := [] |})) (by_id rt (get_int k o))
    | PBasicTypeOf k => Some (CTypeOf (add_int (get_int k o)))
    | PFieldOffset k f =>
        member o k (fun c => omap (fun x => {| d_kind := KField; d_class := k_name c; d_member := fst x |})
                                  (znth (k_fields c) (get_int f o)))
    | PClassVar k f =>
        member o k (fun c => omap (fun x => {| d_kind := KClassVar; d_class := k_name c; d_member := x |})
                                  (znth (k_class_vars c) (get_int f o)))
    | PMethod k f =>
        member o k (fun c => omap (fun x => {| d_kind := KMethod; d_class := k_name c; d_member := m_name x |})
                                  (znth (k_methods c) (get_int f o)))
    | PStr t => omap (fun s => CStr (c_str s)) (text o t)
    | PHex t => omap (fun s => CStr (flat_map add_hex_char s)) (text o t)
    end.

  Definition emit_cond (o : op) (c : cond) : ccond :=
    match c with
    | EqZero k => CEqZero (add_int (get_int k o))
    | NeZero k => CNeZero (add_int (get_int k o))
    | ErrorSet => CErrorSet
    end.

  (** spvm_precompile.c:660-671; [j] is case_index. *)
  Fixpoint emit_cases (g : nat) (i j : Z) : option (list (name * name)) :=
    match g with
    | O => Some []
    | S g' =>
        match znth (mc_ops m) (i + 1 + j), emit_cases g' i (j + 1) with
        | Some c, Some r => Some ((add_int (get_int O1 c), add_int (get_int O2 c)) :: r)
        | _, _ => None
        end
    end.

  (** The statements of one opcode; [i] is opcode_index. *)
  Definition emit_stmt (i : Z) (o : op) (st : pstmt) : option (list citem) :=
    match st with
    | Call f args => omap (fun a => [CDo f a]) (all (emit_expr o) args)
    | Jump k => Some [CGoto (add_int (get_int k o))]
    | IfJump c pre k =>
        omap (fun p => [CIf (emit_cond o c) p (add_int (get_int k o))])
             (all (fun x => omap (pair (fst x)) (all (emit_expr o) (snd x))) pre)
    | IfMortal f args => if mc_mortal_length m >? 0 then omap (fun a => [CDo f a]) (all (emit_expr o) args) else Some []
    | PSwitch =>
        omap (fun cs => [CSwitch (add_int (get_int O0 o)) cs (add_int (get_int O1 o))])
             (emit_cases (Z.to_nat (get_int O2 o)) i 0)
    | Halt | VSwitch => None
    end.

  (** A label and the statements, spvm_precompile.c:584-5024. *)
  Definition emit_op (i : Z) (o : op) : option (list citem) :=
    omap (fun l => CLabel (add_int i) :: List.concat l) (all (emit_stmt i o) (pc_case (o_id o))).

  Fixpoint emit_ops (i : Z) (ops : list op) : option (list citem) :=
    match ops with
    | [] => Some []
    | o :: ops' =>
        match emit_op i o, emit_ops (i + 1) ops' with
        | Some a, Some b => Some (a ++ b)
        | _, _ => None
        end
    end.
End Emit.

(** SPVM_PRECOMPILE_build_method_source: the declarations and the body. *)
Definition build (rt : runtime) (m : method_code) : option (list decl * list citem) :=
  match uses rt (mc_ops m), emit_ops rt m 0 (mc_ops m) with
  | Some us, Some code => Some (declare_all us, code)
  | _, _ => None
  end.

(** ** Reading the generated source *)

(** The digits of an integer literal with the optional suffix LL. *)
Fixpoint c_digits (acc : Z) (t : name) : option Z :=
  match t with
  | [] => Some acc
  | c :: r =>
      if (48 <=? c) && (c <=? 57) then c_digits (acc * 10 + (c - 48)) r
      else if name_eq t (bytes "LL") then Some acc else None
  end.

(** A literal that begins with 0 is octal (ISO C 6.4.4.1); those are not modelled. *)
Definition c_decimal (t : name) : option Z :=
  match t with
  | z :: c :: _ => if (z =? 48) && (48 <=? c) && (c <=? 57) then None else c_digits 0 t
  | _ => c_digits 0 t
  end.

(** An integer constant expression as generated: a decimal literal, its
    negation, INT32_MIN or INT64_MIN. *)
Definition c_int (t : name) : option Z :=
  if name_eq t (bytes "INT32_MIN") then Some (-2147483648)
  else if name_eq t (bytes "INT64_MIN") then Some (-9223372036854775808)
  else match t with
       | [] => None
       | c :: r => if c =? 45 then (if 0 <? zlen r then omap Z.opp (c_decimal r) else None) else c_decimal t
       end.

(** The value of a hexadecimal digit. *)
Definition hex_value (c : Z) : option Z :=
  if (48 <=? c) && (c <=? 57) then Some (c - 48)
  else if (65 <=? c) && (c <=? 70) then Some (c - 55)
  else if (97 <=? c) && (c <=? 102) then Some (c - 87)
  else None.

(** The characters of a string literal (ISO C 6.4.4.4, 6.4.5): an escape
    \x takes as many hexadecimal digits as follow. Other escapes than
    \x, \n, \t, and of a backslash or double quote are not modelled ([None]); nor are
    trigraphs, so a question mark is [None] as well. *)
Inductive lit_mode : Type := LPlain | LEsc | LHex (v : option Z).

Definition lit_end (m : lit_mode) : option name :=
  match m with
  | LPlain => Some []
  | LHex (Some v) => if v <=? 255 then Some [v] else None
  | _ => None
  end.

Fixpoint c_lit (m : lit_mode) (t : name) : option name :=
  match t with
  | [] => lit_end m
  | c :: r =>
      match m with
      | LEsc =>
          if c =? 120 then c_lit (LHex None) r
          else if c =? 110 then omap (cons 10) (c_lit LPlain r)
          else if c =? 116 then omap (cons 9) (c_lit LPlain r)
          else if (c =? 92) || (c =? 34) then omap (cons c) (c_lit LPlain r)
          else None
      | _ =>
          match m, hex_value c with
          | LHex v, Some d => c_lit (LHex (Some (match v with Some v => v * 16 + d | None => d end))) r
          | _, _ =>
              match lit_end m with
              | None => None
              | Some done =>
                  omap (app done)
                    (if c =? 92 then c_lit LEsc r
                     else if (c =? 34) || (c =? 10) || (c =? 63) || (c =? 0) then None
                     else omap (cons c) (c_lit LPlain r))
              end
          end
      end
  end.

Definition c_string (t : name) : option name := c_lit LPlain t.

(** The value a declared variable gets: SPVM_IMPLEMENT_GET_*_BY_NAME,
    include/spvm_implement.h:96-177, with SPVM_API_get_field_static, _get_class_var
    and _get_method, spvm_api.c:4258-4296. *)
Definition eval_decl (rt : runtime) (d : decl) : option arg :=
  match c_string (d_class d) with
  | None => None
  | Some cn =>
      match type_by_name rt cn with
      | None => None
      | Some i =>
          match by_id rt i with
          | None => None
          | Some c =>
              match d_kind d with
              | KType => Some (AType i)
              | _ =>
                  match c_string (d_member d) with
                  | None => None
                  | Some mn =>
                      match d_kind d with
                      | KField =>
                          match field_by_name c mn with
                          | Some j => omap (fun x => AInt (snd x)) (znth (k_fields c) j)
                          | None => None
                          end
                      | KClassVar => omap (AClassVar i) (class_var_by_name c mn)
                      | _ => omap (AMethod i) (method_by_name c mn)
                      end
                  end
              end
          end
      end
  end.

Definition env := list (name * arg).

(** The declarations are executed at the start of the function. *)
Definition start (rt : runtime) (ds : list decl) : option env :=
  all (fun d => omap (pair (ident d)) (eval_decl rt d)) ds.

Fixpoint resolve (e : env) (i : name) : option arg :=
  match e with
  | [] => None
  | (n, a) :: e' => if name_eq n i then Some a else resolve e' i
  end.

Fixpoint find_label (l : name) (code : list citem) : option (list citem) :=
  match code with
  | [] => None
  | CLabel l' :: code' => if name_eq l l' then Some code' else find_label l code'
  | _ :: code' => find_label l code'
  end.

(** ** The two machines *)
Section Machines.
  Variable St : Type.
  Variable macro : string -> list arg -> St -> option St.
  Variable load : vt -> Z -> St -> Z.
  Variable err : St -> bool.

  Section Interpreter.
    Variable rt : runtime.
    Variable m : method_code.
    Let ops := mc_ops m.

    Definition eval (f : string) (o : op) (s : St) (e : vexpr) : option arg :=
      match e with
      | Var t k => Some (if by_value f then AVal t (load t (get k o) s) else ALoc t (get k o))
      | Addr t k => Some (AAddr t (get k o))
      | Rd t k => Some (AVal t (load t (get k o) s))
      | Imm k => Some (AInt (get_int k o))
      | ImmByte k => Some (AInt (wrap8 (get k o)))
      | ImmLong _ => Some (AInt (get_long o))
      | ImmFloat k => Some (AFloat (get_int k o))
      | ImmDouble _ => Some (ADouble (get_long o))
      | ImmLow k => Some (AInt (get k o mod 256))
      | ImmLow1 k => Some (AInt (get k o mod 256 + 1))
      | ImmHigh k => Some (AInt (get k o / 256))
      | Sym s => Some (ASym s)
      | BasicType k => omap (fun _ => AType (get_int k o)) (by_id rt (get_int k o))
      | BasicTypeOf k => Some (AType (load Int (get k o) s))
      | FieldOffset k f =>
          match by_id rt (get_int k o) with
          | Some c => omap (fun x => AInt (snd x)) (znth (k_fields c) (get_int f o))
          | None => None
          end
      | ClassVar k f =>
          match by_id rt (get_int k o) with
          | Some c => omap (fun _ => AClassVar (get_int k o) (get_int f o)) (znth (k_class_vars c) (get_int f o))
          | None => None
          end
      | Method k f =>
          match by_id rt (get_int k o) with
          | Some c => omap (AMethod (get_int k o)) (znth (k_methods c) (get_int f o))
          | None => None
          end
      | MethodName k f =>
          match by_id rt (get_int k o) with
          | Some c => omap (fun x => AStr (m_name x)) (znth (k_methods c) (get_int f o))
          | None => None
          end
      | MethodClassName k f =>
          match by_id rt (get_int k o) with
          | Some c => omap (fun _ => AStr (k_name c)) (znth (k_methods c) (get_int f o))
          | None => None
          end
      | ConstValue k => omap AStr (const rt m (get_int k o))
      | ConstLength k => omap (fun s => AInt (zlen s)) (const rt m (get_int k o))
      | CurClassName => omap (fun c => AStr (k_name c)) (by_id rt (mc_class m))
      | CurMethodName => Some (AStr (mc_name m))
      | CurFile => omap (fun c => AStr (k_file c)) (by_id rt (mc_class m))
      end.

    Definition call (o : op) (f : string) (args : list vexpr) (s : St) : option St :=
      match all (eval f o s) args with
      | Some a => macro f a s
      | None => None
      end.

    Fixpoint calls (o : op) (l : list (string * list vexpr)) (s : St) : option St :=
      match l with
      | [] => Some s
      | (f, args) :: l' => match call o f args s with Some s' => calls o l' s' | None => None end
      end.

    Definition holds (o : op) (c : cond) (s : St) : bool :=
      match c with
      | EqZero k => load Int (get k o) s =? 0
      | NeZero k => negb (load Int (get k o) s =? 0)
      | ErrorSet => err s
      end.

    Inductive flow : Type := FNext (s : St) | FJump (i : Z) (s : St) | FHalt (s : St) | FStuck.

    (** The opcodes as Switch_model.v sees them. *)
    Definition to_switch (o : op) : opcode :=
      match o_id o with
      | OP_LOOKUP_SWITCH => {| op_id := ID_LOOKUP_SWITCH; op0 := o_0 o; op1 := o_1 o; op2 := o_2 o |}
      | OP_CASE_INFO => {| op_id := ID_CASE_INFO; op0 := o_0 o; op1 := o_1 o; op2 := o_2 o |}
      | _ => {| op_id := 0; op0 := o_0 o; op1 := o_1 o; op2 := o_2 o |}
      end.

    Fixpoint exec (pc : Z) (o : op) (l : list vstmt) (s : St) : flow :=
      match l with
      | [] => FNext s
      | Call f args :: l' => match call o f args s with Some s' => exec pc o l' s' | None => FStuck end
      | Jump k :: _ => FJump (get_int k o) s
      | IfJump c pre k :: l' =>
          if holds o c s then match calls o pre s with Some s' => FJump (get_int k o) s' | None => FStuck end
          else exec pc o l' s
      | Halt :: _ => FHalt s
      | VSwitch :: _ =>
          match lookup_switch (map to_switch ops) pc (load Int (get O0 o) s) with
          | Ret t => FJump t s
          | _ => FStuck
          end
      | PSwitch :: _ => FStuck
      | IfMortal _ _ :: _ => FStuck
      end.

    (** The loop of SPVM_VM_call_method, spvm_vm.c:183-2384. *)
    Fixpoint vm_run (fuel : nat) (pc : Z) (s : St) : outcome St :=
      match fuel with
      | O => Fuel
      | S fuel' =>
          match znth ops pc with
          | None => UB
          | Some o =>
              match exec pc o (vm_case (o_id o)) s with
              | FNext s' => vm_run fuel' (pc + 1) s'
              | FJump t s' => vm_run fuel' t s'
              | FHalt s' => Ret s'
              | FStuck => UB
              end
          end
      end.
  End Interpreter.

  Section Generated.
    Variable e : env.
    Variable code : list citem.

    Definition c_eval (s : St) (x : cexpr) : option arg :=
      match x with
      | CVar t n => omap (ALoc t) (c_int n)
      | CAddr t n => omap (AAddr t) (c_int n)
      | CRd t n => omap (fun i => AVal t (load t i s)) (c_int n)
      | CInt n => omap AInt (c_int n)
      | CFloatBits n => omap AFloat (c_int n)
      | CDoubleBits n => omap ADouble (c_int n)
      | CSym s => Some (ASym s)
      | CId i => resolve e i
      | CGetId i => match resolve e i with Some (AType i) => Some (AInt i) | _ => None end
      | CTypeOf n => omap (fun i => AType (load Int i s)) (c_int n)
      | CStr t => omap AStr (c_string t)
      end.

    Definition c_call (f : string) (args : list cexpr) (s : St) : option St :=
      match all (c_eval s) args with
      | Some a => macro f a s
      | None => None
      end.

    Fixpoint c_calls (l : list (string * list cexpr)) (s : St) : option St :=
      match l with
      | [] => Some s
      | (f, args) :: l' => match c_call f args s with Some s' => c_calls l' s' | None => None end
      end.

    Definition c_holds (c : ccond) (s : St) : option bool :=
      match c with
      | CEqZero n => omap (fun i => load Int i s =? 0) (c_int n)
      | CNeZero n => omap (fun i => negb (load Int i s =? 0)) (c_int n)
      | CErrorSet => Some (err s)
      end.

    Fixpoint c_case (v : Z) (cases : list (name * name)) (dflt : name) : name :=
      match cases with
      | [] => dflt
      | (k, l) :: cases' =>
          match c_int k with
          | Some w => if w =? v then l else c_case v cases' dflt
          | None => c_case v cases' dflt
          end
      end.

    Fixpoint c_run (fuel : nat) (rest : list citem) (s : St) : outcome St :=
      match fuel with
      | O => Fuel
      | S fuel' =>
          match rest with
          | [] => Ret s
          | CLabel _ :: r => c_run fuel' r s
          | CDo f args :: r => match c_call f args s with Some s' => c_run fuel' r s' | None => UB end
          | CGoto l :: _ => match find_label l code with Some r => c_run fuel' r s | None => UB end
          | CIf c pre l :: r =>
              match c_holds c s with
              | Some true =>
                  match c_calls pre s, find_label l code with
                  | Some s', Some r' => c_run fuel' r' s'
                  | _, _ => UB
                  end
              | Some false => c_run fuel' r s
              | None => UB
              end
          | CSwitch n cases dflt :: _ =>
              match c_int n with
              | Some i =>
                  match find_label (c_case (load Int i s) cases dflt) code with
                  | Some r => c_run fuel' r s
                  | None => UB
                  end
              | None => UB
              end
          end
      end.
  End Generated.
End Machines.
