(** * Syntax of the opcode tables

    The interpreter (lib/SPVM/Builder/src/spvm_vm.c) and the generated C
    function (lib/SPVM/Builder/src/spvm_precompile.c) do the work of an opcode
    with the same macros and inline functions SPVM_IMPLEMENT_*
    (include/spvm_implement.h). What differs is how the operands reach them:
    the interpreter reads them from the opcode at run time, the generator
    writes them into the C source as literals and identifiers. The two kinds of
    arguments are [vexpr] and [pexpr]. *)

From Coq Require Import String.
From Coq Require Import List.
Import ListNotations.

(** The arrays of variables of a method: byte_vars, short_vars, ... *)
Inductive vt : Type := Byte | Short | Int | Long | Float | Double | Object | Ref.

(** opcode->operand0 ... operand3, spvm_opcode.h:507-513. *)
Inductive opnd : Type := O0 | O1 | O2 | O3.

(** Arguments in the interpreter. *)
Inductive vexpr : Type :=
| Var (t : vt) (k : opnd)      (* t_vars[operand_k], the variable itself *)
| Addr (t : vt) (k : opnd)     (* &t_vars[operand_k] *)
| Rd (t : vt) (k : opnd)       (* the value of t_vars[operand_k] *)
| Imm (k : opnd)               (* the operand as an int *)
| ImmByte (k : opnd)           (* (int8_t)operand *)
| ImmLong (k : opnd)           (* *(int64_t* )&operand1 *)
| ImmFloat (k : opnd)          (* the float whose bits are the operand *)
| ImmDouble (k : opnd)         (* *(double* )&operand1 *)
| ImmLow (k : opnd)            (* operand & 0xFF *)
| ImmLow1 (k : opnd)           (* (operand & 0xFF) + 1 *)
| ImmHigh (k : opnd)           (* operand >> 8 *)
| Sym (s : string)             (* a variable both have: env, stack, &error_id, ... *)
| BasicType (k : opnd)         (* get_basic_type_by_id(operand) *)
| BasicTypeOf (k : opnd)       (* get_basic_type_by_id(int_vars[operand]) *)
| FieldOffset (k f : opnd)     (* get_field_by_index(get_basic_type_by_id(k), f)->offset *)
| ClassVar (k f : opnd)        (* get_class_var_by_index(get_basic_type_by_id(k), f) *)
| Method (k f : opnd)          (* get_method_by_index(get_basic_type_by_id(k), f) *)
| MethodName (k f : opnd)      (* its name *)
| MethodClassName (k f : opnd) (* the name of the class it is defined in *)
| ConstValue (k : opnd)        (* current_basic_type->constant_strings[operand].value *)
| ConstLength (k : opnd)       (* ... .length *)
| CurClassName                 (* current_basic_type->name *)
| CurMethodName                (* current_method->name *)
| CurFile.                     (* current_basic_type->file *)

(** Texts the generator copies into string literals. *)
Inductive ptext : Type :=
| TBasicTypeName (k : opnd)
| TMethodName (k f : opnd)
| TConstValue (k : opnd)
| TCurClassName
| TCurMethodName
| TCurFile.

(** Arguments in the generated source. *)
Inductive pexpr : Type :=
| PVar (t : vt) (k : opnd)     (* add_operand: t_vars[N] *)
| PAddr (t : vt) (k : opnd)    (* add_operand_address: &t_vars[N] *)
| PRd (t : vt) (k : opnd)      (* a local variable assigned from t_vars[N] *)
| PInt (k : opnd)              (* add_int(operand) *)
| PByte (k : opnd)             (* add_byte((int8_t)operand) *)
| PLong (k : opnd)             (* add_long( *(int64_t* )&operand1) *)
| PFloatBits (k : opnd)        (* (tmp_constant.ival = N, tmp_constant.fval) *)
| PDoubleBits (k : opnd)       (* (tmp_constant.lval = NLL, tmp_constant.dval) *)
| PIntLow (k : opnd)           (* add_int(operand & 0xFF) *)
| PIntLow1 (k : opnd)          (* add_int((operand & 0xFF) + 1) *)
| PIntHigh (k : opnd)          (* add_int(operand >> 8) *)
| PIntConstLength (k : opnd)   (* add_int(constant string length) *)
| PSym (s : string)
| PBasicType (k : opnd)        (* add_basic_type(name) *)
| PBasicTypeId (k : opnd)      (* get_id of that variable *)
| PBasicTypeOf (k : opnd)      (* get_basic_type_by_id(int_vars[N]) *)
| PFieldOffset (k f : opnd)    (* add_field_offset(name, name) *)
| PClassVar (k f : opnd)       (* add_class_var(name, name) *)
| PMethod (k f : opnd)         (* add_method(name, name) *)
| PStr (t : ptext)             (* "text" *)
| PHex (t : ptext).            (* "\xHH\xHH..." *)

(** Conditions of the conditional jumps. *)
Inductive cond : Type :=
| EqZero (k : opnd)            (* int_vars[operand] == 0 *)
| NeZero (k : opnd)            (* int_vars[operand] != 0 *)
| ErrorSet.                    (* error_id *)

(** What is done for one opcode. *)
Inductive stmt {E : Type} : Type :=
| Call (f : string) (args : list E)  (* SPVM_IMPLEMENT_f(args) *)
| Jump (k : opnd)                    (* to the opcode with the index operand_k *)
| IfJump (c : cond) (pre : list (string * list E)) (k : opnd)
| Halt                               (* the end of the method *)
| VSwitch                            (* spvm_vm.c:231-276 *)
| PSwitch                            (* spvm_precompile.c:650-678 *)
| IfMortal (f : string) (args : list E). (* only if the method has a mortal stack *)
Arguments stmt : clear implicits.

Definition vstmt := stmt vexpr.
Definition pstmt := stmt pexpr.

(** What must be declared for an opcode. *)
Inductive use : Type :=
| UType (k : opnd)
| UField (k f : opnd)
| UClassVar (k f : opnd)
| UMethod (k f : opnd).
