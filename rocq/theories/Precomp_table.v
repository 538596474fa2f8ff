(** * The opcodes: what the interpreter does for each and what C is generated for each

    The first table is the switch of SPVM_VM_call_method
    (lib/SPVM/Builder/src/spvm_vm.c:188-2420), the second the switch of
    SPVM_PRECOMPILE_build_method_source
    (lib/SPVM/Builder/src/spvm_precompile.c:594-5024), the third the switch of
    the same function that collects what must be declared (336-446).
    Precomp_model.v explains the notation. The SPVM_IMPLEMENT_ prefix of the
    macros is dropped. Reads of operands into local variables of the
    interpreter, and assignments to local variables of the generated function
    before the macro, are substituted into the argument ([Rd] and [PRd] mark
    such a copy). *)

From Coq Require Import String.
From Coq Require Import List.
Import ListNotations.
Local Open Scope string_scope.
From Verif Require Import Precomp_syntax.

(** SPVM_OPCODE_C_ID_*, lib/SPVM/Builder/include/spvm_opcode.h:102-504. *)
Inductive opid : Type :=
| OP_END_METHOD
| OP_GOTO
| OP_IF_EQ_ZERO
| OP_IF_NE_ZERO
| OP_GOTO_END_OF_EVAL_ON_EXCEPTION
| OP_GOTO_END_OF_METHOD_ON_EXCEPTION
| OP_LOOKUP_SWITCH
| OP_CASE_INFO
| OP_PUSH_MORTAL
| OP_LEAVE_SCOPE
| OP_MOVE_BYTE_ZERO
| OP_MOVE_SHORT_ZERO
| OP_MOVE_INT_ZERO
| OP_MOVE_LONG_ZERO
| OP_MOVE_FLOAT_ZERO
| OP_MOVE_DOUBLE_ZERO
| OP_MOVE_OBJECT_UNDEF
| OP_MOVE_MULNUM_BYTE_ZERO
| OP_MOVE_MULNUM_SHORT_ZERO
| OP_MOVE_MULNUM_INT_ZERO
| OP_MOVE_MULNUM_LONG_ZERO
| OP_MOVE_MULNUM_FLOAT_ZERO
| OP_MOVE_MULNUM_DOUBLE_ZERO
| OP_MOVE_CONSTANT_BYTE
| OP_MOVE_CONSTANT_INT
| OP_MOVE_CONSTANT_LONG
| OP_MOVE_CONSTANT_FLOAT
| OP_MOVE_CONSTANT_DOUBLE
| OP_MOVE_BYTE
| OP_MOVE_SHORT
| OP_MOVE_INT
| OP_MOVE_LONG
| OP_MOVE_FLOAT
| OP_MOVE_DOUBLE
| OP_MOVE_OBJECT
| OP_MOVE_OBJECT_WITH_TYPE_CHECK
| OP_MOVE_OBJECT_CHECK_READ_ONLY_STRING
| OP_MOVE_REF
| OP_ADD_INT
| OP_ADD_LONG
| OP_ADD_FLOAT
| OP_ADD_DOUBLE
| OP_SUBTRACT_INT
| OP_SUBTRACT_LONG
| OP_SUBTRACT_FLOAT
| OP_SUBTRACT_DOUBLE
| OP_MULTIPLY_INT
| OP_MULTIPLY_LONG
| OP_MULTIPLY_FLOAT
| OP_MULTIPLY_DOUBLE
| OP_DIVIDE_INT
| OP_DIVIDE_LONG
| OP_DIVIDE_FLOAT
| OP_DIVIDE_DOUBLE
| OP_DIVIDE_UNSIGNED_INT
| OP_DIVIDE_UNSIGNED_LONG
| OP_MODULO_INT
| OP_MODULO_LONG
| OP_MODULO_UNSIGNED_INT
| OP_MODULO_UNSIGNED_LONG
| OP_LEFT_SHIFT_INT
| OP_LEFT_SHIFT_LONG
| OP_RIGHT_ARITHMETIC_SHIFT_INT
| OP_RIGHT_ARITHMETIC_SHIFT_LONG
| OP_RIGHT_LOGICAL_SHIFT_INT
| OP_RIGHT_LOGICAL_SHIFT_LONG
| OP_BIT_AND_INT
| OP_BIT_AND_LONG
| OP_BIT_OR_INT
| OP_BIT_OR_LONG
| OP_BIT_XOR_INT
| OP_BIT_XOR_LONG
| OP_BIT_NOT_INT
| OP_BIT_NOT_LONG
| OP_NEGATE_INT
| OP_NEGATE_LONG
| OP_NEGATE_FLOAT
| OP_NEGATE_DOUBLE
| OP_STRING_CONCAT
| OP_CONDITION_EVALUATION_INT
| OP_CONDITION_EVALUATION_LONG
| OP_CONDITION_EVALUATION_FLOAT
| OP_CONDITION_EVALUATION_DOUBLE
| OP_CONDITION_EVALUATION_OBJECT
| OP_CONDITION_EVALUATION_REF
| OP_CONDITION_EVALUATION_BOOL_OBJECT
| OP_NUMERIC_COMPARISON_EQ_INT
| OP_NUMERIC_COMPARISON_EQ_LONG
| OP_NUMERIC_COMPARISON_EQ_FLOAT
| OP_NUMERIC_COMPARISON_EQ_DOUBLE
| OP_NUMERIC_COMPARISON_EQ_OBJECT
| OP_NUMERIC_COMPARISON_EQ_REF
| OP_NUMERIC_COMPARISON_NE_INT
| OP_NUMERIC_COMPARISON_NE_LONG
| OP_NUMERIC_COMPARISON_NE_FLOAT
| OP_NUMERIC_COMPARISON_NE_DOUBLE
| OP_NUMERIC_COMPARISON_NE_OBJECT
| OP_NUMERIC_COMPARISON_NE_REF
| OP_NUMERIC_COMPARISON_GT_INT
| OP_NUMERIC_COMPARISON_GT_LONG
| OP_NUMERIC_COMPARISON_GT_FLOAT
| OP_NUMERIC_COMPARISON_GT_DOUBLE
| OP_NUMERIC_COMPARISON_GE_INT
| OP_NUMERIC_COMPARISON_GE_LONG
| OP_NUMERIC_COMPARISON_GE_FLOAT
| OP_NUMERIC_COMPARISON_GE_DOUBLE
| OP_NUMERIC_COMPARISON_LT_INT
| OP_NUMERIC_COMPARISON_LT_LONG
| OP_NUMERIC_COMPARISON_LT_FLOAT
| OP_NUMERIC_COMPARISON_LT_DOUBLE
| OP_NUMERIC_COMPARISON_LE_INT
| OP_NUMERIC_COMPARISON_LE_LONG
| OP_NUMERIC_COMPARISON_LE_FLOAT
| OP_NUMERIC_COMPARISON_LE_DOUBLE
| OP_NUMERIC_COMPARISON_CMP_INT
| OP_NUMERIC_COMPARISON_CMP_LONG
| OP_NUMERIC_COMPARISON_CMP_FLOAT
| OP_NUMERIC_COMPARISON_CMP_DOUBLE
| OP_IS_UNDEF
| OP_IS_NOT_UNDEF
| OP_STRING_COMPARISON_EQ
| OP_STRING_COMPARISON_NE
| OP_STRING_COMPARISON_GT
| OP_STRING_COMPARISON_GE
| OP_STRING_COMPARISON_LT
| OP_STRING_COMPARISON_LE
| OP_STRING_COMPARISON_CMP
| OP_NEW_OBJECT
| OP_NEW_OBJECT_ARRAY
| OP_NEW_MULDIM_ARRAY
| OP_NEW_MULNUM_ARRAY
| OP_NEW_BYTE_ARRAY
| OP_NEW_SHORT_ARRAY
| OP_NEW_INT_ARRAY
| OP_NEW_LONG_ARRAY
| OP_NEW_FLOAT_ARRAY
| OP_NEW_DOUBLE_ARRAY
| OP_NEW_STRING
| OP_NEW_STRING_LEN
| OP_IS_READ_ONLY
| OP_MAKE_READ_ONLY
| OP_GET_ARRAY_ELEMENT_BYTE
| OP_GET_ARRAY_ELEMENT_SHORT
| OP_GET_ARRAY_ELEMENT_INT
| OP_GET_ARRAY_ELEMENT_LONG
| OP_GET_ARRAY_ELEMENT_FLOAT
| OP_GET_ARRAY_ELEMENT_DOUBLE
| OP_GET_ARRAY_ELEMENT_OBJECT
| OP_SET_ARRAY_ELEMENT_BYTE
| OP_SET_ARRAY_ELEMENT_SHORT
| OP_SET_ARRAY_ELEMENT_INT
| OP_SET_ARRAY_ELEMENT_LONG
| OP_SET_ARRAY_ELEMENT_FLOAT
| OP_SET_ARRAY_ELEMENT_DOUBLE
| OP_SET_ARRAY_ELEMENT_OBJECT
| OP_SET_ARRAY_ELEMENT_OBJECT_CHECK_TYPE
| OP_SET_ARRAY_ELEMENT_UNDEF
| OP_ARRAY_LENGTH
| OP_STRING_LENGTH
| OP_GET_FIELD_BYTE
| OP_GET_FIELD_SHORT
| OP_GET_FIELD_INT
| OP_GET_FIELD_LONG
| OP_GET_FIELD_FLOAT
| OP_GET_FIELD_DOUBLE
| OP_GET_FIELD_OBJECT
| OP_SET_FIELD_BYTE
| OP_SET_FIELD_SHORT
| OP_SET_FIELD_INT
| OP_SET_FIELD_LONG
| OP_SET_FIELD_FLOAT
| OP_SET_FIELD_DOUBLE
| OP_SET_FIELD_OBJECT
| OP_SET_FIELD_UNDEF
| OP_WEAKEN_FIELD
| OP_UNWEAKEN_FIELD
| OP_ISWEAK_FIELD
| OP_GET_CLASS_VAR_BYTE
| OP_GET_CLASS_VAR_SHORT
| OP_GET_CLASS_VAR_INT
| OP_GET_CLASS_VAR_LONG
| OP_GET_CLASS_VAR_FLOAT
| OP_GET_CLASS_VAR_DOUBLE
| OP_GET_CLASS_VAR_OBJECT
| OP_SET_CLASS_VAR_BYTE
| OP_SET_CLASS_VAR_SHORT
| OP_SET_CLASS_VAR_INT
| OP_SET_CLASS_VAR_LONG
| OP_SET_CLASS_VAR_FLOAT
| OP_SET_CLASS_VAR_DOUBLE
| OP_SET_CLASS_VAR_OBJECT
| OP_SET_CLASS_VAR_UNDEF
| OP_GET_EXCEPTION_VAR
| OP_SET_EXCEPTION_VAR
| OP_SET_EXCEPTION_VAR_UNDEF
| OP_ISA
| OP_ISA_ERROR
| OP_IS_TYPE
| OP_IS_ERROR
| OP_CAN
| OP_PRINT
| OP_SAY
| OP_WARN
| OP_CLEAR_EVAL_ERROR_ID
| OP_GET_EVAL_ERROR_ID
| OP_SET_ERROR_ID_BY_TYPE
| OP_SET_ERROR_ID
| OP_ARGS_WIDTH
| OP_GET_BASIC_TYPE_ID
| OP_TYPE_NAME
| OP_DUMP
| OP_COPY
| OP_REF_BYTE
| OP_REF_SHORT
| OP_REF_INT
| OP_REF_LONG
| OP_REF_FLOAT
| OP_REF_DOUBLE
| OP_GET_DEREF_BYTE
| OP_GET_DEREF_SHORT
| OP_GET_DEREF_INT
| OP_GET_DEREF_LONG
| OP_GET_DEREF_FLOAT
| OP_GET_DEREF_DOUBLE
| OP_SET_DEREF_BYTE
| OP_SET_DEREF_SHORT
| OP_SET_DEREF_INT
| OP_SET_DEREF_LONG
| OP_SET_DEREF_FLOAT
| OP_SET_DEREF_DOUBLE
| OP_GET_MULNUM_FIELD_BYTE
| OP_GET_MULNUM_FIELD_SHORT
| OP_GET_MULNUM_FIELD_INT
| OP_GET_MULNUM_FIELD_LONG
| OP_GET_MULNUM_FIELD_FLOAT
| OP_GET_MULNUM_FIELD_DOUBLE
| OP_SET_MULNUM_FIELD_BYTE
| OP_SET_MULNUM_FIELD_SHORT
| OP_SET_MULNUM_FIELD_INT
| OP_SET_MULNUM_FIELD_LONG
| OP_SET_MULNUM_FIELD_FLOAT
| OP_SET_MULNUM_FIELD_DOUBLE
| OP_MOVE_MULNUM_BYTE
| OP_MOVE_MULNUM_SHORT
| OP_MOVE_MULNUM_INT
| OP_MOVE_MULNUM_LONG
| OP_MOVE_MULNUM_FLOAT
| OP_MOVE_MULNUM_DOUBLE
| OP_GET_MULNUM_ARRAY_BYTE
| OP_GET_MULNUM_ARRAY_SHORT
| OP_GET_MULNUM_ARRAY_INT
| OP_GET_MULNUM_ARRAY_LONG
| OP_GET_MULNUM_ARRAY_FLOAT
| OP_GET_MULNUM_ARRAY_DOUBLE
| OP_SET_MULNUM_ARRAY_BYTE
| OP_SET_MULNUM_ARRAY_SHORT
| OP_SET_MULNUM_ARRAY_INT
| OP_SET_MULNUM_ARRAY_LONG
| OP_SET_MULNUM_ARRAY_FLOAT
| OP_SET_MULNUM_ARRAY_DOUBLE
| OP_GET_MULNUM_ARRAY_FIELD_BYTE
| OP_GET_MULNUM_ARRAY_FIELD_SHORT
| OP_GET_MULNUM_ARRAY_FIELD_INT
| OP_GET_MULNUM_ARRAY_FIELD_LONG
| OP_GET_MULNUM_ARRAY_FIELD_FLOAT
| OP_GET_MULNUM_ARRAY_FIELD_DOUBLE
| OP_SET_MULNUM_ARRAY_FIELD_BYTE
| OP_SET_MULNUM_ARRAY_FIELD_SHORT
| OP_SET_MULNUM_ARRAY_FIELD_INT
| OP_SET_MULNUM_ARRAY_FIELD_LONG
| OP_SET_MULNUM_ARRAY_FIELD_FLOAT
| OP_SET_MULNUM_ARRAY_FIELD_DOUBLE
| OP_DEREF_MULNUM_BYTE
| OP_DEREF_MULNUM_SHORT
| OP_DEREF_MULNUM_INT
| OP_DEREF_MULNUM_LONG
| OP_DEREF_MULNUM_FLOAT
| OP_DEREF_MULNUM_DOUBLE
| OP_GET_MULNUM_FIELD_DEREF_BYTE
| OP_GET_MULNUM_FIELD_DEREF_SHORT
| OP_GET_MULNUM_FIELD_DEREF_INT
| OP_GET_MULNUM_FIELD_DEREF_LONG
| OP_GET_MULNUM_FIELD_DEREF_FLOAT
| OP_GET_MULNUM_FIELD_DEREF_DOUBLE
| OP_SET_MULNUM_FIELD_DEREF_BYTE
| OP_SET_MULNUM_FIELD_DEREF_SHORT
| OP_SET_MULNUM_FIELD_DEREF_INT
| OP_SET_MULNUM_FIELD_DEREF_LONG
| OP_SET_MULNUM_FIELD_DEREF_FLOAT
| OP_SET_MULNUM_FIELD_DEREF_DOUBLE
| OP_TYPE_CONVERSION_BYTE_TO_SHORT
| OP_TYPE_CONVERSION_BYTE_TO_INT
| OP_TYPE_CONVERSION_BYTE_TO_LONG
| OP_TYPE_CONVERSION_BYTE_TO_FLOAT
| OP_TYPE_CONVERSION_BYTE_TO_DOUBLE
| OP_TYPE_CONVERSION_SHORT_TO_BYTE
| OP_TYPE_CONVERSION_SHORT_TO_INT
| OP_TYPE_CONVERSION_SHORT_TO_LONG
| OP_TYPE_CONVERSION_SHORT_TO_FLOAT
| OP_TYPE_CONVERSION_SHORT_TO_DOUBLE
| OP_TYPE_CONVERSION_INT_TO_BYTE
| OP_TYPE_CONVERSION_INT_TO_SHORT
| OP_TYPE_CONVERSION_INT_TO_LONG
| OP_TYPE_CONVERSION_INT_TO_FLOAT
| OP_TYPE_CONVERSION_INT_TO_DOUBLE
| OP_TYPE_CONVERSION_LONG_TO_BYTE
| OP_TYPE_CONVERSION_LONG_TO_SHORT
| OP_TYPE_CONVERSION_LONG_TO_INT
| OP_TYPE_CONVERSION_LONG_TO_FLOAT
| OP_TYPE_CONVERSION_LONG_TO_DOUBLE
| OP_TYPE_CONVERSION_FLOAT_TO_BYTE
| OP_TYPE_CONVERSION_FLOAT_TO_SHORT
| OP_TYPE_CONVERSION_FLOAT_TO_INT
| OP_TYPE_CONVERSION_FLOAT_TO_LONG
| OP_TYPE_CONVERSION_FLOAT_TO_DOUBLE
| OP_TYPE_CONVERSION_DOUBLE_TO_BYTE
| OP_TYPE_CONVERSION_DOUBLE_TO_SHORT
| OP_TYPE_CONVERSION_DOUBLE_TO_INT
| OP_TYPE_CONVERSION_DOUBLE_TO_LONG
| OP_TYPE_CONVERSION_DOUBLE_TO_FLOAT
| OP_TYPE_CONVERSION_BYTE_TO_STRING
| OP_TYPE_CONVERSION_SHORT_TO_STRING
| OP_TYPE_CONVERSION_INT_TO_STRING
| OP_TYPE_CONVERSION_LONG_TO_STRING
| OP_TYPE_CONVERSION_FLOAT_TO_STRING
| OP_TYPE_CONVERSION_DOUBLE_TO_STRING
| OP_TYPE_CONVERSION_STRING_TO_BYTE
| OP_TYPE_CONVERSION_STRING_TO_SHORT
| OP_TYPE_CONVERSION_STRING_TO_INT
| OP_TYPE_CONVERSION_STRING_TO_LONG
| OP_TYPE_CONVERSION_STRING_TO_FLOAT
| OP_TYPE_CONVERSION_STRING_TO_DOUBLE
| OP_TYPE_CONVERSION_STRING_TO_BYTE_ARRAY
| OP_TYPE_CONVERSION_BYTE_ARRAY_TO_STRING
| OP_TYPE_CONVERSION_BYTE_TO_BYTE_OBJECT
| OP_TYPE_CONVERSION_SHORT_TO_SHORT_OBJECT
| OP_TYPE_CONVERSION_INT_TO_INT_OBJECT
| OP_TYPE_CONVERSION_LONG_TO_LONG_OBJECT
| OP_TYPE_CONVERSION_FLOAT_TO_FLOAT_OBJECT
| OP_TYPE_CONVERSION_DOUBLE_TO_DOUBLE_OBJECT
| OP_TYPE_CONVERSION_BYTE_OBJECT_TO_BYTE
| OP_TYPE_CONVERSION_SHORT_OBJECT_TO_SHORT
| OP_TYPE_CONVERSION_INT_OBJECT_TO_INT
| OP_TYPE_CONVERSION_LONG_OBJECT_TO_LONG
| OP_TYPE_CONVERSION_FLOAT_OBJECT_TO_FLOAT
| OP_TYPE_CONVERSION_DOUBLE_OBJECT_TO_DOUBLE
| OP_GET_STACK_BYTE
| OP_GET_STACK_SHORT
| OP_GET_STACK_INT
| OP_GET_STACK_LONG
| OP_GET_STACK_FLOAT
| OP_GET_STACK_DOUBLE
| OP_GET_STACK_OBJECT
| OP_GET_STACK_REF
| OP_GET_STACK_MULNUM_BYTE
| OP_GET_STACK_MULNUM_SHORT
| OP_GET_STACK_MULNUM_INT
| OP_GET_STACK_MULNUM_LONG
| OP_GET_STACK_MULNUM_FLOAT
| OP_GET_STACK_MULNUM_DOUBLE
| OP_END_ARGS
| OP_SET_STACK_BYTE
| OP_SET_STACK_SHORT
| OP_SET_STACK_INT
| OP_SET_STACK_LONG
| OP_SET_STACK_FLOAT
| OP_SET_STACK_DOUBLE
| OP_SET_STACK_OBJECT
| OP_SET_STACK_REF
| OP_SET_STACK_UNDEF
| OP_SET_STACK_MULNUM_BYTE
| OP_SET_STACK_MULNUM_SHORT
| OP_SET_STACK_MULNUM_INT
| OP_SET_STACK_MULNUM_LONG
| OP_SET_STACK_MULNUM_FLOAT
| OP_SET_STACK_MULNUM_DOUBLE
| OP_RETURN_VOID
| OP_RETURN_BYTE
| OP_RETURN_SHORT
| OP_RETURN_INT
| OP_RETURN_LONG
| OP_RETURN_FLOAT
| OP_RETURN_DOUBLE
| OP_RETURN_OBJECT
| OP_RETURN_UNDEF
| OP_RETURN_MULNUM_BYTE
| OP_RETURN_MULNUM_SHORT
| OP_RETURN_MULNUM_INT
| OP_RETURN_MULNUM_LONG
| OP_RETURN_MULNUM_FLOAT
| OP_RETURN_MULNUM_DOUBLE
| OP_CALL_CLASS_METHOD
| OP_CALL_INSTANCE_METHOD_STATIC
| OP_CALL_INSTANCE_METHOD.

(** The interpreter: the number is the line of the case in spvm_vm.c. CASE_INFO has no
    case there. *)
Definition vm_case (op : opid) : list vstmt :=
  match op with
  | OP_END_METHOD => (* 190 *) [Halt]
  | OP_GOTO => (* 193 *) [Jump O0]
  | OP_IF_EQ_ZERO => (* 197 *) [IfJump (EqZero O1) [] O0]
  | OP_IF_NE_ZERO => (* 204 *) [IfJump (NeZero O1) [] O0]
  | OP_GOTO_END_OF_EVAL_ON_EXCEPTION => (* 211 *) [IfJump ErrorSet [("eval_error_id = error_id", []); ("error_id = 0", []); ("set_exception(new_stack_trace(get_exception))", [(Sym "current_method"); (Imm O2)])] O0]
  | OP_GOTO_END_OF_METHOD_ON_EXCEPTION => (* 222 *) [IfJump ErrorSet [("set_exception(new_stack_trace(get_exception))", [(Sym "current_method"); (Imm O2)])] O0]
  | OP_LOOKUP_SWITCH => (* 231 *) [VSwitch]
  | OP_CASE_INFO => (* none *) []
  | OP_PUSH_MORTAL => (* 284 *) [Call "PUSH_MORTAL" [(Sym "mortal_stack"); (Sym "mortal_stack_top"); (Imm O0)]]
  | OP_LEAVE_SCOPE => (* 288 *) [Call "LEAVE_SCOPE" [(Sym "env"); (Sym "stack"); (Sym "object_vars"); (Sym "mortal_stack"); (Sym "&mortal_stack_top"); (Imm O0)]]
  | OP_MOVE_BYTE_ZERO => (* 293 *) [Call "MOVE_BYTE_ZERO" [(Var Byte O0)]]
  | OP_MOVE_SHORT_ZERO => (* 297 *) [Call "MOVE_SHORT_ZERO" [(Var Short O0)]]
  | OP_MOVE_INT_ZERO => (* 301 *) [Call "MOVE_INT_ZERO" [(Var Int O0)]]
  | OP_MOVE_LONG_ZERO => (* 305 *) [Call "MOVE_LONG_ZERO" [(Var Long O0)]]
  | OP_MOVE_FLOAT_ZERO => (* 309 *) [Call "MOVE_FLOAT_ZERO" [(Var Float O0)]]
  | OP_MOVE_DOUBLE_ZERO => (* 313 *) [Call "MOVE_DOUBLE_ZERO" [(Var Double O0)]]
  | OP_MOVE_OBJECT_UNDEF => (* 317 *) [Call "MOVE_OBJECT_UNDEF" [(Sym "env"); (Sym "stack"); (Addr Object O0)]]
  | OP_MOVE_MULNUM_BYTE_ZERO => (* 321 *) [Call "MOVE_MULNUM_BYTE_ZERO" [(Sym "env"); (Sym "stack"); (Addr Byte O0); (Imm O2)]]
  | OP_MOVE_MULNUM_SHORT_ZERO => (* 325 *) [Call "MOVE_MULNUM_SHORT_ZERO" [(Sym "env"); (Sym "stack"); (Addr Short O0); (Imm O2)]]
  | OP_MOVE_MULNUM_INT_ZERO => (* 329 *) [Call "MOVE_MULNUM_INT_ZERO" [(Sym "env"); (Sym "stack"); (Addr Int O0); (Imm O2)]]
  | OP_MOVE_MULNUM_LONG_ZERO => (* 333 *) [Call "MOVE_MULNUM_LONG_ZERO" [(Sym "env"); (Sym "stack"); (Addr Long O0); (Imm O2)]]
  | OP_MOVE_MULNUM_FLOAT_ZERO => (* 337 *) [Call "MOVE_MULNUM_FLOAT_ZERO" [(Sym "env"); (Sym "stack"); (Addr Float O0); (Imm O2)]]
  | OP_MOVE_MULNUM_DOUBLE_ZERO => (* 341 *) [Call "MOVE_MULNUM_DOUBLE_ZERO" [(Sym "env"); (Sym "stack"); (Addr Double O0); (Imm O2)]]
  | OP_MOVE_CONSTANT_BYTE => (* 345 *) [Call "MOVE_CONSTANT_BYTE" [(Var Byte O0); (ImmByte O1)]]
  | OP_MOVE_CONSTANT_INT => (* 349 *) [Call "MOVE_CONSTANT_INT" [(Var Int O0); (Imm O1)]]
  | OP_MOVE_CONSTANT_LONG => (* 353 *) [Call "MOVE_CONSTANT_LONG" [(Var Long O0); (ImmLong O1)]]
  | OP_MOVE_CONSTANT_FLOAT => (* 357 *) [Call "MOVE_CONSTANT_FLOAT" [(Var Float O0); (ImmFloat O1)]]
  | OP_MOVE_CONSTANT_DOUBLE => (* 363 *) [Call "MOVE_CONSTANT_DOUBLE" [(Var Double O0); (ImmDouble O1)]]
  | OP_MOVE_BYTE => (* 367 *) [Call "MOVE_BYTE" [(Var Byte O0); (Var Byte O1)]]
  | OP_MOVE_SHORT => (* 371 *) [Call "MOVE_SHORT" [(Var Short O0); (Var Short O1)]]
  | OP_MOVE_INT => (* 375 *) [Call "MOVE_INT" [(Var Int O0); (Var Int O1)]]
  | OP_MOVE_LONG => (* 379 *) [Call "MOVE_LONG" [(Var Long O0); (Var Long O1)]]
  | OP_MOVE_FLOAT => (* 383 *) [Call "MOVE_FLOAT" [(Var Float O0); (Var Float O1)]]
  | OP_MOVE_DOUBLE => (* 387 *) [Call "MOVE_DOUBLE" [(Var Double O0); (Var Double O1)]]
  | OP_MOVE_OBJECT => (* 391 *) [Call "MOVE_OBJECT" [(Sym "env"); (Sym "stack"); (Addr Object O0); (Var Object O1)]]
  | OP_MOVE_OBJECT_WITH_TYPE_CHECK => (* 395 *) [Call "MOVE_OBJECT_WITH_TYPE_CHECK" [(Sym "env"); (Sym "stack"); (Addr Object O0); (Var Object O1); (BasicType O2); (Imm O3); (Sym "&error_id")]]
  | OP_MOVE_OBJECT_CHECK_READ_ONLY_STRING => (* 404 *) [Call "MOVE_OBJECT_CHECK_READ_ONLY_STRING" [(Sym "env"); (Sym "stack"); (Addr Object O0); (Var Object O1); (Sym "&error_id")]]
  | OP_MOVE_REF => (* 408 *) [Call "MOVE_REF" [(Var Ref O0); (Var Ref O1)]]
  | OP_ADD_INT => (* 412 *) [Call "ADD_INT" [(Var Int O0); (Var Int O1); (Var Int O2)]]
  | OP_ADD_LONG => (* 416 *) [Call "ADD_LONG" [(Var Long O0); (Var Long O1); (Var Long O2)]]
  | OP_ADD_FLOAT => (* 420 *) [Call "ADD_FLOAT" [(Var Float O0); (Var Float O1); (Var Float O2)]]
  | OP_ADD_DOUBLE => (* 424 *) [Call "ADD_DOUBLE" [(Var Double O0); (Var Double O1); (Var Double O2)]]
  | OP_SUBTRACT_INT => (* 428 *) [Call "SUBTRACT_INT" [(Var Int O0); (Var Int O1); (Var Int O2)]]
  | OP_SUBTRACT_LONG => (* 432 *) [Call "SUBTRACT_LONG" [(Var Long O0); (Var Long O1); (Var Long O2)]]
  | OP_SUBTRACT_FLOAT => (* 436 *) [Call "SUBTRACT_FLOAT" [(Var Float O0); (Var Float O1); (Var Float O2)]]
  | OP_SUBTRACT_DOUBLE => (* 440 *) [Call "SUBTRACT_DOUBLE" [(Var Double O0); (Var Double O1); (Var Double O2)]]
  | OP_MULTIPLY_INT => (* 444 *) [Call "MULTIPLY_INT" [(Var Int O0); (Var Int O1); (Var Int O2)]]
  | OP_MULTIPLY_LONG => (* 448 *) [Call "MULTIPLY_LONG" [(Var Long O0); (Var Long O1); (Var Long O2)]]
  | OP_MULTIPLY_FLOAT => (* 452 *) [Call "MULTIPLY_FLOAT" [(Var Float O0); (Var Float O1); (Var Float O2)]]
  | OP_MULTIPLY_DOUBLE => (* 456 *) [Call "MULTIPLY_DOUBLE" [(Var Double O0); (Var Double O1); (Var Double O2)]]
  | OP_DIVIDE_INT => (* 460 *) [Call "DIVIDE_INT" [(Sym "env"); (Sym "stack"); (Addr Int O0); (Var Int O1); (Var Int O2); (Sym "&error_id")]]
  | OP_DIVIDE_LONG => (* 464 *) [Call "DIVIDE_LONG" [(Sym "env"); (Sym "stack"); (Addr Long O0); (Var Long O1); (Var Long O2); (Sym "&error_id")]]
  | OP_DIVIDE_FLOAT => (* 468 *) [Call "DIVIDE_FLOAT" [(Var Float O0); (Var Float O1); (Var Float O2)]]
  | OP_DIVIDE_DOUBLE => (* 472 *) [Call "DIVIDE_DOUBLE" [(Var Double O0); (Var Double O1); (Var Double O2)]]
  | OP_DIVIDE_UNSIGNED_INT => (* 476 *) [Call "DIVIDE_UNSIGNED_INT" [(Sym "env"); (Sym "stack"); (Addr Int O0); (Var Int O1); (Var Int O2); (Sym "&error_id")]]
  | OP_DIVIDE_UNSIGNED_LONG => (* 480 *) [Call "DIVIDE_UNSIGNED_LONG" [(Sym "env"); (Sym "stack"); (Addr Long O0); (Var Long O1); (Var Long O2); (Sym "&error_id")]]
  | OP_MODULO_INT => (* 484 *) [Call "MODULO_INT" [(Sym "env"); (Sym "stack"); (Addr Int O0); (Var Int O1); (Var Int O2); (Sym "&error_id")]]
  | OP_MODULO_LONG => (* 488 *) [Call "MODULO_LONG" [(Sym "env"); (Sym "stack"); (Addr Long O0); (Var Long O1); (Var Long O2); (Sym "&error_id")]]
  | OP_MODULO_UNSIGNED_INT => (* 492 *) [Call "MODULO_UNSIGNED_INT" [(Sym "env"); (Sym "stack"); (Addr Int O0); (Var Int O1); (Var Int O2); (Sym "&error_id")]]
  | OP_MODULO_UNSIGNED_LONG => (* 496 *) [Call "MODULO_UNSIGNED_LONG" [(Sym "env"); (Sym "stack"); (Addr Long O0); (Var Long O1); (Var Long O2); (Sym "&error_id")]]
  | OP_LEFT_SHIFT_INT => (* 500 *) [Call "LEFT_SHIFT_INT" [(Var Int O0); (Var Int O1); (Var Int O2)]]
  | OP_LEFT_SHIFT_LONG => (* 504 *) [Call "LEFT_SHIFT_LONG" [(Var Long O0); (Var Long O1); (Var Int O2)]]
  | OP_RIGHT_ARITHMETIC_SHIFT_INT => (* 508 *) [Call "RIGHT_ARITHMETIC_SHIFT_INT" [(Var Int O0); (Var Int O1); (Var Int O2)]]
  | OP_RIGHT_ARITHMETIC_SHIFT_LONG => (* 512 *) [Call "RIGHT_ARITHMETIC_SHIFT_LONG" [(Var Long O0); (Var Long O1); (Var Int O2)]]
  | OP_RIGHT_LOGICAL_SHIFT_INT => (* 516 *) [Call "RIGHT_LOGICAL_SHIFT_INT" [(Var Int O0); (Var Int O1); (Var Int O2)]]
  | OP_RIGHT_LOGICAL_SHIFT_LONG => (* 520 *) [Call "RIGHT_LOGICAL_SHIFT_LONG" [(Var Long O0); (Var Long O1); (Var Int O2)]]
  | OP_BIT_AND_INT => (* 524 *) [Call "BIT_AND_INT" [(Var Int O0); (Var Int O1); (Var Int O2)]]
  | OP_BIT_AND_LONG => (* 528 *) [Call "BIT_AND_LONG" [(Var Long O0); (Var Long O1); (Var Long O2)]]
  | OP_BIT_OR_INT => (* 532 *) [Call "BIT_OR_INT" [(Var Int O0); (Var Int O1); (Var Int O2)]]
  | OP_BIT_OR_LONG => (* 536 *) [Call "BIT_OR_LONG" [(Var Long O0); (Var Long O1); (Var Long O2)]]
  | OP_BIT_XOR_INT => (* 540 *) [Call "BIT_XOR_INT" [(Var Int O0); (Var Int O1); (Var Int O2)]]
  | OP_BIT_XOR_LONG => (* 544 *) [Call "BIT_XOR_LONG" [(Var Long O0); (Var Long O1); (Var Long O2)]]
  | OP_BIT_NOT_INT => (* 548 *) [Call "BIT_NOT_INT" [(Var Int O0); (Var Int O1)]]
  | OP_BIT_NOT_LONG => (* 552 *) [Call "BIT_NOT_LONG" [(Var Long O0); (Var Long O1)]]
  | OP_NEGATE_INT => (* 556 *) [Call "NEGATE_INT" [(Var Int O0); (Var Int O1)]]
  | OP_NEGATE_LONG => (* 560 *) [Call "NEGATE_LONG" [(Var Long O0); (Var Long O1)]]
  | OP_NEGATE_FLOAT => (* 564 *) [Call "NEGATE_FLOAT" [(Var Float O0); (Var Float O1)]]
  | OP_NEGATE_DOUBLE => (* 568 *) [Call "NEGATE_DOUBLE" [(Var Double O0); (Var Double O1)]]
  | OP_STRING_CONCAT => (* 572 *) [Call "STRING_CONCAT" [(Sym "env"); (Sym "stack"); (Addr Object O0); (Var Object O1); (Var Object O2); (Sym "&error_id")]]
  | OP_CONDITION_EVALUATION_INT => (* 576 *) [Call "CONDITION_EVALUATION_INT" [(Var Int O0); (Var Int O1)]]
  | OP_CONDITION_EVALUATION_LONG => (* 580 *) [Call "CONDITION_EVALUATION_LONG" [(Var Int O0); (Var Long O1)]]
  | OP_CONDITION_EVALUATION_FLOAT => (* 584 *) [Call "CONDITION_EVALUATION_FLOAT" [(Var Int O0); (Var Float O1)]]
  | OP_CONDITION_EVALUATION_DOUBLE => (* 588 *) [Call "CONDITION_EVALUATION_DOUBLE" [(Var Int O0); (Var Double O1)]]
  | OP_CONDITION_EVALUATION_OBJECT => (* 592 *) [Call "CONDITION_EVALUATION_OBJECT" [(Var Int O0); (Var Object O1)]]
  | OP_CONDITION_EVALUATION_REF => (* 596 *) [Call "CONDITION_EVALUATION_REF" [(Var Int O0); (Var Ref O1)]]
  | OP_CONDITION_EVALUATION_BOOL_OBJECT => (* 600 *) [Call "CONDITION_EVALUATION_BOOL_OBJECT" [(Sym "env"); (Sym "stack"); (Var Int O0); (Var Object O1)]]
  | OP_NUMERIC_COMPARISON_EQ_INT => (* 604 *) [Call "NUMERIC_COMPARISON_EQ_INT" [(Var Int O0); (Var Int O1); (Var Int O2)]]
  | OP_NUMERIC_COMPARISON_EQ_LONG => (* 608 *) [Call "NUMERIC_COMPARISON_EQ_LONG" [(Var Int O0); (Var Long O1); (Var Long O2)]]
  | OP_NUMERIC_COMPARISON_EQ_FLOAT => (* 612 *) [Call "NUMERIC_COMPARISON_EQ_FLOAT" [(Var Int O0); (Var Float O1); (Var Float O2)]]
  | OP_NUMERIC_COMPARISON_EQ_DOUBLE => (* 616 *) [Call "NUMERIC_COMPARISON_EQ_DOUBLE" [(Var Int O0); (Var Double O1); (Var Double O2)]]
  | OP_NUMERIC_COMPARISON_EQ_OBJECT => (* 620 *) [Call "NUMERIC_COMPARISON_EQ_OBJECT" [(Var Int O0); (Var Object O1); (Var Object O2)]]
  | OP_NUMERIC_COMPARISON_EQ_REF => (* 624 *) [Call "NUMERIC_COMPARISON_EQ_REF" [(Var Int O0); (Var Ref O1); (Var Ref O2)]]
  | OP_NUMERIC_COMPARISON_NE_INT => (* 628 *) [Call "NUMERIC_COMPARISON_NE_INT" [(Var Int O0); (Var Int O1); (Var Int O2)]]
  | OP_NUMERIC_COMPARISON_NE_LONG => (* 632 *) [Call "NUMERIC_COMPARISON_NE_LONG" [(Var Int O0); (Var Long O1); (Var Long O2)]]
  | OP_NUMERIC_COMPARISON_NE_FLOAT => (* 636 *) [Call "NUMERIC_COMPARISON_NE_FLOAT" [(Var Int O0); (Var Float O1); (Var Float O2)]]
  | OP_NUMERIC_COMPARISON_NE_DOUBLE => (* 640 *) [Call "NUMERIC_COMPARISON_NE_DOUBLE" [(Var Int O0); (Var Double O1); (Var Double O2)]]
  | OP_NUMERIC_COMPARISON_NE_OBJECT => (* 644 *) [Call "NUMERIC_COMPARISON_NE_OBJECT" [(Var Int O0); (Var Object O1); (Var Object O2)]]
  | OP_NUMERIC_COMPARISON_NE_REF => (* 648 *) [Call "NUMERIC_COMPARISON_NE_REF" [(Var Int O0); (Var Ref O1); (Var Ref O2)]]
  | OP_NUMERIC_COMPARISON_GT_INT => (* 652 *) [Call "NUMERIC_COMPARISON_GT_INT" [(Var Int O0); (Var Int O1); (Var Int O2)]]
  | OP_NUMERIC_COMPARISON_GT_LONG => (* 656 *) [Call "NUMERIC_COMPARISON_GT_LONG" [(Var Int O0); (Var Long O1); (Var Long O2)]]
  | OP_NUMERIC_COMPARISON_GT_FLOAT => (* 660 *) [Call "NUMERIC_COMPARISON_GT_FLOAT" [(Var Int O0); (Var Float O1); (Var Float O2)]]
  | OP_NUMERIC_COMPARISON_GT_DOUBLE => (* 664 *) [Call "NUMERIC_COMPARISON_GT_DOUBLE" [(Var Int O0); (Var Double O1); (Var Double O2)]]
  | OP_NUMERIC_COMPARISON_GE_INT => (* 668 *) [Call "NUMERIC_COMPARISON_GE_INT" [(Var Int O0); (Var Int O1); (Var Int O2)]]
  | OP_NUMERIC_COMPARISON_GE_LONG => (* 672 *) [Call "NUMERIC_COMPARISON_GE_LONG" [(Var Int O0); (Var Long O1); (Var Long O2)]]
  | OP_NUMERIC_COMPARISON_GE_FLOAT => (* 676 *) [Call "NUMERIC_COMPARISON_GE_FLOAT" [(Var Int O0); (Var Float O1); (Var Float O2)]]
  | OP_NUMERIC_COMPARISON_GE_DOUBLE => (* 680 *) [Call "NUMERIC_COMPARISON_GE_DOUBLE" [(Var Int O0); (Var Double O1); (Var Double O2)]]
  | OP_NUMERIC_COMPARISON_LT_INT => (* 684 *) [Call "NUMERIC_COMPARISON_LT_INT" [(Var Int O0); (Var Int O1); (Var Int O2)]]
  | OP_NUMERIC_COMPARISON_LT_LONG => (* 688 *) [Call "NUMERIC_COMPARISON_LT_LONG" [(Var Int O0); (Var Long O1); (Var Long O2)]]
  | OP_NUMERIC_COMPARISON_LT_FLOAT => (* 692 *) [Call "NUMERIC_COMPARISON_LT_FLOAT" [(Var Int O0); (Var Float O1); (Var Float O2)]]
  | OP_NUMERIC_COMPARISON_LT_DOUBLE => (* 696 *) [Call "NUMERIC_COMPARISON_LT_DOUBLE" [(Var Int O0); (Var Double O1); (Var Double O2)]]
  | OP_NUMERIC_COMPARISON_LE_INT => (* 700 *) [Call "NUMERIC_COMPARISON_LE_INT" [(Var Int O0); (Var Int O1); (Var Int O2)]]
  | OP_NUMERIC_COMPARISON_LE_LONG => (* 704 *) [Call "NUMERIC_COMPARISON_LE_LONG" [(Var Int O0); (Var Long O1); (Var Long O2)]]
  | OP_NUMERIC_COMPARISON_LE_FLOAT => (* 708 *) [Call "NUMERIC_COMPARISON_LE_FLOAT" [(Var Int O0); (Var Float O1); (Var Float O2)]]
  | OP_NUMERIC_COMPARISON_LE_DOUBLE => (* 712 *) [Call "NUMERIC_COMPARISON_LE_DOUBLE" [(Var Int O0); (Var Double O1); (Var Double O2)]]
  | OP_NUMERIC_COMPARISON_CMP_INT => (* 716 *) [Call "NUMERIC_COMPARISON_CMP_INT" [(Var Int O0); (Var Int O1); (Var Int O2)]]
  | OP_NUMERIC_COMPARISON_CMP_LONG => (* 720 *) [Call "NUMERIC_COMPARISON_CMP_LONG" [(Var Int O0); (Var Long O1); (Var Long O2)]]
  | OP_NUMERIC_COMPARISON_CMP_FLOAT => (* 724 *) [Call "NUMERIC_COMPARISON_CMP_FLOAT" [(Var Int O0); (Var Float O1); (Var Float O2)]]
  | OP_NUMERIC_COMPARISON_CMP_DOUBLE => (* 728 *) [Call "NUMERIC_COMPARISON_CMP_DOUBLE" [(Var Int O0); (Var Double O1); (Var Double O2)]]
  | OP_IS_UNDEF => (* 732 *) [Call "IS_UNDEF" [(Var Int O0); (Var Object O1)]]
  | OP_IS_NOT_UNDEF => (* 736 *) [Call "IS_NOT_UNDEF" [(Var Int O0); (Var Object O1)]]
  | OP_STRING_COMPARISON_EQ => (* 740 *) [Call "STRING_COMPARISON_EQ" [(Sym "env"); (Sym "stack"); (Addr Int O0); (Var Object O1); (Var Object O2)]]
  | OP_STRING_COMPARISON_NE => (* 744 *) [Call "STRING_COMPARISON_NE" [(Sym "env"); (Sym "stack"); (Addr Int O0); (Var Object O1); (Var Object O2)]]
  | OP_STRING_COMPARISON_GT => (* 748 *) [Call "STRING_COMPARISON_GT" [(Sym "env"); (Sym "stack"); (Addr Int O0); (Var Object O1); (Var Object O2)]]
  | OP_STRING_COMPARISON_GE => (* 752 *) [Call "STRING_COMPARISON_GE" [(Sym "env"); (Sym "stack"); (Addr Int O0); (Var Object O1); (Var Object O2)]]
  | OP_STRING_COMPARISON_LT => (* 756 *) [Call "STRING_COMPARISON_LT" [(Sym "env"); (Sym "stack"); (Addr Int O0); (Var Object O1); (Var Object O2)]]
  | OP_STRING_COMPARISON_LE => (* 760 *) [Call "STRING_COMPARISON_LE" [(Sym "env"); (Sym "stack"); (Addr Int O0); (Var Object O1); (Var Object O2)]]
  | OP_STRING_COMPARISON_CMP => (* 764 *) [Call "STRING_COMPARISON_CMP" [(Sym "env"); (Sym "stack"); (Addr Int O0); (Var Object O1); (Var Object O2)]]
  | OP_NEW_OBJECT => (* 768 *) [Call "NEW_OBJECT" [(Sym "env"); (Sym "stack"); (Addr Object O0); (BasicType O1); (Sym "&error_id")]]
  | OP_NEW_OBJECT_ARRAY => (* 776 *) [Call "NEW_OBJECT_ARRAY" [(Sym "env"); (Sym "stack"); (Addr Object O0); (BasicType O1); (Rd Int O2); (Sym "&error_id")]]
  | OP_NEW_MULDIM_ARRAY => (* 785 *) [Call "NEW_MULDIM_ARRAY" [(Sym "env"); (Sym "stack"); (Addr Object O0); (BasicType O1); (Imm O3); (Rd Int O2); (Sym "&error_id")]]
  | OP_NEW_MULNUM_ARRAY => (* 795 *) [Call "NEW_MULNUM_ARRAY" [(Sym "env"); (Sym "stack"); (Addr Object O0); (BasicType O1); (Rd Int O2); (Sym "&error_id")]]
  | OP_NEW_BYTE_ARRAY => (* 804 *) [Call "NEW_BYTE_ARRAY" [(Sym "env"); (Sym "stack"); (Addr Object O0); (Rd Int O1); (Sym "&error_id")]]
  | OP_NEW_SHORT_ARRAY => (* 809 *) [Call "NEW_SHORT_ARRAY" [(Sym "env"); (Sym "stack"); (Addr Object O0); (Rd Int O1); (Sym "&error_id")]]
  | OP_NEW_INT_ARRAY => (* 814 *) [Call "NEW_INT_ARRAY" [(Sym "env"); (Sym "stack"); (Addr Object O0); (Rd Int O1); (Sym "&error_id")]]
  | OP_NEW_LONG_ARRAY => (* 819 *) [Call "NEW_LONG_ARRAY" [(Sym "env"); (Sym "stack"); (Addr Object O0); (Rd Int O1); (Sym "&error_id")]]
  | OP_NEW_FLOAT_ARRAY => (* 824 *) [Call "NEW_FLOAT_ARRAY" [(Sym "env"); (Sym "stack"); (Addr Object O0); (Rd Int O1); (Sym "&error_id")]]
  | OP_NEW_DOUBLE_ARRAY => (* 829 *) [Call "NEW_DOUBLE_ARRAY" [(Sym "env"); (Sym "stack"); (Addr Object O0); (Rd Int O1); (Sym "&error_id")]]
  | OP_NEW_STRING => (* 834 *) [Call "NEW_STRING" [(Sym "env"); (Sym "stack"); (Addr Object O0); (ConstValue O1); (ConstLength O1); (Sym "&error_id")]]
  | OP_NEW_STRING_LEN => (* 842 *) [Call "NEW_STRING_LEN" [(Sym "env"); (Sym "stack"); (Addr Object O0); (Rd Int O1); (Sym "&error_id")]]
  | OP_IS_READ_ONLY => (* 847 *) [Call "IS_READ_ONLY" [(Sym "env"); (Sym "stack"); (Var Int O0); (Var Object O1)]]
  | OP_MAKE_READ_ONLY => (* 851 *) [Call "MAKE_READ_ONLY" [(Sym "env"); (Sym "stack"); (Var Object O0)]]
  | OP_GET_ARRAY_ELEMENT_BYTE => (* 855 *) [Call "GET_ARRAY_ELEMENT_BYTE" [(Sym "env"); (Sym "stack"); (Addr Byte O0); (Rd Object O1); (Rd Int O2); (Sym "&error_id"); (Sym "object_data_offset"); (Sym "object_length_offset")]]
  | OP_GET_ARRAY_ELEMENT_SHORT => (* 861 *) [Call "GET_ARRAY_ELEMENT_SHORT" [(Sym "env"); (Sym "stack"); (Addr Short O0); (Rd Object O1); (Rd Int O2); (Sym "&error_id"); (Sym "object_data_offset"); (Sym "object_length_offset")]]
  | OP_GET_ARRAY_ELEMENT_INT => (* 867 *) [Call "GET_ARRAY_ELEMENT_INT" [(Sym "env"); (Sym "stack"); (Addr Int O0); (Rd Object O1); (Rd Int O2); (Sym "&error_id"); (Sym "object_data_offset"); (Sym "object_length_offset")]]
  | OP_GET_ARRAY_ELEMENT_LONG => (* 873 *) [Call "GET_ARRAY_ELEMENT_LONG" [(Sym "env"); (Sym "stack"); (Addr Long O0); (Rd Object O1); (Rd Int O2); (Sym "&error_id"); (Sym "object_data_offset"); (Sym "object_length_offset")]]
  | OP_GET_ARRAY_ELEMENT_FLOAT => (* 879 *) [Call "GET_ARRAY_ELEMENT_FLOAT" [(Sym "env"); (Sym "stack"); (Addr Float O0); (Rd Object O1); (Rd Int O2); (Sym "&error_id"); (Sym "object_data_offset"); (Sym "object_length_offset")]]
  | OP_GET_ARRAY_ELEMENT_DOUBLE => (* 885 *) [Call "GET_ARRAY_ELEMENT_DOUBLE" [(Sym "env"); (Sym "stack"); (Addr Double O0); (Rd Object O1); (Rd Int O2); (Sym "&error_id"); (Sym "object_data_offset"); (Sym "object_length_offset")]]
  | OP_GET_ARRAY_ELEMENT_OBJECT => (* 891 *) [Call "GET_ARRAY_ELEMENT_OBJECT" [(Sym "env"); (Sym "stack"); (Addr Object O0); (Rd Object O1); (Rd Int O2); (Sym "&error_id"); (Sym "object_data_offset"); (Sym "object_length_offset")]]
  | OP_SET_ARRAY_ELEMENT_BYTE => (* 897 *) [Call "SET_ARRAY_ELEMENT_BYTE" [(Sym "env"); (Sym "stack"); (Rd Object O0); (Rd Int O1); (Var Byte O2); (Sym "&error_id"); (Sym "object_data_offset"); (Sym "object_length_offset")]]
  | OP_SET_ARRAY_ELEMENT_SHORT => (* 903 *) [Call "SET_ARRAY_ELEMENT_SHORT" [(Sym "env"); (Sym "stack"); (Rd Object O0); (Rd Int O1); (Var Short O2); (Sym "&error_id"); (Sym "object_data_offset"); (Sym "object_length_offset")]]
  | OP_SET_ARRAY_ELEMENT_INT => (* 909 *) [Call "SET_ARRAY_ELEMENT_INT" [(Sym "env"); (Sym "stack"); (Rd Object O0); (Rd Int O1); (Var Int O2); (Sym "&error_id"); (Sym "object_data_offset"); (Sym "object_length_offset")]]
  | OP_SET_ARRAY_ELEMENT_LONG => (* 915 *) [Call "SET_ARRAY_ELEMENT_LONG" [(Sym "env"); (Sym "stack"); (Rd Object O0); (Rd Int O1); (Var Long O2); (Sym "&error_id"); (Sym "object_data_offset"); (Sym "object_length_offset")]]
  | OP_SET_ARRAY_ELEMENT_FLOAT => (* 921 *) [Call "SET_ARRAY_ELEMENT_FLOAT" [(Sym "env"); (Sym "stack"); (Rd Object O0); (Rd Int O1); (Var Float O2); (Sym "&error_id"); (Sym "object_data_offset"); (Sym "object_length_offset")]]
  | OP_SET_ARRAY_ELEMENT_DOUBLE => (* 927 *) [Call "SET_ARRAY_ELEMENT_DOUBLE" [(Sym "env"); (Sym "stack"); (Rd Object O0); (Rd Int O1); (Var Double O2); (Sym "&error_id"); (Sym "object_data_offset"); (Sym "object_length_offset")]]
  | OP_SET_ARRAY_ELEMENT_OBJECT => (* 933 *) [Call "SET_ARRAY_ELEMENT_OBJECT" [(Sym "env"); (Sym "stack"); (Rd Object O0); (Rd Int O1); (Var Object O2); (Sym "&error_id"); (Sym "object_data_offset"); (Sym "object_length_offset")]]
  | OP_SET_ARRAY_ELEMENT_OBJECT_CHECK_TYPE => (* 939 *) [Call "SET_ARRAY_ELEMENT_OBJECT_CHECK_TYPE" [(Sym "env"); (Sym "stack"); (Rd Object O0); (Rd Int O1); (Var Object O2); (Sym "&error_id"); (Sym "object_data_offset"); (Sym "object_length_offset")]]
  | OP_SET_ARRAY_ELEMENT_UNDEF => (* 945 *) [Call "SET_ARRAY_ELEMENT_UNDEF" [(Sym "env"); (Sym "stack"); (Rd Object O0); (Rd Int O1); (Sym "&error_id"); (Sym "object_data_offset"); (Sym "object_length_offset")]]
  | OP_ARRAY_LENGTH => (* 951 *) [Call "ARRAY_LENGTH" [(Sym "env"); (Sym "stack"); (Addr Int O0); (Var Object O1); (Sym "&error_id"); (Sym "object_length_offset")]]
  | OP_STRING_LENGTH => (* 955 *) [Call "STRING_LENGTH" [(Sym "env"); (Sym "stack"); (Addr Int O0); (Var Object O1); (Sym "object_length_offset")]]
  | OP_GET_FIELD_BYTE => (* 959 *) [Call "GET_FIELD_BYTE" [(Sym "env"); (Sym "stack"); (Addr Byte O0); (Rd Object O1); (FieldOffset O2 O3); (Sym "&error_id"); (Sym "object_data_offset")]]
  | OP_GET_FIELD_SHORT => (* 971 *) [Call "GET_FIELD_SHORT" [(Sym "env"); (Sym "stack"); (Addr Short O0); (Rd Object O1); (FieldOffset O2 O3); (Sym "&error_id"); (Sym "object_data_offset")]]
  | OP_GET_FIELD_INT => (* 983 *) [Call "GET_FIELD_INT" [(Sym "env"); (Sym "stack"); (Addr Int O0); (Rd Object O1); (FieldOffset O2 O3); (Sym "&error_id"); (Sym "object_data_offset")]]
  | OP_GET_FIELD_LONG => (* 996 *) [Call "GET_FIELD_LONG" [(Sym "env"); (Sym "stack"); (Addr Long O0); (Rd Object O1); (FieldOffset O2 O3); (Sym "&error_id"); (Sym "object_data_offset")]]
  | OP_GET_FIELD_FLOAT => (* 1008 *) [Call "GET_FIELD_FLOAT" [(Sym "env"); (Sym "stack"); (Addr Float O0); (Rd Object O1); (FieldOffset O2 O3); (Sym "&error_id"); (Sym "object_data_offset")]]
  | OP_GET_FIELD_DOUBLE => (* 1020 *) [Call "GET_FIELD_DOUBLE" [(Sym "env"); (Sym "stack"); (Addr Double O0); (Rd Object O1); (FieldOffset O2 O3); (Sym "&error_id"); (Sym "object_data_offset")]]
  | OP_GET_FIELD_OBJECT => (* 1032 *) [Call "GET_FIELD_OBJECT" [(Sym "env"); (Sym "stack"); (Addr Object O0); (Rd Object O1); (FieldOffset O2 O3); (Sym "&error_id"); (Sym "object_data_offset")]]
  | OP_SET_FIELD_BYTE => (* 1044 *) [Call "SET_FIELD_BYTE" [(Sym "env"); (Sym "stack"); (Rd Object O0); (FieldOffset O2 O3); (Var Byte O1); (Sym "&error_id"); (Sym "object_data_offset")]]
  | OP_SET_FIELD_SHORT => (* 1056 *) [Call "SET_FIELD_SHORT" [(Sym "env"); (Sym "stack"); (Rd Object O0); (FieldOffset O2 O3); (Var Short O1); (Sym "&error_id"); (Sym "object_data_offset")]]
  | OP_SET_FIELD_INT => (* 1068 *) [Call "SET_FIELD_INT" [(Sym "env"); (Sym "stack"); (Rd Object O0); (FieldOffset O2 O3); (Var Int O1); (Sym "&error_id"); (Sym "object_data_offset")]]
  | OP_SET_FIELD_LONG => (* 1080 *) [Call "SET_FIELD_LONG" [(Sym "env"); (Sym "stack"); (Rd Object O0); (FieldOffset O2 O3); (Var Long O1); (Sym "&error_id"); (Sym "object_data_offset")]]
  | OP_SET_FIELD_FLOAT => (* 1092 *) [Call "SET_FIELD_FLOAT" [(Sym "env"); (Sym "stack"); (Rd Object O0); (FieldOffset O2 O3); (Var Float O1); (Sym "&error_id"); (Sym "object_data_offset")]]
  | OP_SET_FIELD_DOUBLE => (* 1104 *) [Call "SET_FIELD_DOUBLE" [(Sym "env"); (Sym "stack"); (Rd Object O0); (FieldOffset O2 O3); (Var Double O1); (Sym "&error_id"); (Sym "object_data_offset")]]
  | OP_SET_FIELD_OBJECT => (* 1116 *) [Call "SET_FIELD_OBJECT" [(Sym "env"); (Sym "stack"); (Rd Object O0); (FieldOffset O2 O3); (Var Object O1); (Sym "&error_id"); (Sym "object_data_offset")]]
  | OP_SET_FIELD_UNDEF => (* 1128 *) [Call "SET_FIELD_UNDEF" [(Sym "env"); (Sym "stack"); (Rd Object O0); (FieldOffset O2 O3); (Sym "&error_id"); (Sym "object_data_offset")]]
  | OP_WEAKEN_FIELD => (* 1140 *) [Call "WEAKEN_FIELD" [(Sym "env"); (Sym "stack"); (Rd Object O0); (FieldOffset O2 O3); (Sym "&error_id"); (Sym "object_data_offset")]]
  | OP_UNWEAKEN_FIELD => (* 1152 *) [Call "UNWEAKEN_FIELD" [(Sym "env"); (Sym "stack"); (Rd Object O0); (FieldOffset O2 O3); (Sym "&error_id"); (Sym "object_data_offset")]]
  | OP_ISWEAK_FIELD => (* 1164 *) [Call "ISWEAK_FIELD" [(Sym "env"); (Sym "stack"); (Addr Int O0); (Rd Object O1); (FieldOffset O2 O3); (Sym "&error_id"); (Sym "object_data_offset")]]
  | OP_GET_CLASS_VAR_BYTE => (* 1176 *) [Call "GET_CLASS_VAR_BYTE" [(Sym "env"); (Sym "stack"); (Var Byte O0); (ClassVar O1 O2)]]
  | OP_GET_CLASS_VAR_SHORT => (* 1186 *) [Call "GET_CLASS_VAR_SHORT" [(Sym "env"); (Sym "stack"); (Var Short O0); (ClassVar O1 O2)]]
  | OP_GET_CLASS_VAR_INT => (* 1196 *) [Call "GET_CLASS_VAR_INT" [(Sym "env"); (Sym "stack"); (Var Int O0); (ClassVar O1 O2)]]
  | OP_GET_CLASS_VAR_LONG => (* 1206 *) [Call "GET_CLASS_VAR_LONG" [(Sym "env"); (Sym "stack"); (Var Long O0); (ClassVar O1 O2)]]
  | OP_GET_CLASS_VAR_FLOAT => (* 1216 *) [Call "GET_CLASS_VAR_FLOAT" [(Sym "env"); (Sym "stack"); (Var Float O0); (ClassVar O1 O2)]]
  | OP_GET_CLASS_VAR_DOUBLE => (* 1226 *) [Call "GET_CLASS_VAR_DOUBLE" [(Sym "env"); (Sym "stack"); (Var Double O0); (ClassVar O1 O2)]]
  | OP_GET_CLASS_VAR_OBJECT => (* 1236 *) [Call "GET_CLASS_VAR_OBJECT" [(Sym "env"); (Sym "stack"); (Addr Object O0); (ClassVar O1 O2)]]
  | OP_SET_CLASS_VAR_BYTE => (* 1246 *) [Call "SET_CLASS_VAR_BYTE" [(Sym "env"); (Sym "stack"); (ClassVar O0 O1); (Var Byte O2)]]
  | OP_SET_CLASS_VAR_SHORT => (* 1256 *) [Call "SET_CLASS_VAR_SHORT" [(Sym "env"); (Sym "stack"); (ClassVar O0 O1); (Var Short O2)]]
  | OP_SET_CLASS_VAR_INT => (* 1266 *) [Call "SET_CLASS_VAR_INT" [(Sym "env"); (Sym "stack"); (ClassVar O0 O1); (Var Int O2)]]
  | OP_SET_CLASS_VAR_LONG => (* 1276 *) [Call "SET_CLASS_VAR_LONG" [(Sym "env"); (Sym "stack"); (ClassVar O0 O1); (Var Long O2)]]
  | OP_SET_CLASS_VAR_FLOAT => (* 1286 *) [Call "SET_CLASS_VAR_FLOAT" [(Sym "env"); (Sym "stack"); (ClassVar O0 O1); (Var Float O2)]]
  | OP_SET_CLASS_VAR_DOUBLE => (* 1296 *) [Call "SET_CLASS_VAR_DOUBLE" [(Sym "env"); (Sym "stack"); (ClassVar O0 O1); (Var Double O2)]]
  | OP_SET_CLASS_VAR_OBJECT => (* 1306 *) [Call "SET_CLASS_VAR_OBJECT" [(Sym "env"); (Sym "stack"); (ClassVar O0 O1); (Var Object O2)]]
  | OP_SET_CLASS_VAR_UNDEF => (* 1316 *) [Call "SET_CLASS_VAR_UNDEF" [(Sym "env"); (Sym "stack"); (ClassVar O0 O1)]]
  | OP_GET_EXCEPTION_VAR => (* 1326 *) [Call "GET_EXCEPTION_VAR" [(Sym "env"); (Sym "stack"); (Addr Object O0)]]
  | OP_SET_EXCEPTION_VAR => (* 1330 *) [Call "SET_EXCEPTION_VAR" [(Sym "env"); (Sym "stack"); (Var Object O0)]]
  | OP_SET_EXCEPTION_VAR_UNDEF => (* 1334 *) [Call "SET_EXCEPTION_VAR_UNDEF" [(Sym "env"); (Sym "stack")]]
  | OP_ISA => (* 1338 *) [Call "ISA" [(Sym "env"); (Sym "stack"); (Addr Int O0); (Rd Object O1); (BasicType O2); (Imm O3)]]
  | OP_ISA_ERROR => (* 1348 *) [Call "ISA_ERROR" [(Sym "env"); (Sym "stack"); (Addr Int O0); (BasicTypeOf O1); (BasicType O2); (Imm O3)]]
  | OP_IS_TYPE => (* 1360 *) [Call "IS_TYPE" [(Sym "env"); (Sym "stack"); (Addr Int O0); (Rd Object O1); (BasicType O2); (Imm O3)]]
  | OP_IS_ERROR => (* 1370 *) [Call "IS_ERROR" [(Sym "env"); (Sym "stack"); (Addr Int O0); (BasicTypeOf O1); (BasicType O2); (Imm O3)]]
  | OP_CAN => (* 1382 *) [Call "CAN" [(Sym "env"); (Sym "stack"); (Var Int O0); (Rd Object O1); (ConstValue O2)]]
  | OP_PRINT => (* 1392 *) [Call "PRINT" [(Sym "env"); (Sym "stack"); (Rd Object O0)]]
  | OP_SAY => (* 1397 *) [Call "SAY" [(Sym "env"); (Sym "stack"); (Rd Object O0)]]
  | OP_WARN => (* 1402 *) [Call "WARN" [(Sym "env"); (Sym "stack"); (Rd Object O0); CurClassName; CurMethodName; CurFile; (Imm O1)]]
  | OP_CLEAR_EVAL_ERROR_ID => (* 1416 *) [Call "CLEAR_EVAL_ERROR_ID" [(Sym "eval_error_id")]]
  | OP_GET_EVAL_ERROR_ID => (* 1420 *) [Call "GET_EVAL_ERROR_ID" [(Var Int O0); (Sym "eval_error_id")]]
  | OP_SET_ERROR_ID_BY_TYPE => (* 1424 *) [Call "SET_ERROR_ID" [(Sym "error_id"); (Imm O0)]]
  | OP_SET_ERROR_ID => (* 1430 *) [Call "SET_ERROR_ID" [(Sym "error_id"); (Rd Int O0)]]
  | OP_ARGS_WIDTH => (* 1445 *) [Call "ARGS_WIDTH" [(Sym "env"); (Sym "stack"); (Var Int O0)]]
  | OP_GET_BASIC_TYPE_ID => (* 1436 *) [Call "GET_BASIC_TYPE_ID" [(Sym "env"); (Sym "stack"); (Var Int O0); (BasicType O1)]]
  | OP_TYPE_NAME => (* 1449 *) [Call "TYPE_NAME" [(Sym "env"); (Sym "stack"); (Addr Object O0); (Rd Object O1)]]
  | OP_DUMP => (* 1454 *) [Call "DUMP" [(Sym "env"); (Sym "stack"); (Addr Object O0); (Rd Object O1)]]
  | OP_COPY => (* 1459 *) [Call "COPY" [(Sym "env"); (Sym "stack"); (Addr Object O0); (Rd Object O1); (Sym "&error_id")]]
  | OP_REF_BYTE => (* 1464 *) [Call "REF_BYTE" [(Var Ref O0); (Addr Byte O1)]]
  | OP_REF_SHORT => (* 1468 *) [Call "REF_SHORT" [(Var Ref O0); (Addr Short O1)]]
  | OP_REF_INT => (* 1472 *) [Call "REF_INT" [(Var Ref O0); (Addr Int O1)]]
  | OP_REF_LONG => (* 1476 *) [Call "REF_LONG" [(Var Ref O0); (Addr Long O1)]]
  | OP_REF_FLOAT => (* 1480 *) [Call "REF_FLOAT" [(Var Ref O0); (Addr Float O1)]]
  | OP_REF_DOUBLE => (* 1484 *) [Call "REF_DOUBLE" [(Var Ref O0); (Addr Double O1)]]
  | OP_GET_DEREF_BYTE => (* 1488 *) [Call "GET_DEREF_BYTE" [(Var Byte O0); (Addr Ref O1)]]
  | OP_GET_DEREF_SHORT => (* 1492 *) [Call "GET_DEREF_SHORT" [(Var Short O0); (Addr Ref O1)]]
  | OP_GET_DEREF_INT => (* 1496 *) [Call "GET_DEREF_INT" [(Var Int O0); (Addr Ref O1)]]
  | OP_GET_DEREF_LONG => (* 1500 *) [Call "GET_DEREF_LONG" [(Var Long O0); (Addr Ref O1)]]
  | OP_GET_DEREF_FLOAT => (* 1504 *) [Call "GET_DEREF_FLOAT" [(Var Float O0); (Addr Ref O1)]]
  | OP_GET_DEREF_DOUBLE => (* 1508 *) [Call "GET_DEREF_DOUBLE" [(Var Double O0); (Addr Ref O1)]]
  | OP_SET_DEREF_BYTE => (* 1512 *) [Call "SET_DEREF_BYTE" [(Addr Ref O0); (Var Byte O1)]]
  | OP_SET_DEREF_SHORT => (* 1516 *) [Call "SET_DEREF_SHORT" [(Addr Ref O0); (Var Short O1)]]
  | OP_SET_DEREF_INT => (* 1520 *) [Call "SET_DEREF_INT" [(Addr Ref O0); (Var Int O1)]]
  | OP_SET_DEREF_LONG => (* 1524 *) [Call "SET_DEREF_LONG" [(Addr Ref O0); (Var Long O1)]]
  | OP_SET_DEREF_FLOAT => (* 1528 *) [Call "SET_DEREF_FLOAT" [(Addr Ref O0); (Var Float O1)]]
  | OP_SET_DEREF_DOUBLE => (* 1532 *) [Call "SET_DEREF_DOUBLE" [(Addr Ref O0); (Var Double O1)]]
  | OP_GET_MULNUM_FIELD_BYTE => (* 1536 *) [Call "GET_MULNUM_FIELD_BYTE" [(Var Byte O0); (Addr Byte O1); (Imm O2)]]
  | OP_GET_MULNUM_FIELD_SHORT => (* 1541 *) [Call "GET_MULNUM_FIELD_SHORT" [(Var Short O0); (Addr Short O1); (Imm O2)]]
  | OP_GET_MULNUM_FIELD_INT => (* 1546 *) [Call "GET_MULNUM_FIELD_INT" [(Var Int O0); (Addr Int O1); (Imm O2)]]
  | OP_GET_MULNUM_FIELD_LONG => (* 1551 *) [Call "GET_MULNUM_FIELD_LONG" [(Var Long O0); (Addr Long O1); (Imm O2)]]
  | OP_GET_MULNUM_FIELD_FLOAT => (* 1556 *) [Call "GET_MULNUM_FIELD_FLOAT" [(Var Float O0); (Addr Float O1); (Imm O2)]]
  | OP_GET_MULNUM_FIELD_DOUBLE => (* 1561 *) [Call "GET_MULNUM_FIELD_DOUBLE" [(Var Double O0); (Addr Double O1); (Imm O2)]]
  | OP_SET_MULNUM_FIELD_BYTE => (* 1566 *) [Call "SET_MULNUM_FIELD_BYTE" [(Addr Byte O0); (Imm O2); (Var Byte O1)]]
  | OP_SET_MULNUM_FIELD_SHORT => (* 1571 *) [Call "SET_MULNUM_FIELD_SHORT" [(Addr Short O0); (Imm O2); (Var Short O1)]]
  | OP_SET_MULNUM_FIELD_INT => (* 1576 *) [Call "SET_MULNUM_FIELD_INT" [(Addr Int O0); (Imm O2); (Var Int O1)]]
  | OP_SET_MULNUM_FIELD_LONG => (* 1581 *) [Call "SET_MULNUM_FIELD_LONG" [(Addr Long O0); (Imm O2); (Var Long O1)]]
  | OP_SET_MULNUM_FIELD_FLOAT => (* 1586 *) [Call "SET_MULNUM_FIELD_FLOAT" [(Addr Float O0); (Imm O2); (Var Float O1)]]
  | OP_SET_MULNUM_FIELD_DOUBLE => (* 1591 *) [Call "SET_MULNUM_FIELD_DOUBLE" [(Addr Double O0); (Imm O2); (Var Double O1)]]
  | OP_MOVE_MULNUM_BYTE => (* 1596 *) [Call "MOVE_MULNUM_BYTE" [(Sym "env"); (Sym "stack"); (Addr Byte O0); (Addr Byte O1); (Imm O2)]]
  | OP_MOVE_MULNUM_SHORT => (* 1601 *) [Call "MOVE_MULNUM_SHORT" [(Sym "env"); (Sym "stack"); (Addr Short O0); (Addr Short O1); (Imm O2)]]
  | OP_MOVE_MULNUM_INT => (* 1606 *) [Call "MOVE_MULNUM_INT" [(Sym "env"); (Sym "stack"); (Addr Int O0); (Addr Int O1); (Imm O2)]]
  | OP_MOVE_MULNUM_LONG => (* 1611 *) [Call "MOVE_MULNUM_LONG" [(Sym "env"); (Sym "stack"); (Addr Long O0); (Addr Long O1); (Imm O2)]]
  | OP_MOVE_MULNUM_FLOAT => (* 1616 *) [Call "MOVE_MULNUM_FLOAT" [(Sym "env"); (Sym "stack"); (Addr Float O0); (Addr Float O1); (Imm O2)]]
  | OP_MOVE_MULNUM_DOUBLE => (* 1621 *) [Call "MOVE_MULNUM_DOUBLE" [(Sym "env"); (Sym "stack"); (Addr Double O0); (Addr Double O1); (Imm O2)]]
  | OP_GET_MULNUM_ARRAY_BYTE => (* 1626 *) [Call "GET_MULNUM_ARRAY_BYTE" [(Sym "env"); (Sym "stack"); (Addr Byte O0); (Rd Object O1); (Rd Int O2); (Imm O3); (Sym "&error_id"); (Sym "object_data_offset"); (Sym "object_length_offset")]]
  | OP_GET_MULNUM_ARRAY_SHORT => (* 1633 *) [Call "GET_MULNUM_ARRAY_SHORT" [(Sym "env"); (Sym "stack"); (Addr Short O0); (Rd Object O1); (Rd Int O2); (Imm O3); (Sym "&error_id"); (Sym "object_data_offset"); (Sym "object_length_offset")]]
  | OP_GET_MULNUM_ARRAY_INT => (* 1640 *) [Call "GET_MULNUM_ARRAY_INT" [(Sym "env"); (Sym "stack"); (Addr Int O0); (Rd Object O1); (Rd Int O2); (Imm O3); (Sym "&error_id"); (Sym "object_data_offset"); (Sym "object_length_offset")]]
  | OP_GET_MULNUM_ARRAY_LONG => (* 1647 *) [Call "GET_MULNUM_ARRAY_LONG" [(Sym "env"); (Sym "stack"); (Addr Long O0); (Rd Object O1); (Rd Int O2); (Imm O3); (Sym "&error_id"); (Sym "object_data_offset"); (Sym "object_length_offset")]]
  | OP_GET_MULNUM_ARRAY_FLOAT => (* 1654 *) [Call "GET_MULNUM_ARRAY_FLOAT" [(Sym "env"); (Sym "stack"); (Addr Float O0); (Rd Object O1); (Rd Int O2); (Imm O3); (Sym "&error_id"); (Sym "object_data_offset"); (Sym "object_length_offset")]]
  | OP_GET_MULNUM_ARRAY_DOUBLE => (* 1661 *) [Call "GET_MULNUM_ARRAY_DOUBLE" [(Sym "env"); (Sym "stack"); (Addr Double O0); (Rd Object O1); (Rd Int O2); (Imm O3); (Sym "&error_id"); (Sym "object_data_offset"); (Sym "object_length_offset")]]
  | OP_SET_MULNUM_ARRAY_BYTE => (* 1668 *) [Call "SET_MULNUM_ARRAY_BYTE" [(Sym "env"); (Sym "stack"); (Rd Object O0); (Rd Int O1); (Imm O3); (Addr Byte O2); (Sym "&error_id"); (Sym "object_data_offset"); (Sym "object_length_offset")]]
  | OP_SET_MULNUM_ARRAY_SHORT => (* 1675 *) [Call "SET_MULNUM_ARRAY_SHORT" [(Sym "env"); (Sym "stack"); (Rd Object O0); (Rd Int O1); (Imm O3); (Addr Short O2); (Sym "&error_id"); (Sym "object_data_offset"); (Sym "object_length_offset")]]
  | OP_SET_MULNUM_ARRAY_INT => (* 1682 *) [Call "SET_MULNUM_ARRAY_INT" [(Sym "env"); (Sym "stack"); (Rd Object O0); (Rd Int O1); (Imm O3); (Addr Int O2); (Sym "&error_id"); (Sym "object_data_offset"); (Sym "object_length_offset")]]
  | OP_SET_MULNUM_ARRAY_LONG => (* 1689 *) [Call "SET_MULNUM_ARRAY_LONG" [(Sym "env"); (Sym "stack"); (Rd Object O0); (Rd Int O1); (Imm O3); (Addr Long O2); (Sym "&error_id"); (Sym "object_data_offset"); (Sym "object_length_offset")]]
  | OP_SET_MULNUM_ARRAY_FLOAT => (* 1696 *) [Call "SET_MULNUM_ARRAY_FLOAT" [(Sym "env"); (Sym "stack"); (Rd Object O0); (Rd Int O1); (Imm O3); (Addr Float O2); (Sym "&error_id"); (Sym "object_data_offset"); (Sym "object_length_offset")]]
  | OP_SET_MULNUM_ARRAY_DOUBLE => (* 1703 *) [Call "SET_MULNUM_ARRAY_DOUBLE" [(Sym "env"); (Sym "stack"); (Rd Object O0); (Rd Int O1); (Imm O3); (Addr Double O2); (Sym "&error_id"); (Sym "object_data_offset"); (Sym "object_length_offset")]]
  | OP_GET_MULNUM_ARRAY_FIELD_BYTE => (* 1710 *) [Call "GET_MULNUM_ARRAY_FIELD_BYTE" [(Sym "env"); (Sym "stack"); (Addr Byte O0); (Rd Object O1); (Rd Int O2); (ImmHigh O3); (ImmLow1 O3); (Sym "&error_id"); (Sym "object_data_offset"); (Sym "object_length_offset")]]
  | OP_GET_MULNUM_ARRAY_FIELD_SHORT => (* 1718 *) [Call "GET_MULNUM_ARRAY_FIELD_SHORT" [(Sym "env"); (Sym "stack"); (Addr Short O0); (Rd Object O1); (Rd Int O2); (ImmHigh O3); (ImmLow1 O3); (Sym "&error_id"); (Sym "object_data_offset"); (Sym "object_length_offset")]]
  | OP_GET_MULNUM_ARRAY_FIELD_INT => (* 1726 *) [Call "GET_MULNUM_ARRAY_FIELD_INT" [(Sym "env"); (Sym "stack"); (Addr Int O0); (Rd Object O1); (Rd Int O2); (ImmHigh O3); (ImmLow1 O3); (Sym "&error_id"); (Sym "object_data_offset"); (Sym "object_length_offset")]]
  | OP_GET_MULNUM_ARRAY_FIELD_LONG => (* 1734 *) [Call "GET_MULNUM_ARRAY_FIELD_LONG" [(Sym "env"); (Sym "stack"); (Addr Long O0); (Rd Object O1); (Rd Int O2); (ImmHigh O3); (ImmLow1 O3); (Sym "&error_id"); (Sym "object_data_offset"); (Sym "object_length_offset")]]
  | OP_GET_MULNUM_ARRAY_FIELD_FLOAT => (* 1742 *) [Call "GET_MULNUM_ARRAY_FIELD_FLOAT" [(Sym "env"); (Sym "stack"); (Addr Float O0); (Rd Object O1); (Rd Int O2); (ImmHigh O3); (ImmLow1 O3); (Sym "&error_id"); (Sym "object_data_offset"); (Sym "object_length_offset")]]
  | OP_GET_MULNUM_ARRAY_FIELD_DOUBLE => (* 1750 *) [Call "GET_MULNUM_ARRAY_FIELD_DOUBLE" [(Sym "env"); (Sym "stack"); (Addr Double O0); (Rd Object O1); (Rd Int O2); (ImmHigh O3); (ImmLow1 O3); (Sym "&error_id"); (Sym "object_data_offset"); (Sym "object_length_offset")]]
  | OP_SET_MULNUM_ARRAY_FIELD_BYTE => (* 1758 *) [Call "SET_MULNUM_ARRAY_FIELD_BYTE" [(Sym "env"); (Sym "stack"); (Rd Object O0); (Rd Int O1); (ImmHigh O3); (ImmLow1 O3); (Var Byte O2); (Sym "&error_id"); (Sym "object_data_offset"); (Sym "object_length_offset")]]
  | OP_SET_MULNUM_ARRAY_FIELD_SHORT => (* 1766 *) [Call "SET_MULNUM_ARRAY_FIELD_SHORT" [(Sym "env"); (Sym "stack"); (Rd Object O0); (Rd Int O1); (ImmHigh O3); (ImmLow1 O3); (Var Short O2); (Sym "&error_id"); (Sym "object_data_offset"); (Sym "object_length_offset")]]
  | OP_SET_MULNUM_ARRAY_FIELD_INT => (* 1774 *) [Call "SET_MULNUM_ARRAY_FIELD_INT" [(Sym "env"); (Sym "stack"); (Rd Object O0); (Rd Int O1); (ImmHigh O3); (ImmLow1 O3); (Var Int O2); (Sym "&error_id"); (Sym "object_data_offset"); (Sym "object_length_offset")]]
  | OP_SET_MULNUM_ARRAY_FIELD_LONG => (* 1782 *) [Call "SET_MULNUM_ARRAY_FIELD_LONG" [(Sym "env"); (Sym "stack"); (Rd Object O0); (Rd Int O1); (ImmHigh O3); (ImmLow1 O3); (Var Long O2); (Sym "&error_id"); (Sym "object_data_offset"); (Sym "object_length_offset")]]
  | OP_SET_MULNUM_ARRAY_FIELD_FLOAT => (* 1790 *) [Call "SET_MULNUM_ARRAY_FIELD_FLOAT" [(Sym "env"); (Sym "stack"); (Rd Object O0); (Rd Int O1); (ImmHigh O3); (ImmLow1 O3); (Var Float O2); (Sym "&error_id"); (Sym "object_data_offset"); (Sym "object_length_offset")]]
  | OP_SET_MULNUM_ARRAY_FIELD_DOUBLE => (* 1798 *) [Call "SET_MULNUM_ARRAY_FIELD_DOUBLE" [(Sym "env"); (Sym "stack"); (Rd Object O0); (Rd Int O1); (ImmHigh O3); (ImmLow1 O3); (Var Double O2); (Sym "&error_id"); (Sym "object_data_offset"); (Sym "object_length_offset")]]
  | OP_DEREF_MULNUM_BYTE => (* 1806 *) [Call "DEREF_MULNUM_BYTE" [(Sym "env"); (Sym "stack"); (Addr Byte O0); (Var Ref O1); (Imm O3)]]
  | OP_DEREF_MULNUM_SHORT => (* 1811 *) [Call "DEREF_MULNUM_SHORT" [(Sym "env"); (Sym "stack"); (Addr Short O0); (Var Ref O1); (Imm O3)]]
  | OP_DEREF_MULNUM_INT => (* 1816 *) [Call "DEREF_MULNUM_INT" [(Sym "env"); (Sym "stack"); (Addr Int O0); (Var Ref O1); (Imm O3)]]
  | OP_DEREF_MULNUM_LONG => (* 1821 *) [Call "DEREF_MULNUM_LONG" [(Sym "env"); (Sym "stack"); (Addr Long O0); (Var Ref O1); (Imm O3)]]
  | OP_DEREF_MULNUM_FLOAT => (* 1826 *) [Call "DEREF_MULNUM_FLOAT" [(Sym "env"); (Sym "stack"); (Addr Float O0); (Var Ref O1); (Imm O3)]]
  | OP_DEREF_MULNUM_DOUBLE => (* 1831 *) [Call "DEREF_MULNUM_DOUBLE" [(Sym "env"); (Sym "stack"); (Addr Double O0); (Var Ref O1); (Imm O3)]]
  | OP_GET_MULNUM_FIELD_DEREF_BYTE => (* 1836 *) [Call "GET_MULNUM_FIELD_DEREF_BYTE" [(Var Byte O0); (Var Ref O1); (Imm O2)]]
  | OP_GET_MULNUM_FIELD_DEREF_SHORT => (* 1841 *) [Call "GET_MULNUM_FIELD_DEREF_SHORT" [(Var Short O0); (Var Ref O1); (Imm O2)]]
  | OP_GET_MULNUM_FIELD_DEREF_INT => (* 1846 *) [Call "GET_MULNUM_FIELD_DEREF_INT" [(Var Int O0); (Var Ref O1); (Imm O2)]]
  | OP_GET_MULNUM_FIELD_DEREF_LONG => (* 1851 *) [Call "GET_MULNUM_FIELD_DEREF_LONG" [(Var Long O0); (Var Ref O1); (Imm O2)]]
  | OP_GET_MULNUM_FIELD_DEREF_FLOAT => (* 1856 *) [Call "GET_MULNUM_FIELD_DEREF_FLOAT" [(Var Float O0); (Var Ref O1); (Imm O2)]]
  | OP_GET_MULNUM_FIELD_DEREF_DOUBLE => (* 1861 *) [Call "GET_MULNUM_FIELD_DEREF_DOUBLE" [(Var Double O0); (Var Ref O1); (Imm O2)]]
  | OP_SET_MULNUM_FIELD_DEREF_BYTE => (* 1866 *) [Call "SET_MULNUM_FIELD_DEREF_BYTE" [(Var Ref O0); (Imm O2); (Var Byte O1)]]
  | OP_SET_MULNUM_FIELD_DEREF_SHORT => (* 1871 *) [Call "SET_MULNUM_FIELD_DEREF_SHORT" [(Var Ref O0); (Imm O2); (Var Short O1)]]
  | OP_SET_MULNUM_FIELD_DEREF_INT => (* 1876 *) [Call "SET_MULNUM_FIELD_DEREF_INT" [(Var Ref O0); (Imm O2); (Var Int O1)]]
  | OP_SET_MULNUM_FIELD_DEREF_LONG => (* 1881 *) [Call "SET_MULNUM_FIELD_DEREF_LONG" [(Var Ref O0); (Imm O2); (Var Long O1)]]
  | OP_SET_MULNUM_FIELD_DEREF_FLOAT => (* 1886 *) [Call "SET_MULNUM_FIELD_DEREF_FLOAT" [(Var Ref O0); (Imm O2); (Var Float O1)]]
  | OP_SET_MULNUM_FIELD_DEREF_DOUBLE => (* 1891 *) [Call "SET_MULNUM_FIELD_DEREF_DOUBLE" [(Var Ref O0); (Imm O2); (Var Double O1)]]
  | OP_TYPE_CONVERSION_BYTE_TO_SHORT => (* 1896 *) [Call "TYPE_CONVERSION_BYTE_TO_SHORT" [(Var Short O0); (Var Byte O1)]]
  | OP_TYPE_CONVERSION_BYTE_TO_INT => (* 1900 *) [Call "TYPE_CONVERSION_BYTE_TO_INT" [(Var Int O0); (Var Byte O1)]]
  | OP_TYPE_CONVERSION_BYTE_TO_LONG => (* 1904 *) [Call "TYPE_CONVERSION_BYTE_TO_LONG" [(Var Long O0); (Var Byte O1)]]
  | OP_TYPE_CONVERSION_BYTE_TO_FLOAT => (* 1908 *) [Call "TYPE_CONVERSION_BYTE_TO_FLOAT" [(Var Float O0); (Var Byte O1)]]
  | OP_TYPE_CONVERSION_BYTE_TO_DOUBLE => (* 1912 *) [Call "TYPE_CONVERSION_BYTE_TO_DOUBLE" [(Var Double O0); (Var Byte O1)]]
  | OP_TYPE_CONVERSION_SHORT_TO_BYTE => (* 1916 *) [Call "TYPE_CONVERSION_SHORT_TO_BYTE" [(Var Byte O0); (Var Short O1)]]
  | OP_TYPE_CONVERSION_SHORT_TO_INT => (* 1920 *) [Call "TYPE_CONVERSION_SHORT_TO_INT" [(Var Int O0); (Var Short O1)]]
  | OP_TYPE_CONVERSION_SHORT_TO_LONG => (* 1924 *) [Call "TYPE_CONVERSION_SHORT_TO_LONG" [(Var Long O0); (Var Short O1)]]
  | OP_TYPE_CONVERSION_SHORT_TO_FLOAT => (* 1928 *) [Call "TYPE_CONVERSION_SHORT_TO_FLOAT" [(Var Float O0); (Var Short O1)]]
  | OP_TYPE_CONVERSION_SHORT_TO_DOUBLE => (* 1932 *) [Call "TYPE_CONVERSION_SHORT_TO_DOUBLE" [(Var Double O0); (Var Short O1)]]
  | OP_TYPE_CONVERSION_INT_TO_BYTE => (* 1936 *) [Call "TYPE_CONVERSION_INT_TO_BYTE" [(Var Byte O0); (Var Int O1)]]
  | OP_TYPE_CONVERSION_INT_TO_SHORT => (* 1940 *) [Call "TYPE_CONVERSION_INT_TO_SHORT" [(Var Short O0); (Var Int O1)]]
  | OP_TYPE_CONVERSION_INT_TO_LONG => (* 1944 *) [Call "TYPE_CONVERSION_INT_TO_LONG" [(Var Long O0); (Var Int O1)]]
  | OP_TYPE_CONVERSION_INT_TO_FLOAT => (* 1948 *) [Call "TYPE_CONVERSION_INT_TO_FLOAT" [(Var Float O0); (Var Int O1)]]
  | OP_TYPE_CONVERSION_INT_TO_DOUBLE => (* 1952 *) [Call "TYPE_CONVERSION_INT_TO_DOUBLE" [(Var Double O0); (Var Int O1)]]
  | OP_TYPE_CONVERSION_LONG_TO_BYTE => (* 1956 *) [Call "TYPE_CONVERSION_LONG_TO_BYTE" [(Var Byte O0); (Var Long O1)]]
  | OP_TYPE_CONVERSION_LONG_TO_SHORT => (* 1960 *) [Call "TYPE_CONVERSION_LONG_TO_SHORT" [(Var Short O0); (Var Long O1)]]
  | OP_TYPE_CONVERSION_LONG_TO_INT => (* 1964 *) [Call "TYPE_CONVERSION_LONG_TO_INT" [(Var Int O0); (Var Long O1)]]
  | OP_TYPE_CONVERSION_LONG_TO_FLOAT => (* 1968 *) [Call "TYPE_CONVERSION_LONG_TO_FLOAT" [(Var Float O0); (Var Long O1)]]
  | OP_TYPE_CONVERSION_LONG_TO_DOUBLE => (* 1972 *) [Call "TYPE_CONVERSION_LONG_TO_DOUBLE" [(Var Double O0); (Var Long O1)]]
  | OP_TYPE_CONVERSION_FLOAT_TO_BYTE => (* 1976 *) [Call "TYPE_CONVERSION_FLOAT_TO_BYTE" [(Var Byte O0); (Var Float O1)]]
  | OP_TYPE_CONVERSION_FLOAT_TO_SHORT => (* 1980 *) [Call "TYPE_CONVERSION_FLOAT_TO_SHORT" [(Var Short O0); (Var Float O1)]]
  | OP_TYPE_CONVERSION_FLOAT_TO_INT => (* 1984 *) [Call "TYPE_CONVERSION_FLOAT_TO_INT" [(Var Int O0); (Var Float O1)]]
  | OP_TYPE_CONVERSION_FLOAT_TO_LONG => (* 1988 *) [Call "TYPE_CONVERSION_FLOAT_TO_LONG" [(Var Long O0); (Var Float O1)]]
  | OP_TYPE_CONVERSION_FLOAT_TO_DOUBLE => (* 1992 *) [Call "TYPE_CONVERSION_FLOAT_TO_DOUBLE" [(Var Double O0); (Var Float O1)]]
  | OP_TYPE_CONVERSION_DOUBLE_TO_BYTE => (* 1996 *) [Call "TYPE_CONVERSION_DOUBLE_TO_BYTE" [(Var Byte O0); (Var Double O1)]]
  | OP_TYPE_CONVERSION_DOUBLE_TO_SHORT => (* 2000 *) [Call "TYPE_CONVERSION_DOUBLE_TO_SHORT" [(Var Short O0); (Var Double O1)]]
  | OP_TYPE_CONVERSION_DOUBLE_TO_INT => (* 2004 *) [Call "TYPE_CONVERSION_DOUBLE_TO_INT" [(Var Int O0); (Var Double O1)]]
  | OP_TYPE_CONVERSION_DOUBLE_TO_LONG => (* 2008 *) [Call "TYPE_CONVERSION_DOUBLE_TO_LONG" [(Var Long O0); (Var Double O1)]]
  | OP_TYPE_CONVERSION_DOUBLE_TO_FLOAT => (* 2012 *) [Call "TYPE_CONVERSION_DOUBLE_TO_FLOAT" [(Var Float O0); (Var Double O1)]]
  | OP_TYPE_CONVERSION_BYTE_TO_STRING => (* 2016 *) [Call "TYPE_CONVERSION_BYTE_TO_STRING" [(Sym "env"); (Sym "stack"); (Addr Object O0); (Var Byte O1)]]
  | OP_TYPE_CONVERSION_SHORT_TO_STRING => (* 2020 *) [Call "TYPE_CONVERSION_SHORT_TO_STRING" [(Sym "env"); (Sym "stack"); (Addr Object O0); (Var Short O1)]]
  | OP_TYPE_CONVERSION_INT_TO_STRING => (* 2024 *) [Call "TYPE_CONVERSION_INT_TO_STRING" [(Sym "env"); (Sym "stack"); (Addr Object O0); (Var Int O1)]]
  | OP_TYPE_CONVERSION_LONG_TO_STRING => (* 2028 *) [Call "TYPE_CONVERSION_LONG_TO_STRING" [(Sym "env"); (Sym "stack"); (Addr Object O0); (Var Long O1)]]
  | OP_TYPE_CONVERSION_FLOAT_TO_STRING => (* 2032 *) [Call "TYPE_CONVERSION_FLOAT_TO_STRING" [(Sym "env"); (Sym "stack"); (Addr Object O0); (Var Float O1)]]
  | OP_TYPE_CONVERSION_DOUBLE_TO_STRING => (* 2036 *) [Call "TYPE_CONVERSION_DOUBLE_TO_STRING" [(Sym "env"); (Sym "stack"); (Addr Object O0); (Var Double O1)]]
  | OP_TYPE_CONVERSION_STRING_TO_BYTE => (* 2040 *) [Call "TYPE_CONVERSION_STRING_TO_BYTE" [(Sym "env"); (Sym "stack"); (Addr Byte O0); (Rd Object O1)]]
  | OP_TYPE_CONVERSION_STRING_TO_SHORT => (* 2045 *) [Call "TYPE_CONVERSION_STRING_TO_SHORT" [(Sym "env"); (Sym "stack"); (Addr Short O0); (Rd Object O1)]]
  | OP_TYPE_CONVERSION_STRING_TO_INT => (* 2050 *) [Call "TYPE_CONVERSION_STRING_TO_INT" [(Sym "env"); (Sym "stack"); (Addr Int O0); (Rd Object O1)]]
  | OP_TYPE_CONVERSION_STRING_TO_LONG => (* 2055 *) [Call "TYPE_CONVERSION_STRING_TO_LONG" [(Sym "env"); (Sym "stack"); (Addr Long O0); (Rd Object O1)]]
  | OP_TYPE_CONVERSION_STRING_TO_FLOAT => (* 2060 *) [Call "TYPE_CONVERSION_STRING_TO_FLOAT" [(Sym "env"); (Sym "stack"); (Addr Float O0); (Rd Object O1)]]
  | OP_TYPE_CONVERSION_STRING_TO_DOUBLE => (* 2065 *) [Call "TYPE_CONVERSION_STRING_TO_DOUBLE" [(Sym "env"); (Sym "stack"); (Addr Double O0); (Rd Object O1)]]
  | OP_TYPE_CONVERSION_STRING_TO_BYTE_ARRAY => (* 2070 *) [Call "TYPE_CONVERSION_STRING_TO_BYTE_ARRAY" [(Sym "env"); (Sym "stack"); (Addr Object O0); (Rd Object O1)]]
  | OP_TYPE_CONVERSION_BYTE_ARRAY_TO_STRING => (* 2075 *) [Call "TYPE_CONVERSION_BYTE_ARRAY_TO_STRING" [(Sym "env"); (Sym "stack"); (Addr Object O0); (Rd Object O1)]]
  | OP_TYPE_CONVERSION_BYTE_TO_BYTE_OBJECT => (* 2080 *) [Call "TYPE_CONVERSION_BYTE_TO_BYTE_OBJECT" [(Sym "env"); (Sym "stack"); (Addr Object O0); (Rd Byte O1); (Sym "object_data_offset")]]
  | OP_TYPE_CONVERSION_SHORT_TO_SHORT_OBJECT => (* 2085 *) [Call "TYPE_CONVERSION_SHORT_TO_SHORT_OBJECT" [(Sym "env"); (Sym "stack"); (Addr Object O0); (Rd Short O1); (Sym "object_data_offset")]]
  | OP_TYPE_CONVERSION_INT_TO_INT_OBJECT => (* 2090 *) [Call "TYPE_CONVERSION_INT_TO_INT_OBJECT" [(Sym "env"); (Sym "stack"); (Addr Object O0); (Rd Int O1); (Sym "object_data_offset")]]
  | OP_TYPE_CONVERSION_LONG_TO_LONG_OBJECT => (* 2095 *) [Call "TYPE_CONVERSION_LONG_TO_LONG_OBJECT" [(Sym "env"); (Sym "stack"); (Addr Object O0); (Rd Long O1); (Sym "object_data_offset")]]
  | OP_TYPE_CONVERSION_FLOAT_TO_FLOAT_OBJECT => (* 2100 *) [Call "TYPE_CONVERSION_FLOAT_TO_FLOAT_OBJECT" [(Sym "env"); (Sym "stack"); (Addr Object O0); (Rd Float O1); (Sym "object_data_offset")]]
  | OP_TYPE_CONVERSION_DOUBLE_TO_DOUBLE_OBJECT => (* 2105 *) [Call "TYPE_CONVERSION_DOUBLE_TO_DOUBLE_OBJECT" [(Sym "env"); (Sym "stack"); (Addr Object O0); (Rd Double O1); (Sym "object_data_offset")]]
  | OP_TYPE_CONVERSION_BYTE_OBJECT_TO_BYTE => (* 2110 *) [Call "TYPE_CONVERSION_BYTE_OBJECT_TO_BYTE" [(Sym "env"); (Sym "stack"); (Addr Byte O0); (Rd Object O1); (Sym "&error_id"); (Sym "object_data_offset")]]
  | OP_TYPE_CONVERSION_SHORT_OBJECT_TO_SHORT => (* 2115 *) [Call "TYPE_CONVERSION_SHORT_OBJECT_TO_SHORT" [(Sym "env"); (Sym "stack"); (Addr Short O0); (Rd Object O1); (Sym "&error_id"); (Sym "object_data_offset")]]
  | OP_TYPE_CONVERSION_INT_OBJECT_TO_INT => (* 2120 *) [Call "TYPE_CONVERSION_INT_OBJECT_TO_INT" [(Sym "env"); (Sym "stack"); (Addr Int O0); (Rd Object O1); (Sym "&error_id"); (Sym "object_data_offset")]]
  | OP_TYPE_CONVERSION_LONG_OBJECT_TO_LONG => (* 2125 *) [Call "TYPE_CONVERSION_LONG_OBJECT_TO_LONG" [(Sym "env"); (Sym "stack"); (Addr Long O0); (Rd Object O1); (Sym "&error_id"); (Sym "object_data_offset")]]
  | OP_TYPE_CONVERSION_FLOAT_OBJECT_TO_FLOAT => (* 2130 *) [Call "TYPE_CONVERSION_FLOAT_OBJECT_TO_FLOAT" [(Sym "env"); (Sym "stack"); (Addr Float O0); (Rd Object O1); (Sym "&error_id"); (Sym "object_data_offset")]]
  | OP_TYPE_CONVERSION_DOUBLE_OBJECT_TO_DOUBLE => (* 2135 *) [Call "TYPE_CONVERSION_DOUBLE_OBJECT_TO_DOUBLE" [(Sym "env"); (Sym "stack"); (Addr Double O0); (Rd Object O1); (Sym "&error_id"); (Sym "object_data_offset")]]
  | OP_GET_STACK_BYTE => (* 2140 *) [Call "GET_STACK_BYTE" [(Var Byte O0); (Sym "stack"); (ImmLow O3)]]
  | OP_GET_STACK_SHORT => (* 2144 *) [Call "GET_STACK_SHORT" [(Var Short O0); (Sym "stack"); (ImmLow O3)]]
  | OP_GET_STACK_INT => (* 2148 *) [Call "GET_STACK_INT" [(Var Int O0); (Sym "stack"); (ImmLow O3)]]
  | OP_GET_STACK_LONG => (* 2152 *) [Call "GET_STACK_LONG" [(Var Long O0); (Sym "stack"); (ImmLow O3)]]
  | OP_GET_STACK_FLOAT => (* 2156 *) [Call "GET_STACK_FLOAT" [(Var Float O0); (Sym "stack"); (ImmLow O3)]]
  | OP_GET_STACK_DOUBLE => (* 2160 *) [Call "GET_STACK_DOUBLE" [(Var Double O0); (Sym "stack"); (ImmLow O3)]]
  | OP_GET_STACK_OBJECT => (* 2164 *) [Call "GET_STACK_OBJECT" [(Sym "env"); (Addr Object O0); (Sym "stack"); (ImmLow O3)]]
  | OP_GET_STACK_REF => (* 2168 *) [Call "GET_STACK_REF" [(Var Ref O0); (Sym "stack"); (ImmLow O3)]]
  | OP_GET_STACK_MULNUM_BYTE => (* 2172 *) [Call "GET_STACK_MULNUM_BYTE" [(Sym "env"); (Addr Byte O0); (Sym "stack"); (ImmLow O3); (ImmHigh O3)]]
  | OP_GET_STACK_MULNUM_SHORT => (* 2177 *) [Call "GET_STACK_MULNUM_SHORT" [(Sym "env"); (Addr Short O0); (Sym "stack"); (ImmLow O3); (ImmHigh O3)]]
  | OP_GET_STACK_MULNUM_INT => (* 2182 *) [Call "GET_STACK_MULNUM_INT" [(Sym "env"); (Addr Int O0); (Sym "stack"); (ImmLow O3); (ImmHigh O3)]]
  | OP_GET_STACK_MULNUM_LONG => (* 2187 *) [Call "GET_STACK_MULNUM_LONG" [(Sym "env"); (Addr Long O0); (Sym "stack"); (ImmLow O3); (ImmHigh O3)]]
  | OP_GET_STACK_MULNUM_FLOAT => (* 2192 *) [Call "GET_STACK_MULNUM_FLOAT" [(Sym "env"); (Addr Float O0); (Sym "stack"); (ImmLow O3); (ImmHigh O3)]]
  | OP_GET_STACK_MULNUM_DOUBLE => (* 2197 *) [Call "GET_STACK_MULNUM_DOUBLE" [(Sym "env"); (Addr Double O0); (Sym "stack"); (ImmLow O3); (ImmHigh O3)]]
  | OP_END_ARGS => (* 2202 *) []
  | OP_SET_STACK_BYTE => (* 2206 *) [Call "SET_STACK_BYTE" [(Sym "stack"); (Imm O3); (Var Byte O0)]]
  | OP_SET_STACK_SHORT => (* 2210 *) [Call "SET_STACK_SHORT" [(Sym "stack"); (Imm O3); (Var Short O0)]]
  | OP_SET_STACK_INT => (* 2214 *) [Call "SET_STACK_INT" [(Sym "stack"); (Imm O3); (Var Int O0)]]
  | OP_SET_STACK_LONG => (* 2218 *) [Call "SET_STACK_LONG" [(Sym "stack"); (Imm O3); (Var Long O0)]]
  | OP_SET_STACK_FLOAT => (* 2222 *) [Call "SET_STACK_FLOAT" [(Sym "stack"); (Imm O3); (Var Float O0)]]
  | OP_SET_STACK_DOUBLE => (* 2226 *) [Call "SET_STACK_DOUBLE" [(Sym "stack"); (Imm O3); (Var Double O0)]]
  | OP_SET_STACK_OBJECT => (* 2230 *) [Call "SET_STACK_OBJECT" [(Sym "stack"); (Imm O3); (Var Object O0)]]
  | OP_SET_STACK_REF => (* 2234 *) [Call "SET_STACK_REF" [(Sym "stack"); (Imm O3); (Var Ref O0)]]
  | OP_SET_STACK_UNDEF => (* 2238 *) [Call "SET_STACK_UNDEF" [(Sym "stack"); (Imm O3)]]
  | OP_SET_STACK_MULNUM_BYTE => (* 2242 *) [Call "SET_STACK_MULNUM_BYTE" [(Sym "env"); (Sym "stack"); (Imm O3); (Imm O1); (Addr Byte O0)]]
  | OP_SET_STACK_MULNUM_SHORT => (* 2247 *) [Call "SET_STACK_MULNUM_SHORT" [(Sym "env"); (Sym "stack"); (Imm O3); (Imm O1); (Addr Short O0)]]
  | OP_SET_STACK_MULNUM_INT => (* 2252 *) [Call "SET_STACK_MULNUM_INT" [(Sym "env"); (Sym "stack"); (Imm O3); (Imm O1); (Addr Int O0)]]
  | OP_SET_STACK_MULNUM_LONG => (* 2257 *) [Call "SET_STACK_MULNUM_LONG" [(Sym "env"); (Sym "stack"); (Imm O3); (Imm O1); (Addr Long O0)]]
  | OP_SET_STACK_MULNUM_FLOAT => (* 2262 *) [Call "SET_STACK_MULNUM_FLOAT" [(Sym "env"); (Sym "stack"); (Imm O3); (Imm O1); (Addr Float O0)]]
  | OP_SET_STACK_MULNUM_DOUBLE => (* 2267 *) [Call "SET_STACK_MULNUM_DOUBLE" [(Sym "env"); (Sym "stack"); (Imm O3); (Imm O1); (Addr Double O0)]]
  | OP_RETURN_VOID => (* 2272 *) [Jump O1]
  | OP_RETURN_BYTE => (* 2276 *) [Call "RETURN_BYTE" [(Sym "stack"); (Var Byte O0)]; Jump O1]
  | OP_RETURN_SHORT => (* 2281 *) [Call "RETURN_SHORT" [(Sym "stack"); (Var Short O0)]; Jump O1]
  | OP_RETURN_INT => (* 2286 *) [Call "RETURN_INT" [(Sym "stack"); (Var Int O0)]; Jump O1]
  | OP_RETURN_LONG => (* 2291 *) [Call "RETURN_LONG" [(Sym "stack"); (Var Long O0)]; Jump O1]
  | OP_RETURN_FLOAT => (* 2296 *) [Call "RETURN_FLOAT" [(Sym "stack"); (Var Float O0)]; Jump O1]
  | OP_RETURN_DOUBLE => (* 2301 *) [Call "RETURN_DOUBLE" [(Sym "stack"); (Var Double O0)]; Jump O1]
  | OP_RETURN_OBJECT => (* 2306 *) [Call "RETURN_OBJECT" [(Sym "env"); (Sym "stack"); (Var Object O0)]; Jump O1]
  | OP_RETURN_UNDEF => (* 2311 *) [Call "RETURN_UNDEF" [(Sym "stack")]; Jump O1]
  | OP_RETURN_MULNUM_BYTE => (* 2316 *) [Call "RETURN_MULNUM_BYTE" [(Sym "env"); (Sym "stack"); (Addr Byte O0); (Imm O2)]; Jump O1]
  | OP_RETURN_MULNUM_SHORT => (* 2322 *) [Call "RETURN_MULNUM_SHORT" [(Sym "env"); (Sym "stack"); (Addr Short O0); (Imm O2)]; Jump O1]
  | OP_RETURN_MULNUM_INT => (* 2328 *) [Call "RETURN_MULNUM_INT" [(Sym "env"); (Sym "stack"); (Addr Int O0); (Imm O2)]; Jump O1]
  | OP_RETURN_MULNUM_LONG => (* 2334 *) [Call "RETURN_MULNUM_LONG" [(Sym "env"); (Sym "stack"); (Addr Long O0); (Imm O2)]; Jump O1]
  | OP_RETURN_MULNUM_FLOAT => (* 2340 *) [Call "RETURN_MULNUM_FLOAT" [(Sym "env"); (Sym "stack"); (Addr Float O0); (Imm O2)]; Jump O1]
  | OP_RETURN_MULNUM_DOUBLE => (* 2346 *) [Call "RETURN_MULNUM_DOUBLE" [(Sym "env"); (Sym "stack"); (Addr Double O0); (Imm O2)]; Jump O1]
  | OP_CALL_CLASS_METHOD => (* 2352 *) [Call "CALL_CLASS_METHOD" [(Sym "env"); (Sym "stack"); (Sym "error_id"); (Method O0 O1); (Imm O2)]]
  | OP_CALL_INSTANCE_METHOD_STATIC => (* 2365 *) [Call "CALL_INSTANCE_METHOD_STATIC" [(Sym "env"); (Sym "stack"); (Sym "error_id"); (Method O0 O1); (Imm O2)]]
  | OP_CALL_INSTANCE_METHOD => (* 2377 *) [Call "CALL_INSTANCE_METHOD" [(Sym "env"); (Sym "stack"); (MethodClassName O0 O1); (MethodName O0 O1); (Imm O2); (Sym "&error_id")]]
  end.

(** The generator: the number is the line of the case in spvm_precompile.c. *)
Definition pc_case (op : opid) : list pstmt :=
  match op with
  | OP_END_METHOD => (* 596 *) []
  | OP_GOTO => (* 599 *) [Jump O0]
  | OP_IF_EQ_ZERO => (* 605 *) [IfJump (EqZero O1) [] O0]
  | OP_IF_NE_ZERO => (* 613 *) [IfJump (NeZero O1) [] O0]
  | OP_GOTO_END_OF_EVAL_ON_EXCEPTION => (* 621 *) [IfJump ErrorSet [("eval_error_id = error_id", []); ("error_id = 0", []); ("set_exception(new_stack_trace(get_exception))", [(PSym "current_method"); (PInt O2)])] O0]
  | OP_GOTO_END_OF_METHOD_ON_EXCEPTION => (* 637 *) [IfJump ErrorSet [("set_exception(new_stack_trace(get_exception))", [(PSym "current_method"); (PInt O2)])] O0]
  | OP_LOOKUP_SWITCH => (* 650 *) [PSwitch]
  | OP_CASE_INFO => (* 679 *) []
  | OP_PUSH_MORTAL => (* 682 *) [Call "PUSH_MORTAL" [(PSym "mortal_stack"); (PSym "mortal_stack_top"); (PInt O0)]]
  | OP_LEAVE_SCOPE => (* 688 *) [IfMortal "LEAVE_SCOPE" [(PSym "env"); (PSym "stack"); (PSym "object_vars"); (PSym "mortal_stack"); (PSym "&mortal_stack_top"); (PInt O0)]]
  | OP_MOVE_BYTE_ZERO => (* 697 *) [Call "MOVE_BYTE_ZERO" [(PVar Byte O0)]]
  | OP_MOVE_SHORT_ZERO => (* 703 *) [Call "MOVE_SHORT_ZERO" [(PVar Short O0)]]
  | OP_MOVE_INT_ZERO => (* 709 *) [Call "MOVE_INT_ZERO" [(PVar Int O0)]]
  | OP_MOVE_LONG_ZERO => (* 715 *) [Call "MOVE_LONG_ZERO" [(PVar Long O0)]]
  | OP_MOVE_FLOAT_ZERO => (* 721 *) [Call "MOVE_FLOAT_ZERO" [(PVar Float O0)]]
  | OP_MOVE_DOUBLE_ZERO => (* 727 *) [Call "MOVE_DOUBLE_ZERO" [(PVar Double O0)]]
  | OP_MOVE_OBJECT_UNDEF => (* 733 *) [Call "MOVE_OBJECT_UNDEF" [(PSym "env"); (PSym "stack"); (PAddr Object O0)]]
  | OP_MOVE_MULNUM_BYTE_ZERO => (* 739 *) [Call "MOVE_MULNUM_BYTE_ZERO" [(PSym "env"); (PSym "stack"); (PAddr Byte O0); (PInt O2)]]
  | OP_MOVE_MULNUM_SHORT_ZERO => (* 747 *) [Call "MOVE_MULNUM_SHORT_ZERO" [(PSym "env"); (PSym "stack"); (PAddr Short O0); (PInt O2)]]
  | OP_MOVE_MULNUM_INT_ZERO => (* 755 *) [Call "MOVE_MULNUM_INT_ZERO" [(PSym "env"); (PSym "stack"); (PAddr Int O0); (PInt O2)]]
  | OP_MOVE_MULNUM_LONG_ZERO => (* 763 *) [Call "MOVE_MULNUM_LONG_ZERO" [(PSym "env"); (PSym "stack"); (PAddr Long O0); (PInt O2)]]
  | OP_MOVE_MULNUM_FLOAT_ZERO => (* 771 *) [Call "MOVE_MULNUM_FLOAT_ZERO" [(PSym "env"); (PSym "stack"); (PAddr Float O0); (PInt O2)]]
  | OP_MOVE_MULNUM_DOUBLE_ZERO => (* 779 *) [Call "MOVE_MULNUM_DOUBLE_ZERO" [(PSym "env"); (PSym "stack"); (PAddr Double O0); (PInt O2)]]
  | OP_MOVE_CONSTANT_BYTE => (* 787 *) [Call "MOVE_CONSTANT_BYTE" [(PVar Byte O0); (PByte O1)]]
  | OP_MOVE_CONSTANT_INT => (* 795 *) [Call "MOVE_CONSTANT_INT" [(PVar Int O0); (PInt O1)]]
  | OP_MOVE_CONSTANT_LONG => (* 803 *) [Call "MOVE_CONSTANT_LONG" [(PVar Long O0); (PLong O1)]]
  | OP_MOVE_CONSTANT_FLOAT => (* 813 *) [Call "MOVE_CONSTANT_FLOAT" [(PVar Float O0); (PFloatBits O1)]]
  | OP_MOVE_CONSTANT_DOUBLE => (* 824 *) [Call "MOVE_CONSTANT_DOUBLE" [(PVar Double O0); (PDoubleBits O1)]]
  | OP_MOVE_BYTE => (* 836 *) [Call "MOVE_BYTE" [(PVar Byte O0); (PVar Byte O1)]]
  | OP_MOVE_SHORT => (* 844 *) [Call "MOVE_SHORT" [(PVar Short O0); (PVar Short O1)]]
  | OP_MOVE_INT => (* 852 *) [Call "MOVE_INT" [(PVar Int O0); (PVar Int O1)]]
  | OP_MOVE_LONG => (* 860 *) [Call "MOVE_LONG" [(PVar Long O0); (PVar Long O1)]]
  | OP_MOVE_FLOAT => (* 868 *) [Call "MOVE_FLOAT" [(PVar Float O0); (PVar Float O1)]]
  | OP_MOVE_DOUBLE => (* 876 *) [Call "MOVE_DOUBLE" [(PVar Double O0); (PVar Double O1)]]
  | OP_MOVE_OBJECT => (* 884 *) [Call "MOVE_OBJECT" [(PSym "env"); (PSym "stack"); (PAddr Object O0); (PVar Object O1)]]
  | OP_MOVE_OBJECT_WITH_TYPE_CHECK => (* 892 *) [Call "MOVE_OBJECT_WITH_TYPE_CHECK" [(PSym "env"); (PSym "stack"); (PAddr Object O0); (PVar Object O1); (PBasicType O2); (PInt O3); (PSym "&error_id")]]
  | OP_MOVE_OBJECT_CHECK_READ_ONLY_STRING => (* 918 *) [Call "MOVE_OBJECT_CHECK_READ_ONLY_STRING" [(PSym "env"); (PSym "stack"); (PAddr Object O0); (PVar Object O1); (PSym "&error_id")]]
  | OP_MOVE_REF => (* 926 *) [Call "MOVE_REF" [(PVar Ref O0); (PVar Ref O1)]]
  | OP_ADD_INT => (* 934 *) [Call "ADD_INT" [(PVar Int O0); (PVar Int O1); (PVar Int O2)]]
  | OP_ADD_LONG => (* 944 *) [Call "ADD_LONG" [(PVar Long O0); (PVar Long O1); (PVar Long O2)]]
  | OP_ADD_FLOAT => (* 954 *) [Call "ADD_FLOAT" [(PVar Float O0); (PVar Float O1); (PVar Float O2)]]
  | OP_ADD_DOUBLE => (* 964 *) [Call "ADD_DOUBLE" [(PVar Double O0); (PVar Double O1); (PVar Double O2)]]
  | OP_SUBTRACT_INT => (* 974 *) [Call "SUBTRACT_INT" [(PVar Int O0); (PVar Int O1); (PVar Int O2)]]
  | OP_SUBTRACT_LONG => (* 984 *) [Call "SUBTRACT_LONG" [(PVar Long O0); (PVar Long O1); (PVar Long O2)]]
  | OP_SUBTRACT_FLOAT => (* 994 *) [Call "SUBTRACT_FLOAT" [(PVar Float O0); (PVar Float O1); (PVar Float O2)]]
  | OP_SUBTRACT_DOUBLE => (* 1004 *) [Call "SUBTRACT_DOUBLE" [(PVar Double O0); (PVar Double O1); (PVar Double O2)]]
  | OP_MULTIPLY_INT => (* 1014 *) [Call "MULTIPLY_INT" [(PVar Int O0); (PVar Int O1); (PVar Int O2)]]
  | OP_MULTIPLY_LONG => (* 1024 *) [Call "MULTIPLY_LONG" [(PVar Long O0); (PVar Long O1); (PVar Long O2)]]
  | OP_MULTIPLY_FLOAT => (* 1034 *) [Call "MULTIPLY_FLOAT" [(PVar Float O0); (PVar Float O1); (PVar Float O2)]]
  | OP_MULTIPLY_DOUBLE => (* 1044 *) [Call "MULTIPLY_DOUBLE" [(PVar Double O0); (PVar Double O1); (PVar Double O2)]]
  | OP_DIVIDE_INT => (* 1054 *) [Call "DIVIDE_INT" [(PSym "env"); (PSym "stack"); (PAddr Int O0); (PVar Int O1); (PVar Int O2); (PSym "&error_id")]]
  | OP_DIVIDE_LONG => (* 1064 *) [Call "DIVIDE_LONG" [(PSym "env"); (PSym "stack"); (PAddr Long O0); (PVar Long O1); (PVar Long O2); (PSym "&error_id")]]
  | OP_DIVIDE_FLOAT => (* 1074 *) [Call "DIVIDE_FLOAT" [(PVar Float O0); (PVar Float O1); (PVar Float O2)]]
  | OP_DIVIDE_DOUBLE => (* 1084 *) [Call "DIVIDE_DOUBLE" [(PVar Double O0); (PVar Double O1); (PVar Double O2)]]
  | OP_DIVIDE_UNSIGNED_INT => (* 1094 *) [Call "DIVIDE_UNSIGNED_INT" [(PSym "env"); (PSym "stack"); (PAddr Int O0); (PVar Int O1); (PVar Int O2); (PSym "&error_id")]]
  | OP_DIVIDE_UNSIGNED_LONG => (* 1104 *) [Call "DIVIDE_UNSIGNED_LONG" [(PSym "env"); (PSym "stack"); (PAddr Long O0); (PVar Long O1); (PVar Long O2); (PSym "&error_id")]]
  | OP_MODULO_INT => (* 1114 *) [Call "MODULO_INT" [(PSym "env"); (PSym "stack"); (PAddr Int O0); (PVar Int O1); (PVar Int O2); (PSym "&error_id")]]
  | OP_MODULO_LONG => (* 1124 *) [Call "MODULO_LONG" [(PSym "env"); (PSym "stack"); (PAddr Long O0); (PVar Long O1); (PVar Long O2); (PSym "&error_id")]]
  | OP_MODULO_UNSIGNED_INT => (* 1134 *) [Call "MODULO_UNSIGNED_INT" [(PSym "env"); (PSym "stack"); (PAddr Int O0); (PVar Int O1); (PVar Int O2); (PSym "&error_id")]]
  | OP_MODULO_UNSIGNED_LONG => (* 1144 *) [Call "MODULO_UNSIGNED_LONG" [(PSym "env"); (PSym "stack"); (PAddr Long O0); (PVar Long O1); (PVar Long O2); (PSym "&error_id")]]
  | OP_LEFT_SHIFT_INT => (* 1154 *) [Call "LEFT_SHIFT_INT" [(PVar Int O0); (PVar Int O1); (PVar Int O2)]]
  | OP_LEFT_SHIFT_LONG => (* 1164 *) [Call "LEFT_SHIFT_LONG" [(PVar Long O0); (PVar Long O1); (PVar Int O2)]]
  | OP_RIGHT_ARITHMETIC_SHIFT_INT => (* 1174 *) [Call "RIGHT_ARITHMETIC_SHIFT_INT" [(PVar Int O0); (PVar Int O1); (PVar Int O2)]]
  | OP_RIGHT_ARITHMETIC_SHIFT_LONG => (* 1184 *) [Call "RIGHT_ARITHMETIC_SHIFT_LONG" [(PVar Long O0); (PVar Long O1); (PVar Int O2)]]
  | OP_RIGHT_LOGICAL_SHIFT_INT => (* 1194 *) [Call "RIGHT_LOGICAL_SHIFT_INT" [(PVar Int O0); (PVar Int O1); (PVar Int O2)]]
  | OP_RIGHT_LOGICAL_SHIFT_LONG => (* 1204 *) [Call "RIGHT_LOGICAL_SHIFT_LONG" [(PVar Long O0); (PVar Long O1); (PVar Int O2)]]
  | OP_BIT_AND_INT => (* 1214 *) [Call "BIT_AND_INT" [(PVar Int O0); (PVar Int O1); (PVar Int O2)]]
  | OP_BIT_AND_LONG => (* 1224 *) [Call "BIT_AND_LONG" [(PVar Long O0); (PVar Long O1); (PVar Long O2)]]
  | OP_BIT_OR_INT => (* 1234 *) [Call "BIT_OR_INT" [(PVar Int O0); (PVar Int O1); (PVar Int O2)]]
  | OP_BIT_OR_LONG => (* 1244 *) [Call "BIT_OR_LONG" [(PVar Long O0); (PVar Long O1); (PVar Long O2)]]
  | OP_BIT_XOR_INT => (* 1254 *) [Call "BIT_XOR_INT" [(PVar Int O0); (PVar Int O1); (PVar Int O2)]]
  | OP_BIT_XOR_LONG => (* 1264 *) [Call "BIT_XOR_LONG" [(PVar Long O0); (PVar Long O1); (PVar Long O2)]]
  | OP_BIT_NOT_INT => (* 1274 *) [Call "BIT_NOT_INT" [(PVar Int O0); (PVar Int O1)]]
  | OP_BIT_NOT_LONG => (* 1282 *) [Call "BIT_NOT_LONG" [(PVar Long O0); (PVar Long O1)]]
  | OP_NEGATE_INT => (* 1290 *) [Call "NEGATE_INT" [(PVar Int O0); (PVar Int O1)]]
  | OP_NEGATE_LONG => (* 1298 *) [Call "NEGATE_LONG" [(PVar Long O0); (PVar Long O1)]]
  | OP_NEGATE_FLOAT => (* 1306 *) [Call "NEGATE_FLOAT" [(PVar Float O0); (PVar Float O1)]]
  | OP_NEGATE_DOUBLE => (* 1314 *) [Call "NEGATE_DOUBLE" [(PVar Double O0); (PVar Double O1)]]
  | OP_STRING_CONCAT => (* 1322 *) [Call "STRING_CONCAT" [(PSym "env"); (PSym "stack"); (PAddr Object O0); (PVar Object O1); (PVar Object O2); (PSym "&error_id")]]
  | OP_CONDITION_EVALUATION_INT => (* 1332 *) [Call "CONDITION_EVALUATION_INT" [(PVar Int O0); (PVar Int O1)]]
  | OP_CONDITION_EVALUATION_LONG => (* 1341 *) [Call "CONDITION_EVALUATION_LONG" [(PVar Int O0); (PVar Long O1)]]
  | OP_CONDITION_EVALUATION_FLOAT => (* 1350 *) [Call "CONDITION_EVALUATION_FLOAT" [(PVar Int O0); (PVar Float O1)]]
  | OP_CONDITION_EVALUATION_DOUBLE => (* 1359 *) [Call "CONDITION_EVALUATION_DOUBLE" [(PVar Int O0); (PVar Double O1)]]
  | OP_CONDITION_EVALUATION_OBJECT => (* 1368 *) [Call "CONDITION_EVALUATION_OBJECT" [(PVar Int O0); (PVar Object O1)]]
  | OP_CONDITION_EVALUATION_REF => (* 1377 *) [Call "CONDITION_EVALUATION_REF" [(PVar Int O0); (PVar Ref O1)]]
  | OP_CONDITION_EVALUATION_BOOL_OBJECT => (* 1386 *) [Call "CONDITION_EVALUATION_BOOL_OBJECT" [(PSym "env"); (PSym "stack"); (PVar Int O0); (PVar Object O1)]]
  | OP_NUMERIC_COMPARISON_EQ_INT => (* 1395 *) [Call "NUMERIC_COMPARISON_EQ_INT" [(PVar Int O0); (PVar Int O1); (PVar Int O2)]]
  | OP_NUMERIC_COMPARISON_EQ_LONG => (* 1405 *) [Call "NUMERIC_COMPARISON_EQ_LONG" [(PVar Int O0); (PVar Long O1); (PVar Long O2)]]
  | OP_NUMERIC_COMPARISON_EQ_FLOAT => (* 1415 *) [Call "NUMERIC_COMPARISON_EQ_FLOAT" [(PVar Int O0); (PVar Float O1); (PVar Float O2)]]
  | OP_NUMERIC_COMPARISON_EQ_DOUBLE => (* 1425 *) [Call "NUMERIC_COMPARISON_EQ_DOUBLE" [(PVar Int O0); (PVar Double O1); (PVar Double O2)]]
  | OP_NUMERIC_COMPARISON_EQ_OBJECT => (* 1435 *) [Call "NUMERIC_COMPARISON_EQ_OBJECT" [(PVar Int O0); (PVar Object O1); (PVar Object O2)]]
  | OP_NUMERIC_COMPARISON_EQ_REF => (* 1445 *) [Call "NUMERIC_COMPARISON_EQ_REF" [(PVar Int O0); (PVar Ref O1); (PVar Ref O2)]]
  | OP_NUMERIC_COMPARISON_NE_INT => (* 1455 *) [Call "NUMERIC_COMPARISON_NE_INT" [(PVar Int O0); (PVar Int O1); (PVar Int O2)]]
  | OP_NUMERIC_COMPARISON_NE_LONG => (* 1465 *) [Call "NUMERIC_COMPARISON_NE_LONG" [(PVar Int O0); (PVar Long O1); (PVar Long O2)]]
  | OP_NUMERIC_COMPARISON_NE_FLOAT => (* 1475 *) [Call "NUMERIC_COMPARISON_NE_FLOAT" [(PVar Int O0); (PVar Float O1); (PVar Float O2)]]
  | OP_NUMERIC_COMPARISON_NE_DOUBLE => (* 1485 *) [Call "NUMERIC_COMPARISON_NE_DOUBLE" [(PVar Int O0); (PVar Double O1); (PVar Double O2)]]
  | OP_NUMERIC_COMPARISON_NE_OBJECT => (* 1495 *) [Call "NUMERIC_COMPARISON_NE_OBJECT" [(PVar Int O0); (PVar Object O1); (PVar Object O2)]]
  | OP_NUMERIC_COMPARISON_NE_REF => (* 1505 *) [Call "NUMERIC_COMPARISON_NE_REF" [(PVar Int O0); (PVar Ref O1); (PVar Ref O2)]]
  | OP_NUMERIC_COMPARISON_GT_INT => (* 1515 *) [Call "NUMERIC_COMPARISON_GT_INT" [(PVar Int O0); (PVar Int O1); (PVar Int O2)]]
  | OP_NUMERIC_COMPARISON_GT_LONG => (* 1525 *) [Call "NUMERIC_COMPARISON_GT_LONG" [(PVar Int O0); (PVar Long O1); (PVar Long O2)]]
  | OP_NUMERIC_COMPARISON_GT_FLOAT => (* 1535 *) [Call "NUMERIC_COMPARISON_GT_FLOAT" [(PVar Int O0); (PVar Float O1); (PVar Float O2)]]
  | OP_NUMERIC_COMPARISON_GT_DOUBLE => (* 1545 *) [Call "NUMERIC_COMPARISON_GT_DOUBLE" [(PVar Int O0); (PVar Double O1); (PVar Double O2)]]
  | OP_NUMERIC_COMPARISON_GE_INT => (* 1555 *) [Call "NUMERIC_COMPARISON_GE_INT" [(PVar Int O0); (PVar Int O1); (PVar Int O2)]]
  | OP_NUMERIC_COMPARISON_GE_LONG => (* 1565 *) [Call "NUMERIC_COMPARISON_GE_LONG" [(PVar Int O0); (PVar Long O1); (PVar Long O2)]]
  | OP_NUMERIC_COMPARISON_GE_FLOAT => (* 1575 *) [Call "NUMERIC_COMPARISON_GE_FLOAT" [(PVar Int O0); (PVar Float O1); (PVar Float O2)]]
  | OP_NUMERIC_COMPARISON_GE_DOUBLE => (* 1585 *) [Call "NUMERIC_COMPARISON_GE_DOUBLE" [(PVar Int O0); (PVar Double O1); (PVar Double O2)]]
  | OP_NUMERIC_COMPARISON_LT_INT => (* 1595 *) [Call "NUMERIC_COMPARISON_LT_INT" [(PVar Int O0); (PVar Int O1); (PVar Int O2)]]
  | OP_NUMERIC_COMPARISON_LT_LONG => (* 1605 *) [Call "NUMERIC_COMPARISON_LT_LONG" [(PVar Int O0); (PVar Long O1); (PVar Long O2)]]
  | OP_NUMERIC_COMPARISON_LT_FLOAT => (* 1615 *) [Call "NUMERIC_COMPARISON_LT_FLOAT" [(PVar Int O0); (PVar Float O1); (PVar Float O2)]]
  | OP_NUMERIC_COMPARISON_LT_DOUBLE => (* 1625 *) [Call "NUMERIC_COMPARISON_LT_DOUBLE" [(PVar Int O0); (PVar Double O1); (PVar Double O2)]]
  | OP_NUMERIC_COMPARISON_LE_INT => (* 1635 *) [Call "NUMERIC_COMPARISON_LE_INT" [(PVar Int O0); (PVar Int O1); (PVar Int O2)]]
  | OP_NUMERIC_COMPARISON_LE_LONG => (* 1645 *) [Call "NUMERIC_COMPARISON_LE_LONG" [(PVar Int O0); (PVar Long O1); (PVar Long O2)]]
  | OP_NUMERIC_COMPARISON_LE_FLOAT => (* 1655 *) [Call "NUMERIC_COMPARISON_LE_FLOAT" [(PVar Int O0); (PVar Float O1); (PVar Float O2)]]
  | OP_NUMERIC_COMPARISON_LE_DOUBLE => (* 1665 *) [Call "NUMERIC_COMPARISON_LE_DOUBLE" [(PVar Int O0); (PVar Double O1); (PVar Double O2)]]
  | OP_NUMERIC_COMPARISON_CMP_INT => (* 1675 *) [Call "NUMERIC_COMPARISON_CMP_INT" [(PVar Int O0); (PVar Int O1); (PVar Int O2)]]
  | OP_NUMERIC_COMPARISON_CMP_LONG => (* 1685 *) [Call "NUMERIC_COMPARISON_CMP_LONG" [(PVar Int O0); (PVar Long O1); (PVar Long O2)]]
  | OP_NUMERIC_COMPARISON_CMP_FLOAT => (* 1695 *) [Call "NUMERIC_COMPARISON_CMP_FLOAT" [(PVar Int O0); (PVar Float O1); (PVar Float O2)]]
  | OP_NUMERIC_COMPARISON_CMP_DOUBLE => (* 1705 *) [Call "NUMERIC_COMPARISON_CMP_DOUBLE" [(PVar Int O0); (PVar Double O1); (PVar Double O2)]]
  | OP_IS_UNDEF => (* 1715 *) [Call "IS_UNDEF" [(PVar Int O0); (PVar Object O1)]]
  | OP_IS_NOT_UNDEF => (* 1723 *) [Call "IS_NOT_UNDEF" [(PVar Int O0); (PVar Object O1)]]
  | OP_STRING_COMPARISON_EQ => (* 1731 *) [Call "STRING_COMPARISON_EQ" [(PSym "env"); (PSym "stack"); (PAddr Int O0); (PVar Object O1); (PVar Object O2)]]
  | OP_STRING_COMPARISON_NE => (* 1741 *) [Call "STRING_COMPARISON_NE" [(PSym "env"); (PSym "stack"); (PAddr Int O0); (PVar Object O1); (PVar Object O2)]]
  | OP_STRING_COMPARISON_GT => (* 1751 *) [Call "STRING_COMPARISON_GT" [(PSym "env"); (PSym "stack"); (PAddr Int O0); (PVar Object O1); (PVar Object O2)]]
  | OP_STRING_COMPARISON_GE => (* 1761 *) [Call "STRING_COMPARISON_GE" [(PSym "env"); (PSym "stack"); (PAddr Int O0); (PVar Object O1); (PVar Object O2)]]
  | OP_STRING_COMPARISON_LT => (* 1771 *) [Call "STRING_COMPARISON_LT" [(PSym "env"); (PSym "stack"); (PAddr Int O0); (PVar Object O1); (PVar Object O2)]]
  | OP_STRING_COMPARISON_LE => (* 1781 *) [Call "STRING_COMPARISON_LE" [(PSym "env"); (PSym "stack"); (PAddr Int O0); (PVar Object O1); (PVar Object O2)]]
  | OP_STRING_COMPARISON_CMP => (* 1791 *) [Call "STRING_COMPARISON_CMP" [(PSym "env"); (PSym "stack"); (PAddr Int O0); (PVar Object O1); (PVar Object O2)]]
  | OP_NEW_OBJECT => (* 1801 *) [Call "NEW_OBJECT" [(PSym "env"); (PSym "stack"); (PAddr Object O0); (PBasicType O1); (PSym "&error_id")]]
  | OP_NEW_OBJECT_ARRAY => (* 1820 *) [Call "NEW_OBJECT_ARRAY" [(PSym "env"); (PSym "stack"); (PAddr Object O0); (PBasicType O1); (PRd Int O2); (PSym "&error_id")]]
  | OP_NEW_MULDIM_ARRAY => (* 1842 *) [Call "NEW_MULDIM_ARRAY" [(PSym "env"); (PSym "stack"); (PAddr Object O0); (PBasicType O1); (PInt O3); (PRd Int O2); (PSym "&error_id")]]
  | OP_NEW_MULNUM_ARRAY => (* 1870 *) [Call "NEW_MULNUM_ARRAY" [(PSym "env"); (PSym "stack"); (PAddr Object O0); (PBasicType O1); (PRd Int O2); (PSym "&error_id")]]
  | OP_NEW_BYTE_ARRAY => (* 1893 *) [Call "NEW_BYTE_ARRAY" [(PSym "env"); (PSym "stack"); (PAddr Object O0); (PRd Int O1); (PSym "&error_id")]]
  | OP_NEW_SHORT_ARRAY => (* 1902 *) [Call "NEW_SHORT_ARRAY" [(PSym "env"); (PSym "stack"); (PAddr Object O0); (PRd Int O1); (PSym "&error_id")]]
  | OP_NEW_INT_ARRAY => (* 1911 *) [Call "NEW_INT_ARRAY" [(PSym "env"); (PSym "stack"); (PAddr Object O0); (PRd Int O1); (PSym "&error_id")]]
  | OP_NEW_LONG_ARRAY => (* 1920 *) [Call "NEW_LONG_ARRAY" [(PSym "env"); (PSym "stack"); (PAddr Object O0); (PRd Int O1); (PSym "&error_id")]]
  | OP_NEW_FLOAT_ARRAY => (* 1929 *) [Call "NEW_FLOAT_ARRAY" [(PSym "env"); (PSym "stack"); (PAddr Object O0); (PRd Int O1); (PSym "&error_id")]]
  | OP_NEW_DOUBLE_ARRAY => (* 1938 *) [Call "NEW_DOUBLE_ARRAY" [(PSym "env"); (PSym "stack"); (PAddr Object O0); (PRd Int O1); (PSym "&error_id")]]
  | OP_NEW_STRING => (* 1947 *) [Call "NEW_STRING" [(PSym "env"); (PSym "stack"); (PAddr Object O0); (PHex (TConstValue O1)); (PIntConstLength O1); (PSym "&error_id")]]
  | OP_NEW_STRING_LEN => (* 1970 *) [Call "NEW_STRING_LEN" [(PSym "env"); (PSym "stack"); (PAddr Object O0); (PRd Int O1); (PSym "&error_id")]]
  | OP_IS_READ_ONLY => (* 1980 *) [Call "IS_READ_ONLY" [(PSym "env"); (PSym "stack"); (PVar Int O0); (PVar Object O1)]]
  | OP_MAKE_READ_ONLY => (* 1988 *) [Call "MAKE_READ_ONLY" [(PSym "env"); (PSym "stack"); (PVar Object O0)]]
  | OP_GET_ARRAY_ELEMENT_BYTE => (* 1994 *) [Call "GET_ARRAY_ELEMENT_BYTE" [(PSym "env"); (PSym "stack"); (PAddr Byte O0); (PRd Object O1); (PRd Int O2); (PSym "&error_id"); (PSym "object_data_offset"); (PSym "object_length_offset")]]
  | OP_GET_ARRAY_ELEMENT_SHORT => (* 2008 *) [Call "GET_ARRAY_ELEMENT_SHORT" [(PSym "env"); (PSym "stack"); (PAddr Short O0); (PRd Object O1); (PRd Int O2); (PSym "&error_id"); (PSym "object_data_offset"); (PSym "object_length_offset")]]
  | OP_GET_ARRAY_ELEMENT_INT => (* 2022 *) [Call "GET_ARRAY_ELEMENT_INT" [(PSym "env"); (PSym "stack"); (PAddr Int O0); (PRd Object O1); (PRd Int O2); (PSym "&error_id"); (PSym "object_data_offset"); (PSym "object_length_offset")]]
  | OP_GET_ARRAY_ELEMENT_LONG => (* 2036 *) [Call "GET_ARRAY_ELEMENT_LONG" [(PSym "env"); (PSym "stack"); (PAddr Long O0); (PRd Object O1); (PRd Int O2); (PSym "&error_id"); (PSym "object_data_offset"); (PSym "object_length_offset")]]
  | OP_GET_ARRAY_ELEMENT_FLOAT => (* 2050 *) [Call "GET_ARRAY_ELEMENT_FLOAT" [(PSym "env"); (PSym "stack"); (PAddr Float O0); (PRd Object O1); (PRd Int O2); (PSym "&error_id"); (PSym "object_data_offset"); (PSym "object_length_offset")]]
  | OP_GET_ARRAY_ELEMENT_DOUBLE => (* 2064 *) [Call "GET_ARRAY_ELEMENT_DOUBLE" [(PSym "env"); (PSym "stack"); (PAddr Double O0); (PRd Object O1); (PRd Int O2); (PSym "&error_id"); (PSym "object_data_offset"); (PSym "object_length_offset")]]
  | OP_GET_ARRAY_ELEMENT_OBJECT => (* 2078 *) [Call "GET_ARRAY_ELEMENT_OBJECT" [(PSym "env"); (PSym "stack"); (PAddr Object O0); (PRd Object O1); (PRd Int O2); (PSym "&error_id"); (PSym "object_data_offset"); (PSym "object_length_offset")]]
  | OP_SET_ARRAY_ELEMENT_BYTE => (* 2093 *) [Call "SET_ARRAY_ELEMENT_BYTE" [(PSym "env"); (PSym "stack"); (PRd Object O0); (PRd Int O1); (PVar Byte O2); (PSym "&error_id"); (PSym "object_data_offset"); (PSym "object_length_offset")]]
  | OP_SET_ARRAY_ELEMENT_SHORT => (* 2107 *) [Call "SET_ARRAY_ELEMENT_SHORT" [(PSym "env"); (PSym "stack"); (PRd Object O0); (PRd Int O1); (PVar Short O2); (PSym "&error_id"); (PSym "object_data_offset"); (PSym "object_length_offset")]]
  | OP_SET_ARRAY_ELEMENT_INT => (* 2121 *) [Call "SET_ARRAY_ELEMENT_INT" [(PSym "env"); (PSym "stack"); (PRd Object O0); (PRd Int O1); (PVar Int O2); (PSym "&error_id"); (PSym "object_data_offset"); (PSym "object_length_offset")]]
  | OP_SET_ARRAY_ELEMENT_LONG => (* 2135 *) [Call "SET_ARRAY_ELEMENT_LONG" [(PSym "env"); (PSym "stack"); (PRd Object O0); (PRd Int O1); (PVar Long O2); (PSym "&error_id"); (PSym "object_data_offset"); (PSym "object_length_offset")]]
  | OP_SET_ARRAY_ELEMENT_FLOAT => (* 2149 *) [Call "SET_ARRAY_ELEMENT_FLOAT" [(PSym "env"); (PSym "stack"); (PRd Object O0); (PRd Int O1); (PVar Float O2); (PSym "&error_id"); (PSym "object_data_offset"); (PSym "object_length_offset")]]
  | OP_SET_ARRAY_ELEMENT_DOUBLE => (* 2163 *) [Call "SET_ARRAY_ELEMENT_DOUBLE" [(PSym "env"); (PSym "stack"); (PRd Object O0); (PRd Int O1); (PVar Double O2); (PSym "&error_id"); (PSym "object_data_offset"); (PSym "object_length_offset")]]
  | OP_SET_ARRAY_ELEMENT_OBJECT => (* 2177 *) [Call "SET_ARRAY_ELEMENT_OBJECT" [(PSym "env"); (PSym "stack"); (PRd Object O0); (PRd Int O1); (PVar Object O2); (PSym "&error_id"); (PSym "object_data_offset"); (PSym "object_length_offset")]]
  | OP_SET_ARRAY_ELEMENT_OBJECT_CHECK_TYPE => (* 2191 *) [Call "SET_ARRAY_ELEMENT_OBJECT_CHECK_TYPE" [(PSym "env"); (PSym "stack"); (PRd Object O0); (PRd Int O1); (PVar Object O2); (PSym "&error_id"); (PSym "object_data_offset"); (PSym "object_length_offset")]]
  | OP_SET_ARRAY_ELEMENT_UNDEF => (* 2205 *) [Call "SET_ARRAY_ELEMENT_UNDEF" [(PSym "env"); (PSym "stack"); (PRd Object O0); (PRd Int O1); (PSym "&error_id"); (PSym "object_data_offset"); (PSym "object_length_offset")]]
  | OP_ARRAY_LENGTH => (* 2215 *) [Call "ARRAY_LENGTH" [(PSym "env"); (PSym "stack"); (PAddr Int O0); (PRd Object O1); (PSym "&error_id"); (PSym "object_length_offset")]]
  | OP_STRING_LENGTH => (* 2225 *) [Call "STRING_LENGTH" [(PSym "env"); (PSym "stack"); (PAddr Int O0); (PRd Object O1); (PSym "object_length_offset")]]
  | OP_GET_FIELD_BYTE => (* 2241 *) [Call "GET_FIELD_BYTE" [(PSym "env"); (PSym "stack"); (PAddr Byte O0); (PRd Object O1); (PFieldOffset O2 O3); (PSym "&error_id"); (PSym "object_data_offset")]]
  | OP_GET_FIELD_SHORT => (* 2241 *) [Call "GET_FIELD_SHORT" [(PSym "env"); (PSym "stack"); (PAddr Short O0); (PRd Object O1); (PFieldOffset O2 O3); (PSym "&error_id"); (PSym "object_data_offset")]]
  | OP_GET_FIELD_INT => (* 2241 *) [Call "GET_FIELD_INT" [(PSym "env"); (PSym "stack"); (PAddr Int O0); (PRd Object O1); (PFieldOffset O2 O3); (PSym "&error_id"); (PSym "object_data_offset")]]
  | OP_GET_FIELD_LONG => (* 2241 *) [Call "GET_FIELD_LONG" [(PSym "env"); (PSym "stack"); (PAddr Long O0); (PRd Object O1); (PFieldOffset O2 O3); (PSym "&error_id"); (PSym "object_data_offset")]]
  | OP_GET_FIELD_FLOAT => (* 2241 *) [Call "GET_FIELD_FLOAT" [(PSym "env"); (PSym "stack"); (PAddr Float O0); (PRd Object O1); (PFieldOffset O2 O3); (PSym "&error_id"); (PSym "object_data_offset")]]
  | OP_GET_FIELD_DOUBLE => (* 2241 *) [Call "GET_FIELD_DOUBLE" [(PSym "env"); (PSym "stack"); (PAddr Double O0); (PRd Object O1); (PFieldOffset O2 O3); (PSym "&error_id"); (PSym "object_data_offset")]]
  | OP_GET_FIELD_OBJECT => (* 2241 *) [Call "GET_FIELD_OBJECT" [(PSym "env"); (PSym "stack"); (PAddr Object O0); (PRd Object O1); (PFieldOffset O2 O3); (PSym "&error_id"); (PSym "object_data_offset")]]
  | OP_SET_FIELD_BYTE => (* 2323 *) [Call "SET_FIELD_BYTE" [(PSym "env"); (PSym "stack"); (PRd Object O0); (PFieldOffset O2 O3); (PVar Byte O1); (PSym "&error_id"); (PSym "object_data_offset")]]
  | OP_SET_FIELD_SHORT => (* 2323 *) [Call "SET_FIELD_SHORT" [(PSym "env"); (PSym "stack"); (PRd Object O0); (PFieldOffset O2 O3); (PVar Short O1); (PSym "&error_id"); (PSym "object_data_offset")]]
  | OP_SET_FIELD_INT => (* 2323 *) [Call "SET_FIELD_INT" [(PSym "env"); (PSym "stack"); (PRd Object O0); (PFieldOffset O2 O3); (PVar Int O1); (PSym "&error_id"); (PSym "object_data_offset")]]
  | OP_SET_FIELD_LONG => (* 2323 *) [Call "SET_FIELD_LONG" [(PSym "env"); (PSym "stack"); (PRd Object O0); (PFieldOffset O2 O3); (PVar Long O1); (PSym "&error_id"); (PSym "object_data_offset")]]
  | OP_SET_FIELD_FLOAT => (* 2323 *) [Call "SET_FIELD_FLOAT" [(PSym "env"); (PSym "stack"); (PRd Object O0); (PFieldOffset O2 O3); (PVar Float O1); (PSym "&error_id"); (PSym "object_data_offset")]]
  | OP_SET_FIELD_DOUBLE => (* 2323 *) [Call "SET_FIELD_DOUBLE" [(PSym "env"); (PSym "stack"); (PRd Object O0); (PFieldOffset O2 O3); (PVar Double O1); (PSym "&error_id"); (PSym "object_data_offset")]]
  | OP_SET_FIELD_OBJECT => (* 2323 *) [Call "SET_FIELD_OBJECT" [(PSym "env"); (PSym "stack"); (PRd Object O0); (PFieldOffset O2 O3); (PVar Object O1); (PSym "&error_id"); (PSym "object_data_offset")]]
  | OP_SET_FIELD_UNDEF => (* 2323 *) [Call "SET_FIELD_UNDEF" [(PSym "env"); (PSym "stack"); (PRd Object O0); (PFieldOffset O2 O3); (PSym "&error_id"); (PSym "object_data_offset")]]
  | OP_WEAKEN_FIELD => (* 2402 *) [Call "WEAKEN_FIELD" [(PSym "env"); (PSym "stack"); (PRd Object O0); (PFieldOffset O2 O3); (PSym "&error_id"); (PSym "object_data_offset")]]
  | OP_UNWEAKEN_FIELD => (* 2431 *) [Call "UNWEAKEN_FIELD" [(PSym "env"); (PSym "stack"); (PRd Object O0); (PFieldOffset O2 O3); (PSym "&error_id"); (PSym "object_data_offset")]]
  | OP_ISWEAK_FIELD => (* 2460 *) [Call "ISWEAK_FIELD" [(PSym "env"); (PSym "stack"); (PAddr Int O0); (PRd Object O1); (PFieldOffset O2 O3); (PSym "&error_id"); (PSym "object_data_offset")]]
  | OP_GET_CLASS_VAR_BYTE => (* 2497 *) [Call "GET_CLASS_VAR_BYTE" [(PSym "env"); (PSym "stack"); (PVar Byte O0); (PClassVar O1 O2)]]
  | OP_GET_CLASS_VAR_SHORT => (* 2497 *) [Call "GET_CLASS_VAR_SHORT" [(PSym "env"); (PSym "stack"); (PVar Short O0); (PClassVar O1 O2)]]
  | OP_GET_CLASS_VAR_INT => (* 2497 *) [Call "GET_CLASS_VAR_INT" [(PSym "env"); (PSym "stack"); (PVar Int O0); (PClassVar O1 O2)]]
  | OP_GET_CLASS_VAR_LONG => (* 2497 *) [Call "GET_CLASS_VAR_LONG" [(PSym "env"); (PSym "stack"); (PVar Long O0); (PClassVar O1 O2)]]
  | OP_GET_CLASS_VAR_FLOAT => (* 2497 *) [Call "GET_CLASS_VAR_FLOAT" [(PSym "env"); (PSym "stack"); (PVar Float O0); (PClassVar O1 O2)]]
  | OP_GET_CLASS_VAR_DOUBLE => (* 2497 *) [Call "GET_CLASS_VAR_DOUBLE" [(PSym "env"); (PSym "stack"); (PVar Double O0); (PClassVar O1 O2)]]
  | OP_GET_CLASS_VAR_OBJECT => (* 2497 *) [Call "GET_CLASS_VAR_OBJECT" [(PSym "env"); (PSym "stack"); (PAddr Object O0); (PClassVar O1 O2)]]
  | OP_SET_CLASS_VAR_BYTE => (* 2576 *) [Call "SET_CLASS_VAR_BYTE" [(PSym "env"); (PSym "stack"); (PClassVar O0 O1); (PVar Byte O2)]]
  | OP_SET_CLASS_VAR_SHORT => (* 2576 *) [Call "SET_CLASS_VAR_SHORT" [(PSym "env"); (PSym "stack"); (PClassVar O0 O1); (PVar Short O2)]]
  | OP_SET_CLASS_VAR_INT => (* 2576 *) [Call "SET_CLASS_VAR_INT" [(PSym "env"); (PSym "stack"); (PClassVar O0 O1); (PVar Int O2)]]
  | OP_SET_CLASS_VAR_LONG => (* 2576 *) [Call "SET_CLASS_VAR_LONG" [(PSym "env"); (PSym "stack"); (PClassVar O0 O1); (PVar Long O2)]]
  | OP_SET_CLASS_VAR_FLOAT => (* 2576 *) [Call "SET_CLASS_VAR_FLOAT" [(PSym "env"); (PSym "stack"); (PClassVar O0 O1); (PVar Float O2)]]
  | OP_SET_CLASS_VAR_DOUBLE => (* 2576 *) [Call "SET_CLASS_VAR_DOUBLE" [(PSym "env"); (PSym "stack"); (PClassVar O0 O1); (PVar Double O2)]]
  | OP_SET_CLASS_VAR_OBJECT => (* 2576 *) [Call "SET_CLASS_VAR_OBJECT" [(PSym "env"); (PSym "stack"); (PClassVar O0 O1); (PVar Object O2)]]
  | OP_SET_CLASS_VAR_UNDEF => (* 2576 *) [Call "SET_CLASS_VAR_UNDEF" [(PSym "env"); (PSym "stack"); (PClassVar O0 O1)]]
  | OP_GET_EXCEPTION_VAR => (* 2652 *) [Call "GET_EXCEPTION_VAR" [(PSym "env"); (PSym "stack"); (PAddr Object O0)]]
  | OP_SET_EXCEPTION_VAR => (* 2658 *) [Call "SET_EXCEPTION_VAR" [(PSym "env"); (PSym "stack"); (PVar Object O0)]]
  | OP_SET_EXCEPTION_VAR_UNDEF => (* 2664 *) [Call "SET_EXCEPTION_VAR_UNDEF" [(PSym "env"); (PSym "stack")]]
  | OP_ISA => (* 2668 *) [Call "ISA" [(PSym "env"); (PSym "stack"); (PAddr Int O0); (PRd Object O1); (PBasicType O2); (PInt O3)]]
  | OP_ISA_ERROR => (* 2693 *) [Call "ISA_ERROR" [(PSym "env"); (PSym "stack"); (PAddr Int O0); (PBasicTypeOf O1); (PBasicType O2); (PInt O3)]]
  | OP_IS_TYPE => (* 2720 *) [Call "IS_TYPE" [(PSym "env"); (PSym "stack"); (PAddr Int O0); (PRd Object O1); (PBasicType O2); (PInt O3)]]
  | OP_IS_ERROR => (* 2745 *) [Call "IS_ERROR" [(PSym "env"); (PSym "stack"); (PAddr Int O0); (PBasicTypeOf O1); (PBasicType O2); (PInt O3)]]
  | OP_CAN => (* 2772 *) [Call "CAN" [(PSym "env"); (PSym "stack"); (PVar Int O0); (PRd Object O1); (PStr (TConstValue O2))]]
  | OP_PRINT => (* 2791 *) [Call "PRINT" [(PSym "env"); (PSym "stack"); (PRd Object O0)]]
  | OP_SAY => (* 2799 *) [Call "SAY" [(PSym "env"); (PSym "stack"); (PRd Object O0)]]
  | OP_WARN => (* 2807 *) [Call "WARN" [(PSym "env"); (PSym "stack"); (PRd Object O0); (PStr TCurClassName); (PStr TCurMethodName); (PStr TCurFile); (PInt O1)]]
  | OP_CLEAR_EVAL_ERROR_ID => (* 2835 *) [Call "CLEAR_EVAL_ERROR_ID" [(PSym "eval_error_id")]]
  | OP_GET_EVAL_ERROR_ID => (* 2839 *) [Call "GET_EVAL_ERROR_ID" [(PVar Int O0); (PSym "eval_error_id")]]
  | OP_SET_ERROR_ID_BY_TYPE => (* 2846 *) [Call "SET_ERROR_ID" [(PSym "error_id"); (PBasicTypeId O0)]]
  | OP_SET_ERROR_ID => (* 2864 *) [Call "SET_ERROR_ID" [(PSym "error_id"); (PRd Int O0)]]
  | OP_ARGS_WIDTH => (* 2872 *) [Call "ARGS_WIDTH" [(PSym "env"); (PSym "stack"); (PVar Int O0)]]
  | OP_GET_BASIC_TYPE_ID => (* 2878 *) [Call "GET_BASIC_TYPE_ID" [(PSym "env"); (PSym "stack"); (PVar Int O0); (PBasicType O1)]]
  | OP_TYPE_NAME => (* 2897 *) [Call "TYPE_NAME" [(PSym "env"); (PSym "stack"); (PAddr Object O0); (PRd Object O1)]]
  | OP_DUMP => (* 2908 *) [Call "DUMP" [(PSym "env"); (PSym "stack"); (PAddr Object O0); (PRd Object O1)]]
  | OP_COPY => (* 2918 *) [Call "COPY" [(PSym "env"); (PSym "stack"); (PAddr Object O0); (PRd Object O1); (PSym "&error_id")]]
  | OP_REF_BYTE => (* 2928 *) [Call "REF_BYTE" [(PVar Ref O0); (PAddr Byte O1)]]
  | OP_REF_SHORT => (* 2936 *) [Call "REF_SHORT" [(PVar Ref O0); (PAddr Short O1)]]
  | OP_REF_INT => (* 2944 *) [Call "REF_INT" [(PVar Ref O0); (PAddr Int O1)]]
  | OP_REF_LONG => (* 2952 *) [Call "REF_LONG" [(PVar Ref O0); (PAddr Long O1)]]
  | OP_REF_FLOAT => (* 2960 *) [Call "REF_FLOAT" [(PVar Ref O0); (PAddr Float O1)]]
  | OP_REF_DOUBLE => (* 2968 *) [Call "REF_DOUBLE" [(PVar Ref O0); (PAddr Double O1)]]
  | OP_GET_DEREF_BYTE => (* 2976 *) [Call "GET_DEREF_BYTE" [(PVar Byte O0); (PAddr Ref O1)]]
  | OP_GET_DEREF_SHORT => (* 2984 *) [Call "GET_DEREF_SHORT" [(PVar Short O0); (PAddr Ref O1)]]
  | OP_GET_DEREF_INT => (* 2992 *) [Call "GET_DEREF_INT" [(PVar Int O0); (PAddr Ref O1)]]
  | OP_GET_DEREF_LONG => (* 3000 *) [Call "GET_DEREF_LONG" [(PVar Long O0); (PAddr Ref O1)]]
  | OP_GET_DEREF_FLOAT => (* 3008 *) [Call "GET_DEREF_FLOAT" [(PVar Float O0); (PAddr Ref O1)]]
  | OP_GET_DEREF_DOUBLE => (* 3016 *) [Call "GET_DEREF_DOUBLE" [(PVar Double O0); (PAddr Ref O1)]]
  | OP_SET_DEREF_BYTE => (* 3024 *) [Call "SET_DEREF_BYTE" [(PAddr Ref O0); (PVar Byte O1)]]
  | OP_SET_DEREF_SHORT => (* 3032 *) [Call "SET_DEREF_SHORT" [(PAddr Ref O0); (PVar Short O1)]]
  | OP_SET_DEREF_INT => (* 3040 *) [Call "SET_DEREF_INT" [(PAddr Ref O0); (PVar Int O1)]]
  | OP_SET_DEREF_LONG => (* 3048 *) [Call "SET_DEREF_LONG" [(PAddr Ref O0); (PVar Long O1)]]
  | OP_SET_DEREF_FLOAT => (* 3056 *) [Call "SET_DEREF_FLOAT" [(PAddr Ref O0); (PVar Float O1)]]
  | OP_SET_DEREF_DOUBLE => (* 3064 *) [Call "SET_DEREF_DOUBLE" [(PAddr Ref O0); (PVar Double O1)]]
  | OP_GET_MULNUM_FIELD_BYTE => (* 3072 *) [Call "GET_MULNUM_FIELD_BYTE" [(PVar Byte O0); (PAddr Byte O1); (PInt O2)]]
  | OP_GET_MULNUM_FIELD_SHORT => (* 3084 *) [Call "GET_MULNUM_FIELD_SHORT" [(PVar Short O0); (PAddr Short O1); (PInt O2)]]
  | OP_GET_MULNUM_FIELD_INT => (* 3096 *) [Call "GET_MULNUM_FIELD_INT" [(PVar Int O0); (PAddr Int O1); (PInt O2)]]
  | OP_GET_MULNUM_FIELD_LONG => (* 3108 *) [Call "GET_MULNUM_FIELD_LONG" [(PVar Long O0); (PAddr Long O1); (PInt O2)]]
  | OP_GET_MULNUM_FIELD_FLOAT => (* 3120 *) [Call "GET_MULNUM_FIELD_FLOAT" [(PVar Float O0); (PAddr Float O1); (PInt O2)]]
  | OP_GET_MULNUM_FIELD_DOUBLE => (* 3132 *) [Call "GET_MULNUM_FIELD_DOUBLE" [(PVar Double O0); (PAddr Double O1); (PInt O2)]]
  | OP_SET_MULNUM_FIELD_BYTE => (* 3144 *) [Call "SET_MULNUM_FIELD_BYTE" [(PAddr Byte O0); (PInt O2); (PVar Byte O1)]]
  | OP_SET_MULNUM_FIELD_SHORT => (* 3156 *) [Call "SET_MULNUM_FIELD_SHORT" [(PAddr Short O0); (PInt O2); (PVar Short O1)]]
  | OP_SET_MULNUM_FIELD_INT => (* 3168 *) [Call "SET_MULNUM_FIELD_INT" [(PAddr Int O0); (PInt O2); (PVar Int O1)]]
  | OP_SET_MULNUM_FIELD_LONG => (* 3180 *) [Call "SET_MULNUM_FIELD_LONG" [(PAddr Long O0); (PInt O2); (PVar Long O1)]]
  | OP_SET_MULNUM_FIELD_FLOAT => (* 3192 *) [Call "SET_MULNUM_FIELD_FLOAT" [(PAddr Float O0); (PInt O2); (PVar Float O1)]]
  | OP_SET_MULNUM_FIELD_DOUBLE => (* 3204 *) [Call "SET_MULNUM_FIELD_DOUBLE" [(PAddr Double O0); (PInt O2); (PVar Double O1)]]
  | OP_MOVE_MULNUM_BYTE => (* 3216 *) [Call "MOVE_MULNUM_BYTE" [(PSym "env"); (PSym "stack"); (PAddr Byte O0); (PAddr Byte O1); (PInt O2)]]
  | OP_MOVE_MULNUM_SHORT => (* 3228 *) [Call "MOVE_MULNUM_SHORT" [(PSym "env"); (PSym "stack"); (PAddr Short O0); (PAddr Short O1); (PInt O2)]]
  | OP_MOVE_MULNUM_INT => (* 3240 *) [Call "MOVE_MULNUM_INT" [(PSym "env"); (PSym "stack"); (PAddr Int O0); (PAddr Int O1); (PInt O2)]]
  | OP_MOVE_MULNUM_LONG => (* 3252 *) [Call "MOVE_MULNUM_LONG" [(PSym "env"); (PSym "stack"); (PAddr Long O0); (PAddr Long O1); (PInt O2)]]
  | OP_MOVE_MULNUM_FLOAT => (* 3264 *) [Call "MOVE_MULNUM_FLOAT" [(PSym "env"); (PSym "stack"); (PAddr Float O0); (PAddr Float O1); (PInt O2)]]
  | OP_MOVE_MULNUM_DOUBLE => (* 3276 *) [Call "MOVE_MULNUM_DOUBLE" [(PSym "env"); (PSym "stack"); (PAddr Double O0); (PAddr Double O1); (PInt O2)]]
  | OP_GET_MULNUM_ARRAY_BYTE => (* 3288 *) [Call "GET_MULNUM_ARRAY_BYTE" [(PSym "env"); (PSym "stack"); (PAddr Byte O0); (PRd Object O1); (PRd Int O2); (PInt O3); (PSym "&error_id"); (PSym "object_data_offset"); (PSym "object_length_offset")]]
  | OP_GET_MULNUM_ARRAY_SHORT => (* 3307 *) [Call "GET_MULNUM_ARRAY_SHORT" [(PSym "env"); (PSym "stack"); (PAddr Short O0); (PRd Object O1); (PRd Int O2); (PInt O3); (PSym "&error_id"); (PSym "object_data_offset"); (PSym "object_length_offset")]]
  | OP_GET_MULNUM_ARRAY_INT => (* 3325 *) [Call "GET_MULNUM_ARRAY_INT" [(PSym "env"); (PSym "stack"); (PAddr Int O0); (PRd Object O1); (PRd Int O2); (PInt O3); (PSym "&error_id"); (PSym "object_data_offset"); (PSym "object_length_offset")]]
  | OP_GET_MULNUM_ARRAY_LONG => (* 3343 *) [Call "GET_MULNUM_ARRAY_LONG" [(PSym "env"); (PSym "stack"); (PAddr Long O0); (PRd Object O1); (PRd Int O2); (PInt O3); (PSym "&error_id"); (PSym "object_data_offset"); (PSym "object_length_offset")]]
  | OP_GET_MULNUM_ARRAY_FLOAT => (* 3361 *) [Call "GET_MULNUM_ARRAY_FLOAT" [(PSym "env"); (PSym "stack"); (PAddr Float O0); (PRd Object O1); (PRd Int O2); (PInt O3); (PSym "&error_id"); (PSym "object_data_offset"); (PSym "object_length_offset")]]
  | OP_GET_MULNUM_ARRAY_DOUBLE => (* 3379 *) [Call "GET_MULNUM_ARRAY_DOUBLE" [(PSym "env"); (PSym "stack"); (PAddr Double O0); (PRd Object O1); (PRd Int O2); (PInt O3); (PSym "&error_id"); (PSym "object_data_offset"); (PSym "object_length_offset")]]
  | OP_SET_MULNUM_ARRAY_BYTE => (* 3397 *) [Call "SET_MULNUM_ARRAY_BYTE" [(PSym "env"); (PSym "stack"); (PRd Object O0); (PRd Int O1); (PInt O3); (PAddr Byte O2); (PSym "&error_id"); (PSym "object_data_offset"); (PSym "object_length_offset")]]
  | OP_SET_MULNUM_ARRAY_SHORT => (* 3415 *) [Call "SET_MULNUM_ARRAY_SHORT" [(PSym "env"); (PSym "stack"); (PRd Object O0); (PRd Int O1); (PInt O3); (PAddr Short O2); (PSym "&error_id"); (PSym "object_data_offset"); (PSym "object_length_offset")]]
  | OP_SET_MULNUM_ARRAY_INT => (* 3433 *) [Call "SET_MULNUM_ARRAY_INT" [(PSym "env"); (PSym "stack"); (PRd Object O0); (PRd Int O1); (PInt O3); (PAddr Int O2); (PSym "&error_id"); (PSym "object_data_offset"); (PSym "object_length_offset")]]
  | OP_SET_MULNUM_ARRAY_LONG => (* 3451 *) [Call "SET_MULNUM_ARRAY_LONG" [(PSym "env"); (PSym "stack"); (PRd Object O0); (PRd Int O1); (PInt O3); (PAddr Long O2); (PSym "&error_id"); (PSym "object_data_offset"); (PSym "object_length_offset")]]
  | OP_SET_MULNUM_ARRAY_FLOAT => (* 3469 *) [Call "SET_MULNUM_ARRAY_FLOAT" [(PSym "env"); (PSym "stack"); (PRd Object O0); (PRd Int O1); (PInt O3); (PAddr Float O2); (PSym "&error_id"); (PSym "object_data_offset"); (PSym "object_length_offset")]]
  | OP_SET_MULNUM_ARRAY_DOUBLE => (* 3487 *) [Call "SET_MULNUM_ARRAY_DOUBLE" [(PSym "env"); (PSym "stack"); (PRd Object O0); (PRd Int O1); (PInt O3); (PAddr Double O2); (PSym "&error_id"); (PSym "object_data_offset"); (PSym "object_length_offset")]]
  | OP_GET_MULNUM_ARRAY_FIELD_BYTE => (* 3505 *) [Call "GET_MULNUM_ARRAY_FIELD_BYTE" [(PSym "env"); (PSym "stack"); (PAddr Byte O0); (PRd Object O1); (PRd Int O2); (PIntHigh O3); (PIntLow1 O3); (PSym "&error_id"); (PSym "object_data_offset"); (PSym "object_length_offset")]]
  | OP_GET_MULNUM_ARRAY_FIELD_SHORT => (* 3527 *) [Call "GET_MULNUM_ARRAY_FIELD_SHORT" [(PSym "env"); (PSym "stack"); (PAddr Short O0); (PRd Object O1); (PRd Int O2); (PIntHigh O3); (PIntLow1 O3); (PSym "&error_id"); (PSym "object_data_offset"); (PSym "object_length_offset")]]
  | OP_GET_MULNUM_ARRAY_FIELD_INT => (* 3549 *) [Call "GET_MULNUM_ARRAY_FIELD_INT" [(PSym "env"); (PSym "stack"); (PAddr Int O0); (PRd Object O1); (PRd Int O2); (PIntHigh O3); (PIntLow1 O3); (PSym "&error_id"); (PSym "object_data_offset"); (PSym "object_length_offset")]]
  | OP_GET_MULNUM_ARRAY_FIELD_LONG => (* 3571 *) [Call "GET_MULNUM_ARRAY_FIELD_LONG" [(PSym "env"); (PSym "stack"); (PAddr Long O0); (PRd Object O1); (PRd Int O2); (PIntHigh O3); (PIntLow1 O3); (PSym "&error_id"); (PSym "object_data_offset"); (PSym "object_length_offset")]]
  | OP_GET_MULNUM_ARRAY_FIELD_FLOAT => (* 3593 *) [Call "GET_MULNUM_ARRAY_FIELD_FLOAT" [(PSym "env"); (PSym "stack"); (PAddr Float O0); (PRd Object O1); (PRd Int O2); (PIntHigh O3); (PIntLow1 O3); (PSym "&error_id"); (PSym "object_data_offset"); (PSym "object_length_offset")]]
  | OP_GET_MULNUM_ARRAY_FIELD_DOUBLE => (* 3615 *) [Call "GET_MULNUM_ARRAY_FIELD_DOUBLE" [(PSym "env"); (PSym "stack"); (PAddr Double O0); (PRd Object O1); (PRd Int O2); (PIntHigh O3); (PIntLow1 O3); (PSym "&error_id"); (PSym "object_data_offset"); (PSym "object_length_offset")]]
  | OP_SET_MULNUM_ARRAY_FIELD_BYTE => (* 3637 *) [Call "SET_MULNUM_ARRAY_FIELD_BYTE" [(PSym "env"); (PSym "stack"); (PRd Object O0); (PRd Int O1); (PIntHigh O3); (PIntLow1 O3); (PVar Byte O2); (PSym "&error_id"); (PSym "object_data_offset"); (PSym "object_length_offset")]]
  | OP_SET_MULNUM_ARRAY_FIELD_SHORT => (* 3659 *) [Call "SET_MULNUM_ARRAY_FIELD_SHORT" [(PSym "env"); (PSym "stack"); (PRd Object O0); (PRd Int O1); (PIntHigh O3); (PIntLow1 O3); (PVar Short O2); (PSym "&error_id"); (PSym "object_data_offset"); (PSym "object_length_offset")]]
  | OP_SET_MULNUM_ARRAY_FIELD_INT => (* 3681 *) [Call "SET_MULNUM_ARRAY_FIELD_INT" [(PSym "env"); (PSym "stack"); (PRd Object O0); (PRd Int O1); (PIntHigh O3); (PIntLow1 O3); (PVar Int O2); (PSym "&error_id"); (PSym "object_data_offset"); (PSym "object_length_offset")]]
  | OP_SET_MULNUM_ARRAY_FIELD_LONG => (* 3703 *) [Call "SET_MULNUM_ARRAY_FIELD_LONG" [(PSym "env"); (PSym "stack"); (PRd Object O0); (PRd Int O1); (PIntHigh O3); (PIntLow1 O3); (PVar Long O2); (PSym "&error_id"); (PSym "object_data_offset"); (PSym "object_length_offset")]]
  | OP_SET_MULNUM_ARRAY_FIELD_FLOAT => (* 3725 *) [Call "SET_MULNUM_ARRAY_FIELD_FLOAT" [(PSym "env"); (PSym "stack"); (PRd Object O0); (PRd Int O1); (PIntHigh O3); (PIntLow1 O3); (PVar Float O2); (PSym "&error_id"); (PSym "object_data_offset"); (PSym "object_length_offset")]]
  | OP_SET_MULNUM_ARRAY_FIELD_DOUBLE => (* 3747 *) [Call "SET_MULNUM_ARRAY_FIELD_DOUBLE" [(PSym "env"); (PSym "stack"); (PRd Object O0); (PRd Int O1); (PIntHigh O3); (PIntLow1 O3); (PVar Double O2); (PSym "&error_id"); (PSym "object_data_offset"); (PSym "object_length_offset")]]
  | OP_DEREF_MULNUM_BYTE => (* 3769 *) [Call "DEREF_MULNUM_BYTE" [(PSym "env"); (PSym "stack"); (PAddr Byte O0); (PVar Ref O1); (PInt O3)]]
  | OP_DEREF_MULNUM_SHORT => (* 3781 *) [Call "DEREF_MULNUM_SHORT" [(PSym "env"); (PSym "stack"); (PAddr Short O0); (PVar Ref O1); (PInt O3)]]
  | OP_DEREF_MULNUM_INT => (* 3793 *) [Call "DEREF_MULNUM_INT" [(PSym "env"); (PSym "stack"); (PAddr Int O0); (PVar Ref O1); (PInt O3)]]
  | OP_DEREF_MULNUM_LONG => (* 3805 *) [Call "DEREF_MULNUM_LONG" [(PSym "env"); (PSym "stack"); (PAddr Long O0); (PVar Ref O1); (PInt O3)]]
  | OP_DEREF_MULNUM_FLOAT => (* 3817 *) [Call "DEREF_MULNUM_FLOAT" [(PSym "env"); (PSym "stack"); (PAddr Float O0); (PVar Ref O1); (PInt O3)]]
  | OP_DEREF_MULNUM_DOUBLE => (* 3829 *) [Call "DEREF_MULNUM_DOUBLE" [(PSym "env"); (PSym "stack"); (PAddr Double O0); (PVar Ref O1); (PInt O3)]]
  | OP_GET_MULNUM_FIELD_DEREF_BYTE => (* 3841 *) [Call "GET_MULNUM_FIELD_DEREF_BYTE" [(PVar Byte O0); (PVar Ref O1); (PInt O2)]]
  | OP_GET_MULNUM_FIELD_DEREF_SHORT => (* 3853 *) [Call "GET_MULNUM_FIELD_DEREF_SHORT" [(PVar Short O0); (PVar Ref O1); (PInt O2)]]
  | OP_GET_MULNUM_FIELD_DEREF_INT => (* 3865 *) [Call "GET_MULNUM_FIELD_DEREF_INT" [(PVar Int O0); (PVar Ref O1); (PInt O2)]]
  | OP_GET_MULNUM_FIELD_DEREF_LONG => (* 3877 *) [Call "GET_MULNUM_FIELD_DEREF_LONG" [(PVar Long O0); (PVar Ref O1); (PInt O2)]]
  | OP_GET_MULNUM_FIELD_DEREF_FLOAT => (* 3889 *) [Call "GET_MULNUM_FIELD_DEREF_FLOAT" [(PVar Float O0); (PVar Ref O1); (PInt O2)]]
  | OP_GET_MULNUM_FIELD_DEREF_DOUBLE => (* 3901 *) [Call "GET_MULNUM_FIELD_DEREF_DOUBLE" [(PVar Double O0); (PVar Ref O1); (PInt O2)]]
  | OP_SET_MULNUM_FIELD_DEREF_BYTE => (* 3913 *) [Call "SET_MULNUM_FIELD_DEREF_BYTE" [(PVar Ref O0); (PInt O2); (PVar Byte O1)]]
  | OP_SET_MULNUM_FIELD_DEREF_SHORT => (* 3925 *) [Call "SET_MULNUM_FIELD_DEREF_SHORT" [(PVar Ref O0); (PInt O2); (PVar Short O1)]]
  | OP_SET_MULNUM_FIELD_DEREF_INT => (* 3937 *) [Call "SET_MULNUM_FIELD_DEREF_INT" [(PVar Ref O0); (PInt O2); (PVar Int O1)]]
  | OP_SET_MULNUM_FIELD_DEREF_LONG => (* 3949 *) [Call "SET_MULNUM_FIELD_DEREF_LONG" [(PVar Ref O0); (PInt O2); (PVar Long O1)]]
  | OP_SET_MULNUM_FIELD_DEREF_FLOAT => (* 3961 *) [Call "SET_MULNUM_FIELD_DEREF_FLOAT" [(PVar Ref O0); (PInt O2); (PVar Float O1)]]
  | OP_SET_MULNUM_FIELD_DEREF_DOUBLE => (* 3973 *) [Call "SET_MULNUM_FIELD_DEREF_DOUBLE" [(PVar Ref O0); (PInt O2); (PVar Double O1)]]
  | OP_TYPE_CONVERSION_BYTE_TO_SHORT => (* 3985 *) [Call "TYPE_CONVERSION_BYTE_TO_SHORT" [(PVar Short O0); (PVar Byte O1)]]
  | OP_TYPE_CONVERSION_BYTE_TO_INT => (* 3993 *) [Call "TYPE_CONVERSION_BYTE_TO_INT" [(PVar Int O0); (PVar Byte O1)]]
  | OP_TYPE_CONVERSION_BYTE_TO_LONG => (* 4001 *) [Call "TYPE_CONVERSION_BYTE_TO_LONG" [(PVar Long O0); (PVar Byte O1)]]
  | OP_TYPE_CONVERSION_BYTE_TO_FLOAT => (* 4009 *) [Call "TYPE_CONVERSION_BYTE_TO_FLOAT" [(PVar Float O0); (PVar Byte O1)]]
  | OP_TYPE_CONVERSION_BYTE_TO_DOUBLE => (* 4017 *) [Call "TYPE_CONVERSION_BYTE_TO_DOUBLE" [(PVar Double O0); (PVar Byte O1)]]
  | OP_TYPE_CONVERSION_SHORT_TO_BYTE => (* 4025 *) [Call "TYPE_CONVERSION_SHORT_TO_BYTE" [(PVar Byte O0); (PVar Short O1)]]
  | OP_TYPE_CONVERSION_SHORT_TO_INT => (* 4033 *) [Call "TYPE_CONVERSION_SHORT_TO_INT" [(PVar Int O0); (PVar Short O1)]]
  | OP_TYPE_CONVERSION_SHORT_TO_LONG => (* 4041 *) [Call "TYPE_CONVERSION_SHORT_TO_LONG" [(PVar Long O0); (PVar Short O1)]]
  | OP_TYPE_CONVERSION_SHORT_TO_FLOAT => (* 4049 *) [Call "TYPE_CONVERSION_SHORT_TO_FLOAT" [(PVar Float O0); (PVar Short O1)]]
  | OP_TYPE_CONVERSION_SHORT_TO_DOUBLE => (* 4057 *) [Call "TYPE_CONVERSION_SHORT_TO_DOUBLE" [(PVar Double O0); (PVar Short O1)]]
  | OP_TYPE_CONVERSION_INT_TO_BYTE => (* 4065 *) [Call "TYPE_CONVERSION_INT_TO_BYTE" [(PVar Byte O0); (PVar Int O1)]]
  | OP_TYPE_CONVERSION_INT_TO_SHORT => (* 4073 *) [Call "TYPE_CONVERSION_INT_TO_SHORT" [(PVar Short O0); (PVar Int O1)]]
  | OP_TYPE_CONVERSION_INT_TO_LONG => (* 4081 *) [Call "TYPE_CONVERSION_INT_TO_LONG" [(PVar Long O0); (PVar Int O1)]]
  | OP_TYPE_CONVERSION_INT_TO_FLOAT => (* 4089 *) [Call "TYPE_CONVERSION_INT_TO_FLOAT" [(PVar Float O0); (PVar Int O1)]]
  | OP_TYPE_CONVERSION_INT_TO_DOUBLE => (* 4097 *) [Call "TYPE_CONVERSION_INT_TO_DOUBLE" [(PVar Double O0); (PVar Int O1)]]
  | OP_TYPE_CONVERSION_LONG_TO_BYTE => (* 4105 *) [Call "TYPE_CONVERSION_LONG_TO_BYTE" [(PVar Byte O0); (PVar Long O1)]]
  | OP_TYPE_CONVERSION_LONG_TO_SHORT => (* 4113 *) [Call "TYPE_CONVERSION_LONG_TO_SHORT" [(PVar Short O0); (PVar Long O1)]]
  | OP_TYPE_CONVERSION_LONG_TO_INT => (* 4121 *) [Call "TYPE_CONVERSION_LONG_TO_INT" [(PVar Int O0); (PVar Long O1)]]
  | OP_TYPE_CONVERSION_LONG_TO_FLOAT => (* 4129 *) [Call "TYPE_CONVERSION_LONG_TO_FLOAT" [(PVar Float O0); (PVar Long O1)]]
  | OP_TYPE_CONVERSION_LONG_TO_DOUBLE => (* 4137 *) [Call "TYPE_CONVERSION_LONG_TO_DOUBLE" [(PVar Double O0); (PVar Long O1)]]
  | OP_TYPE_CONVERSION_FLOAT_TO_BYTE => (* 4145 *) [Call "TYPE_CONVERSION_FLOAT_TO_BYTE" [(PVar Byte O0); (PVar Float O1)]]
  | OP_TYPE_CONVERSION_FLOAT_TO_SHORT => (* 4153 *) [Call "TYPE_CONVERSION_FLOAT_TO_SHORT" [(PVar Short O0); (PVar Float O1)]]
  | OP_TYPE_CONVERSION_FLOAT_TO_INT => (* 4161 *) [Call "TYPE_CONVERSION_FLOAT_TO_INT" [(PVar Int O0); (PVar Float O1)]]
  | OP_TYPE_CONVERSION_FLOAT_TO_LONG => (* 4169 *) [Call "TYPE_CONVERSION_FLOAT_TO_LONG" [(PVar Long O0); (PVar Float O1)]]
  | OP_TYPE_CONVERSION_FLOAT_TO_DOUBLE => (* 4177 *) [Call "TYPE_CONVERSION_FLOAT_TO_DOUBLE" [(PVar Double O0); (PVar Float O1)]]
  | OP_TYPE_CONVERSION_DOUBLE_TO_BYTE => (* 4185 *) [Call "TYPE_CONVERSION_DOUBLE_TO_BYTE" [(PVar Byte O0); (PVar Double O1)]]
  | OP_TYPE_CONVERSION_DOUBLE_TO_SHORT => (* 4193 *) [Call "TYPE_CONVERSION_DOUBLE_TO_SHORT" [(PVar Short O0); (PVar Double O1)]]
  | OP_TYPE_CONVERSION_DOUBLE_TO_INT => (* 4201 *) [Call "TYPE_CONVERSION_DOUBLE_TO_INT" [(PVar Int O0); (PVar Double O1)]]
  | OP_TYPE_CONVERSION_DOUBLE_TO_LONG => (* 4209 *) [Call "TYPE_CONVERSION_DOUBLE_TO_LONG" [(PVar Long O0); (PVar Double O1)]]
  | OP_TYPE_CONVERSION_DOUBLE_TO_FLOAT => (* 4217 *) [Call "TYPE_CONVERSION_DOUBLE_TO_FLOAT" [(PVar Float O0); (PVar Double O1)]]
  | OP_TYPE_CONVERSION_BYTE_TO_STRING => (* 4225 *) [Call "TYPE_CONVERSION_BYTE_TO_STRING" [(PSym "env"); (PSym "stack"); (PAddr Object O0); (PVar Byte O1)]]
  | OP_TYPE_CONVERSION_SHORT_TO_STRING => (* 4233 *) [Call "TYPE_CONVERSION_SHORT_TO_STRING" [(PSym "env"); (PSym "stack"); (PAddr Object O0); (PVar Short O1)]]
  | OP_TYPE_CONVERSION_INT_TO_STRING => (* 4241 *) [Call "TYPE_CONVERSION_INT_TO_STRING" [(PSym "env"); (PSym "stack"); (PAddr Object O0); (PVar Int O1)]]
  | OP_TYPE_CONVERSION_LONG_TO_STRING => (* 4249 *) [Call "TYPE_CONVERSION_LONG_TO_STRING" [(PSym "env"); (PSym "stack"); (PAddr Object O0); (PVar Long O1)]]
  | OP_TYPE_CONVERSION_FLOAT_TO_STRING => (* 4257 *) [Call "TYPE_CONVERSION_FLOAT_TO_STRING" [(PSym "env"); (PSym "stack"); (PAddr Object O0); (PVar Float O1)]]
  | OP_TYPE_CONVERSION_DOUBLE_TO_STRING => (* 4265 *) [Call "TYPE_CONVERSION_DOUBLE_TO_STRING" [(PSym "env"); (PSym "stack"); (PAddr Object O0); (PVar Double O1)]]
  | OP_TYPE_CONVERSION_STRING_TO_BYTE => (* 4273 *) [Call "TYPE_CONVERSION_STRING_TO_BYTE" [(PSym "env"); (PSym "stack"); (PAddr Byte O0); (PRd Object O1)]]
  | OP_TYPE_CONVERSION_STRING_TO_SHORT => (* 4283 *) [Call "TYPE_CONVERSION_STRING_TO_SHORT" [(PSym "env"); (PSym "stack"); (PAddr Short O0); (PRd Object O1)]]
  | OP_TYPE_CONVERSION_STRING_TO_INT => (* 4293 *) [Call "TYPE_CONVERSION_STRING_TO_INT" [(PSym "env"); (PSym "stack"); (PAddr Int O0); (PRd Object O1)]]
  | OP_TYPE_CONVERSION_STRING_TO_LONG => (* 4303 *) [Call "TYPE_CONVERSION_STRING_TO_LONG" [(PSym "env"); (PSym "stack"); (PAddr Long O0); (PRd Object O1)]]
  | OP_TYPE_CONVERSION_STRING_TO_FLOAT => (* 4313 *) [Call "TYPE_CONVERSION_STRING_TO_FLOAT" [(PSym "env"); (PSym "stack"); (PAddr Float O0); (PRd Object O1)]]
  | OP_TYPE_CONVERSION_STRING_TO_DOUBLE => (* 4323 *) [Call "TYPE_CONVERSION_STRING_TO_DOUBLE" [(PSym "env"); (PSym "stack"); (PAddr Double O0); (PRd Object O1)]]
  | OP_TYPE_CONVERSION_STRING_TO_BYTE_ARRAY => (* 4333 *) [Call "TYPE_CONVERSION_STRING_TO_BYTE_ARRAY" [(PSym "env"); (PSym "stack"); (PAddr Object O0); (PRd Object O1)]]
  | OP_TYPE_CONVERSION_BYTE_ARRAY_TO_STRING => (* 4343 *) [Call "TYPE_CONVERSION_BYTE_ARRAY_TO_STRING" [(PSym "env"); (PSym "stack"); (PAddr Object O0); (PRd Object O1)]]
  | OP_TYPE_CONVERSION_BYTE_TO_BYTE_OBJECT => (* 4353 *) [Call "TYPE_CONVERSION_BYTE_TO_BYTE_OBJECT" [(PSym "env"); (PSym "stack"); (PAddr Object O0); (PRd Byte O1); (PSym "object_data_offset")]]
  | OP_TYPE_CONVERSION_SHORT_TO_SHORT_OBJECT => (* 4363 *) [Call "TYPE_CONVERSION_SHORT_TO_SHORT_OBJECT" [(PSym "env"); (PSym "stack"); (PAddr Object O0); (PRd Short O1); (PSym "object_data_offset")]]
  | OP_TYPE_CONVERSION_INT_TO_INT_OBJECT => (* 4373 *) [Call "TYPE_CONVERSION_INT_TO_INT_OBJECT" [(PSym "env"); (PSym "stack"); (PAddr Object O0); (PRd Int O1); (PSym "object_data_offset")]]
  | OP_TYPE_CONVERSION_LONG_TO_LONG_OBJECT => (* 4383 *) [Call "TYPE_CONVERSION_LONG_TO_LONG_OBJECT" [(PSym "env"); (PSym "stack"); (PAddr Object O0); (PRd Long O1); (PSym "object_data_offset")]]
  | OP_TYPE_CONVERSION_FLOAT_TO_FLOAT_OBJECT => (* 4393 *) [Call "TYPE_CONVERSION_FLOAT_TO_FLOAT_OBJECT" [(PSym "env"); (PSym "stack"); (PAddr Object O0); (PRd Float O1); (PSym "object_data_offset")]]
  | OP_TYPE_CONVERSION_DOUBLE_TO_DOUBLE_OBJECT => (* 4403 *) [Call "TYPE_CONVERSION_DOUBLE_TO_DOUBLE_OBJECT" [(PSym "env"); (PSym "stack"); (PAddr Object O0); (PRd Double O1); (PSym "object_data_offset")]]
  | OP_TYPE_CONVERSION_BYTE_OBJECT_TO_BYTE => (* 4413 *) [Call "TYPE_CONVERSION_BYTE_OBJECT_TO_BYTE" [(PSym "env"); (PSym "stack"); (PAddr Byte O0); (PRd Object O1); (PSym "&error_id"); (PSym "object_data_offset")]]
  | OP_TYPE_CONVERSION_SHORT_OBJECT_TO_SHORT => (* 4423 *) [Call "TYPE_CONVERSION_SHORT_OBJECT_TO_SHORT" [(PSym "env"); (PSym "stack"); (PAddr Short O0); (PRd Object O1); (PSym "&error_id"); (PSym "object_data_offset")]]
  | OP_TYPE_CONVERSION_INT_OBJECT_TO_INT => (* 4433 *) [Call "TYPE_CONVERSION_INT_OBJECT_TO_INT" [(PSym "env"); (PSym "stack"); (PAddr Int O0); (PRd Object O1); (PSym "&error_id"); (PSym "object_data_offset")]]
  | OP_TYPE_CONVERSION_LONG_OBJECT_TO_LONG => (* 4443 *) [Call "TYPE_CONVERSION_LONG_OBJECT_TO_LONG" [(PSym "env"); (PSym "stack"); (PAddr Long O0); (PRd Object O1); (PSym "&error_id"); (PSym "object_data_offset")]]
  | OP_TYPE_CONVERSION_FLOAT_OBJECT_TO_FLOAT => (* 4453 *) [Call "TYPE_CONVERSION_FLOAT_OBJECT_TO_FLOAT" [(PSym "env"); (PSym "stack"); (PAddr Float O0); (PRd Object O1); (PSym "&error_id"); (PSym "object_data_offset")]]
  | OP_TYPE_CONVERSION_DOUBLE_OBJECT_TO_DOUBLE => (* 4463 *) [Call "TYPE_CONVERSION_DOUBLE_OBJECT_TO_DOUBLE" [(PSym "env"); (PSym "stack"); (PAddr Double O0); (PRd Object O1); (PSym "&error_id"); (PSym "object_data_offset")]]
  | OP_GET_STACK_BYTE => (* 4473 *) [Call "GET_STACK_BYTE" [(PVar Byte O0); (PSym "stack"); (PIntLow O3)]]
  | OP_GET_STACK_SHORT => (* 4481 *) [Call "GET_STACK_SHORT" [(PVar Short O0); (PSym "stack"); (PIntLow O3)]]
  | OP_GET_STACK_INT => (* 4489 *) [Call "GET_STACK_INT" [(PVar Int O0); (PSym "stack"); (PIntLow O3)]]
  | OP_GET_STACK_LONG => (* 4497 *) [Call "GET_STACK_LONG" [(PVar Long O0); (PSym "stack"); (PIntLow O3)]]
  | OP_GET_STACK_FLOAT => (* 4505 *) [Call "GET_STACK_FLOAT" [(PVar Float O0); (PSym "stack"); (PIntLow O3)]]
  | OP_GET_STACK_DOUBLE => (* 4513 *) [Call "GET_STACK_DOUBLE" [(PVar Double O0); (PSym "stack"); (PIntLow O3)]]
  | OP_GET_STACK_OBJECT => (* 4521 *) [Call "GET_STACK_OBJECT" [(PSym "env"); (PAddr Object O0); (PSym "stack"); (PIntLow O3)]]
  | OP_GET_STACK_REF => (* 4529 *) [Call "GET_STACK_REF" [(PVar Ref O0); (PSym "stack"); (PIntLow O3)]]
  | OP_GET_STACK_MULNUM_BYTE => (* 4537 *) [Call "GET_STACK_MULNUM_BYTE" [(PSym "env"); (PAddr Byte O0); (PSym "stack"); (PIntLow O3); (PIntHigh O3)]]
  | OP_GET_STACK_MULNUM_SHORT => (* 4549 *) [Call "GET_STACK_MULNUM_SHORT" [(PSym "env"); (PAddr Short O0); (PSym "stack"); (PIntLow O3); (PIntHigh O3)]]
  | OP_GET_STACK_MULNUM_INT => (* 4561 *) [Call "GET_STACK_MULNUM_INT" [(PSym "env"); (PAddr Int O0); (PSym "stack"); (PIntLow O3); (PIntHigh O3)]]
  | OP_GET_STACK_MULNUM_LONG => (* 4573 *) [Call "GET_STACK_MULNUM_LONG" [(PSym "env"); (PAddr Long O0); (PSym "stack"); (PIntLow O3); (PIntHigh O3)]]
  | OP_GET_STACK_MULNUM_FLOAT => (* 4585 *) [Call "GET_STACK_MULNUM_FLOAT" [(PSym "env"); (PAddr Float O0); (PSym "stack"); (PIntLow O3); (PIntHigh O3)]]
  | OP_GET_STACK_MULNUM_DOUBLE => (* 4597 *) [Call "GET_STACK_MULNUM_DOUBLE" [(PSym "env"); (PAddr Double O0); (PSym "stack"); (PIntLow O3); (PIntHigh O3)]]
  | OP_END_ARGS => (* 4609 *) []
  | OP_SET_STACK_BYTE => (* 4613 *) [Call "SET_STACK_BYTE" [(PSym "stack"); (PInt O3); (PVar Byte O0)]]
  | OP_SET_STACK_SHORT => (* 4622 *) [Call "SET_STACK_SHORT" [(PSym "stack"); (PInt O3); (PVar Short O0)]]
  | OP_SET_STACK_INT => (* 4631 *) [Call "SET_STACK_INT" [(PSym "stack"); (PInt O3); (PVar Int O0)]]
  | OP_SET_STACK_LONG => (* 4640 *) [Call "SET_STACK_LONG" [(PSym "stack"); (PInt O3); (PVar Long O0)]]
  | OP_SET_STACK_FLOAT => (* 4649 *) [Call "SET_STACK_FLOAT" [(PSym "stack"); (PInt O3); (PVar Float O0)]]
  | OP_SET_STACK_DOUBLE => (* 4658 *) [Call "SET_STACK_DOUBLE" [(PSym "stack"); (PInt O3); (PVar Double O0)]]
  | OP_SET_STACK_OBJECT => (* 4667 *) [Call "SET_STACK_OBJECT" [(PSym "stack"); (PInt O3); (PVar Object O0)]]
  | OP_SET_STACK_REF => (* 4676 *) [Call "SET_STACK_REF" [(PSym "stack"); (PInt O3); (PVar Ref O0)]]
  | OP_SET_STACK_UNDEF => (* 4685 *) [Call "SET_STACK_UNDEF" [(PSym "stack"); (PInt O3)]]
  | OP_SET_STACK_MULNUM_BYTE => (* 4692 *) [Call "SET_STACK_MULNUM_BYTE" [(PSym "env"); (PSym "stack"); (PInt O3); (PInt O1); (PAddr Byte O0)]]
  | OP_SET_STACK_MULNUM_SHORT => (* 4704 *) [Call "SET_STACK_MULNUM_SHORT" [(PSym "env"); (PSym "stack"); (PInt O3); (PInt O1); (PAddr Short O0)]]
  | OP_SET_STACK_MULNUM_INT => (* 4716 *) [Call "SET_STACK_MULNUM_INT" [(PSym "env"); (PSym "stack"); (PInt O3); (PInt O1); (PAddr Int O0)]]
  | OP_SET_STACK_MULNUM_LONG => (* 4728 *) [Call "SET_STACK_MULNUM_LONG" [(PSym "env"); (PSym "stack"); (PInt O3); (PInt O1); (PAddr Long O0)]]
  | OP_SET_STACK_MULNUM_FLOAT => (* 4740 *) [Call "SET_STACK_MULNUM_FLOAT" [(PSym "env"); (PSym "stack"); (PInt O3); (PInt O1); (PAddr Float O0)]]
  | OP_SET_STACK_MULNUM_DOUBLE => (* 4752 *) [Call "SET_STACK_MULNUM_DOUBLE" [(PSym "env"); (PSym "stack"); (PInt O3); (PInt O1); (PAddr Double O0)]]
  | OP_RETURN_VOID => (* 4764 *) [Jump O1]
  | OP_RETURN_BYTE => (* 4771 *) [Call "RETURN_BYTE" [(PSym "stack"); (PVar Byte O0)]; Jump O1]
  | OP_RETURN_SHORT => (* 4781 *) [Call "RETURN_SHORT" [(PSym "stack"); (PVar Short O0)]; Jump O1]
  | OP_RETURN_INT => (* 4791 *) [Call "RETURN_INT" [(PSym "stack"); (PVar Int O0)]; Jump O1]
  | OP_RETURN_LONG => (* 4801 *) [Call "RETURN_LONG" [(PSym "stack"); (PVar Long O0)]; Jump O1]
  | OP_RETURN_FLOAT => (* 4811 *) [Call "RETURN_FLOAT" [(PSym "stack"); (PVar Float O0)]; Jump O1]
  | OP_RETURN_DOUBLE => (* 4821 *) [Call "RETURN_DOUBLE" [(PSym "stack"); (PVar Double O0)]; Jump O1]
  | OP_RETURN_OBJECT => (* 4831 *) [Call "RETURN_OBJECT" [(PSym "env"); (PSym "stack"); (PVar Object O0)]; Jump O1]
  | OP_RETURN_UNDEF => (* 4841 *) [Call "RETURN_UNDEF" [(PSym "stack")]; Jump O1]
  | OP_RETURN_MULNUM_BYTE => (* 4849 *) [Call "RETURN_MULNUM_BYTE" [(PSym "env"); (PSym "stack"); (PAddr Byte O0); (PInt O2)]; Jump O1]
  | OP_RETURN_MULNUM_SHORT => (* 4863 *) [Call "RETURN_MULNUM_SHORT" [(PSym "env"); (PSym "stack"); (PAddr Short O0); (PInt O2)]; Jump O1]
  | OP_RETURN_MULNUM_INT => (* 4877 *) [Call "RETURN_MULNUM_INT" [(PSym "env"); (PSym "stack"); (PAddr Int O0); (PInt O2)]; Jump O1]
  | OP_RETURN_MULNUM_LONG => (* 4891 *) [Call "RETURN_MULNUM_LONG" [(PSym "env"); (PSym "stack"); (PAddr Long O0); (PInt O2)]; Jump O1]
  | OP_RETURN_MULNUM_FLOAT => (* 4905 *) [Call "RETURN_MULNUM_FLOAT" [(PSym "env"); (PSym "stack"); (PAddr Float O0); (PInt O2)]; Jump O1]
  | OP_RETURN_MULNUM_DOUBLE => (* 4919 *) [Call "RETURN_MULNUM_DOUBLE" [(PSym "env"); (PSym "stack"); (PAddr Double O0); (PInt O2)]; Jump O1]
  | OP_CALL_CLASS_METHOD => (* 4933 *) [Call "CALL_CLASS_METHOD" [(PSym "env"); (PSym "stack"); (PSym "error_id"); (PMethod O0 O1); (PInt O2)]]
  | OP_CALL_INSTANCE_METHOD_STATIC => (* 4963 *) [Call "CALL_INSTANCE_METHOD_STATIC" [(PSym "env"); (PSym "stack"); (PSym "error_id"); (PMethod O0 O1); (PInt O2)]]
  | OP_CALL_INSTANCE_METHOD => (* 4994 *) [Call "CALL_INSTANCE_METHOD" [(PSym "env"); (PSym "stack"); (PStr (TBasicTypeName O0)); (PStr (TMethodName O0 O1)); (PInt O2); (PSym "&error_id")]]
  end.

(** What the case declares: a basic type, or a basic type and a member of it;
    the number is the line in spvm_precompile.c. *)
Definition decl_case (op : opid) : option use :=
  match op with
  | OP_MOVE_OBJECT_WITH_TYPE_CHECK => (* 338 *) Some (UType O2)
  | OP_NEW_OBJECT => (* 342 *) Some (UType O1)
  | OP_NEW_OBJECT_ARRAY => (* 346 *) Some (UType O1)
  | OP_NEW_MULDIM_ARRAY => (* 350 *) Some (UType O1)
  | OP_NEW_MULNUM_ARRAY => (* 354 *) Some (UType O1)
  | OP_ISA => (* 358 *) Some (UType O2)
  | OP_ISA_ERROR => (* 359 *) Some (UType O2)
  | OP_IS_TYPE => (* 360 *) Some (UType O2)
  | OP_IS_ERROR => (* 361 *) Some (UType O2)
  | OP_SET_ERROR_ID_BY_TYPE => (* 366 *) Some (UType O0)
  | OP_GET_BASIC_TYPE_ID => (* 371 *) Some (UType O1)
  | OP_GET_FIELD_BYTE => (* 376 *) Some (UField O2 O3)
  | OP_GET_FIELD_SHORT => (* 377 *) Some (UField O2 O3)
  | OP_GET_FIELD_INT => (* 378 *) Some (UField O2 O3)
  | OP_GET_FIELD_LONG => (* 379 *) Some (UField O2 O3)
  | OP_GET_FIELD_FLOAT => (* 380 *) Some (UField O2 O3)
  | OP_GET_FIELD_DOUBLE => (* 381 *) Some (UField O2 O3)
  | OP_GET_FIELD_OBJECT => (* 382 *) Some (UField O2 O3)
  | OP_SET_FIELD_BYTE => (* 392 *) Some (UField O2 O3)
  | OP_SET_FIELD_SHORT => (* 393 *) Some (UField O2 O3)
  | OP_SET_FIELD_INT => (* 394 *) Some (UField O2 O3)
  | OP_SET_FIELD_LONG => (* 395 *) Some (UField O2 O3)
  | OP_SET_FIELD_FLOAT => (* 396 *) Some (UField O2 O3)
  | OP_SET_FIELD_DOUBLE => (* 397 *) Some (UField O2 O3)
  | OP_SET_FIELD_OBJECT => (* 398 *) Some (UField O2 O3)
  | OP_SET_FIELD_UNDEF => (* 399 *) Some (UField O2 O3)
  | OP_WEAKEN_FIELD => (* 400 *) Some (UField O2 O3)
  | OP_UNWEAKEN_FIELD => (* 401 *) Some (UField O2 O3)
  | OP_ISWEAK_FIELD => (* 402 *) Some (UField O2 O3)
  | OP_GET_CLASS_VAR_BYTE => (* 412 *) Some (UClassVar O1 O2)
  | OP_GET_CLASS_VAR_SHORT => (* 413 *) Some (UClassVar O1 O2)
  | OP_GET_CLASS_VAR_INT => (* 414 *) Some (UClassVar O1 O2)
  | OP_GET_CLASS_VAR_LONG => (* 415 *) Some (UClassVar O1 O2)
  | OP_GET_CLASS_VAR_FLOAT => (* 416 *) Some (UClassVar O1 O2)
  | OP_GET_CLASS_VAR_DOUBLE => (* 417 *) Some (UClassVar O1 O2)
  | OP_GET_CLASS_VAR_OBJECT => (* 418 *) Some (UClassVar O1 O2)
  | OP_SET_CLASS_VAR_BYTE => (* 426 *) Some (UClassVar O0 O1)
  | OP_SET_CLASS_VAR_SHORT => (* 427 *) Some (UClassVar O0 O1)
  | OP_SET_CLASS_VAR_INT => (* 428 *) Some (UClassVar O0 O1)
  | OP_SET_CLASS_VAR_LONG => (* 429 *) Some (UClassVar O0 O1)
  | OP_SET_CLASS_VAR_FLOAT => (* 430 *) Some (UClassVar O0 O1)
  | OP_SET_CLASS_VAR_DOUBLE => (* 431 *) Some (UClassVar O0 O1)
  | OP_SET_CLASS_VAR_OBJECT => (* 432 *) Some (UClassVar O0 O1)
  | OP_SET_CLASS_VAR_UNDEF => (* 433 *) Some (UClassVar O0 O1)
  | OP_CALL_CLASS_METHOD => (* 441 *) Some (UMethod O0 O1)
  | OP_CALL_INSTANCE_METHOD_STATIC => (* 442 *) Some (UMethod O0 O1)
  | _ => None
  end.
