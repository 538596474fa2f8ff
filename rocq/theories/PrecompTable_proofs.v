(** * The two opcode tables agree, opcode by opcode *)

From Coq Require Import String.
From Coq Require Import List Lia.
Import ListNotations.
From Verif Require Import Base CLib Bytes Type_model Dispatch_model Switch_model.
From Verif Require Import Precomp_syntax Precomp_table Precomp_model Precomp_spec PrecompName_proofs PrecompLit_proofs
  PrecompLook_proofs.

Definition vt_eq (a b : vt) : bool :=
  match a, b with
  | Byte, Byte | Short, Short | Int, Int | Long, Long | Float, Float | Double, Double | Object, Object | Ref, Ref => true
  | _, _ => false
  end.

Definition op_eq (a b : opnd) : bool :=
  match a, b with O0, O0 | O1, O1 | O2, O2 | O3, O3 => true | _, _ => false end.

Lemma vt_eq_ok a b : vt_eq a b = true -> a = b.
Proof. destruct a, b; (reflexivity || discriminate). Qed.

Lemma op_eq_ok a b : op_eq a b = true -> a = b.
Proof. destruct a, b; (reflexivity || discriminate). Qed.

Definition has_type (id : opid) (k : opnd) : bool :=
  match decl_case id with
  | Some (UType k') | Some (UField k' _) | Some (UClassVar k' _) | Some (UMethod k' _) => op_eq k k'
  | None => false
  end.

Definition has_field (id : opid) (k f : opnd) : bool :=
  match decl_case id with Some (UField k' f') => op_eq k k' && op_eq f f' | _ => false end.

Definition has_class_var (id : opid) (k f : opnd) : bool :=
  match decl_case id with Some (UClassVar k' f') => op_eq k k' && op_eq f f' | _ => false end.

Definition has_method (id : opid) (k f : opnd) : bool :=
  match decl_case id with Some (UMethod k' f') => op_eq k k' && op_eq f f' | _ => false end.

Definition is_can (id : opid) : bool := match id with OP_CAN => true | _ => false end.
Definition is_set_error (id : opid) : bool := match id with OP_SET_ERROR_ID_BY_TYPE => true | _ => false end.

Definition match_expr (id : opid) (f : string) (v : vexpr) (p : pexpr) : bool :=
  match v, p with
  | Var t k, PVar t' k' => vt_eq t t' && op_eq k k' && negb (by_value f)
  | Var t k, PRd t' k' => vt_eq t t' && op_eq k k' && by_value f
  | Addr t k, PAddr t' k' => vt_eq t t' && op_eq k k'
  | Rd t k, PRd t' k' => vt_eq t t' && op_eq k k'
  | Imm k, PInt k' => op_eq k k'
  | Imm k, PBasicTypeId k' => op_eq k k' && op_eq k O0 && is_set_error id && has_type id k
  | ImmByte k, PByte k' => op_eq k k'
  | ImmLong _, PLong _ => true
  | ImmFloat k, PFloatBits k' => op_eq k k'
  | ImmDouble _, PDoubleBits _ => true
  | ImmLow k, PIntLow k' => op_eq k k'
  | ImmLow1 k, PIntLow1 k' => op_eq k k'
  | ImmHigh k, PIntHigh k' => op_eq k k'
  | Sym s, PSym s' => String.eqb s s'
  | BasicType k, PBasicType k' => op_eq k k' && has_type id k
  | BasicTypeOf k, PBasicTypeOf k' => op_eq k k'
  | FieldOffset k f, PFieldOffset k' f' => op_eq k k' && op_eq f f' && has_field id k f
  | ClassVar k f, PClassVar k' f' => op_eq k k' && op_eq f f' && has_class_var id k f
  | Method k f, PMethod k' f' => op_eq k k' && op_eq f f' && has_method id k f
  | MethodName k f, PStr (TMethodName k' f') => op_eq k k' && op_eq f f'
  | MethodClassName k _, PStr (TBasicTypeName k') => op_eq k k'
  | ConstValue k, PStr (TConstValue k') => op_eq k k' && op_eq k O2 && is_can id
  | ConstValue k, PHex (TConstValue k') => op_eq k k'
  | ConstLength k, PIntConstLength k' => op_eq k k'
  | CurClassName, PStr TCurClassName => true
  | CurMethodName, PStr TCurMethodName => true
  | CurFile, PStr TCurFile => true
  | _, _ => false
  end.

Fixpoint match_list {A B} (f : A -> B -> bool) (a : list A) (b : list B) : bool :=
  match a, b with
  | [], [] => true
  | x :: a', y :: b' => f x y && match_list f a' b'
  | _, _ => false
  end.

Definition match_call (id : opid) (x : string * list vexpr) (y : string * list pexpr) : bool :=
  String.eqb (fst x) (fst y) && match_list (match_expr id (fst x)) (snd x) (snd y).

Definition match_cond (a b : cond) : bool :=
  match a, b with
  | EqZero k, EqZero k' | NeZero k, NeZero k' => op_eq k k'
  | ErrorSet, ErrorSet => true
  | _, _ => false
  end.

Definition match_stmt (id : opid) (v : vstmt) (p : pstmt) : bool :=
  match v, p with
  | Call f a, Call f' a' => match_call id (f, a) (f', a')
  | Jump k, Jump k' => op_eq k k'
  | IfJump c pre k, IfJump c' pre' k' => match_cond c c' && match_list (match_call id) pre pre' && op_eq k k'
  | _, _ => false
  end.

(** Three opcodes are special: END_METHOD, LOOKUP_SWITCH and LEAVE_SCOPE. *)
Definition table_ok (id : opid) : bool :=
  match id with
  | OP_END_METHOD => match vm_case id, pc_case id with [Halt], [] => true | _, _ => false end
  | OP_LOOKUP_SWITCH => match vm_case id, pc_case id with [VSwitch], [PSwitch] => true | _, _ => false end
  | OP_LEAVE_SCOPE =>
      match vm_case id, pc_case id with
      | [Call f a], [IfMortal f' a'] => String.eqb f "LEAVE_SCOPE" && match_call id (f, a) (f', a')
      | _, _ => false
      end
  | _ => match_list (match_stmt id) (vm_case id) (pc_case id)
  end.

Lemma table id : table_ok id = true.
Proof. destruct id; vm_compute; reflexivity. Qed.

(** The table of declarations against the interpreter's: what is declared exists. *)
Definition uses_expr (u : use) (e : vexpr) : bool :=
  match u, e with
  | UType k, BasicType k' => op_eq k k'
  | UField k f, FieldOffset k' f' => op_eq k k' && op_eq f f'
  | UClassVar k f, ClassVar k' f' => op_eq k k' && op_eq f f'
  | UMethod k f, Method k' f' => op_eq k k' && op_eq f f'
  | _, _ => false
  end.

Definition uses_stmt (u : use) (v : vstmt) : bool :=
  match v with
  | Call _ a => existsb (uses_expr u) a
  | IfJump _ pre _ => existsb (fun x => existsb (uses_expr u) (snd x)) pre
  | _ => false
  end.

Definition decl_ok (id : opid) : bool :=
  match decl_case id with
  | None => true
  | Some u => (is_set_error id && match u with UType O0 => true | _ => false end) || existsb (uses_stmt u) (vm_case id)
  end.

Lemma decl_table id : decl_ok id = true.
Proof. destruct id; vm_compute; reflexivity. Qed.

Lemma table_cases id : id = OP_END_METHOD \/ id = OP_LOOKUP_SWITCH \/ id = OP_LEAVE_SCOPE \/
  match_list (match_stmt id) (vm_case id) (pc_case id) = true.
Proof. pose proof (table id) as T. destruct id; cbn [table_ok] in T; auto. Qed.
