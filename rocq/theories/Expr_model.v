(** * Numeric expressions: from the source tree to the instructions, and their
      execution

    lib/SPVM/Builder/src/spvm_op.c:2505-2820 and 3031-3046 (the trees of
    [op=], [++], [--] and [=]), spvm_check.c:2433-2825, 1658-1941, 2367-2406,
    3363-3398 and 4039-4266 (types and inserted casts), 3431-3622 (temporary
    variables), spvm_opcode_builder.c:934-946, 2081-2713, 2735-2920, 3494-3590,
    3642-4025, 4279-4330 and 5154-5230 (instructions), spvm_vm.c and
    include/spvm_implement.h (their execution).

    Scope: expressions whose operands all have a numeric type (byte to double,
    not an array): local variables, literals, the arithmetic, bit, shift and
    numeric comparison operators, casts, assignments to local variables with
    and without an operator, increments and decrements, and the sequence
    operator [(a, b)].

    Simplifications.
    - A local variable is a number. Its register is the element with that
      number of the array of registers of the instruction's type; that the real
      allocation gives live variables different registers is C51.
    - A sequence has two members; [(a, b, c)] is written [((a, b), c)], which
      the builder walks in the same order.
    - A compile error is [None]; the text of the message is not kept. A failing
      assertion of the opcode builder is [None] too.
    - An exception ends the code with [Die]; where control goes is C22.
    - The arithmetic of float and double, and the conversions from and to them,
      are arguments; a conversion to an integer type that C leaves undefined is
      [None] there. Conversions between integers wrap around. *)

From Verif Require Import Base VmArith_model.

(** The numeric types and their basic type ids, spvm_native.h. *)
Inductive nty := TByte | TShort | TInt | TLong | TFloat | TDouble.
Definition tid (t : nty) : Z :=
  match t with TByte => 3 | TShort => 4 | TInt => 5 | TLong => 6 | TFloat => 7 | TDouble => 8 end.
Definition nty_eqb (a b : nty) : bool := tid a =? tid b.

(** SPVM_TYPE_is_integer_type, spvm_type.c:199-208. *)
Definition is_integer (t : nty) : bool := (3 <=? tid t) && (tid t <=? 6).

Inductive unop := UPlus | UMinus | UNot.
Inductive binop :=
| BAdd | BSub | BMul | BDiv | BDivUInt | BDivULong | BMod | BModUInt | BModULong
| BAnd | BOr | BXor | BShl | BSar | BShr.
Inductive cmpop := CEq | CNe | CGt | CGe | CLt | CLe | CCmp.

Section Float.
  Variables F D : Type.

  (** A number: an integer of one of the four integer types, a float or a
      double. *)
  Inductive val := VI (z : Z) | VF (f : F) | VD (d : D).

  (** The source. *)
  Inductive expr :=
  | EVar (x : nat)
  | EConst (t : nty) (v : val)
  | EUn (u : unop) (e : expr)
  | EBin (b : binop) (l r : expr)
  | ECmp (c : cmpop) (l r : expr)
  | ECast (t : nty) (e : expr)
  | EAssign (x : nat) (e : expr)
  | EOpAssign (b : binop) (x : nat) (e : expr)       (* $x += e *)
  | EInc (dec post : bool) (x : nat)                 (* ++$x, $x++, --$x, $x-- *)
  | ESeq (a b : expr).

  (** The tree of operators. [n] is the flag allow_narrowing_conversion. *)
  Inductive op :=
  | OVar (x : nat)
  | OConst (t : nty) (v : val)
  | OUn (u : unop) (a : op)
  | OBin (b : binop) (n : bool) (l r : op)
  | OCmp (c : cmpop) (l r : op)
  | OCast (t : nty) (a : op)
  | OAssign (x : nat) (a : op)      (* first = the source, last = the variable *)
  | OSeq (a b : op).

  (** spvm_op.c:2505-2800 SPVM_OP_build_special_assign for a local variable:
      (my $old = $x, $x = $old op src) and, for a post-increment, (..., $old).
      The variable $old is new and has no type yet. *)
  Definition special_assign (post : bool) (b : binop) (x old : nat) (src : op) : op :=
    let save := OAssign old (OVar x) in
    let update := OAssign x (OBin b true (OVar old) src) in
    let seq := OSeq save update in
    if post then OSeq seq (OVar old) else seq.

  (** The tree the parser builds; [n] is the next variable number.
      spvm_op.c:2802-2820 for [++] and [--]: the right operand is the int
      literal 1. *)
  Fixpoint build (e : expr) (n : nat) : op * nat :=
    match e with
    | EVar x => (OVar x, n)
    | EConst t v => (OConst t v, n)
    | EUn u a => let (a, n) := build a n in (OUn u a, n)
    | EBin b l r => let (l, n) := build l n in let (r, n) := build r n in (OBin b false l r, n)
    | ECmp c l r => let (l, n) := build l n in let (r, n) := build r n in (OCmp c l r, n)
    | ECast t a => let (a, n) := build a n in (OCast t a, n)
    | EAssign x a => let (a, n) := build a n in (OAssign x a, n)
    | EOpAssign b x a => let (a, n) := build a n in (special_assign false b x n a, S n)
    | EInc dec post x =>
        (special_assign post (if dec then BSub else BAdd) x n (OConst TInt (VI 1)), S n)
    | ESeq a b => let (a, n) := build a n in let (b, n) := build b n in (OSeq a b, n)
    end.

  (** The declared types of the variables; a variable without a type is one
      whose type is still to be inferred. *)
  Definition tenv := nat -> option nty.
  Definition tset (T : tenv) (x : nat) (t : option nty) : tenv :=
    fun y => if Nat.eqb y x then t else T y.

  (** SPVM_CHECK_get_type, spvm_check.c:4348-4600. *)
  Fixpoint get_type (T : tenv) (o : op) : option nty :=
    match o with
    | OVar x => T x
    | OConst t _ => Some t
    | OUn _ a => get_type T a
    | OBin _ _ l _ => get_type T l
    | OCmp _ _ _ => Some TInt
    | OCast t _ => Some t
    | OAssign x _ => T x
    | OSeq _ b => get_type T b
    end.

  (** The end of both conversions below: a cast unless the type is the same. *)
  Definition cast_to (d s : nty) (o : op) : op := if nty_eqb s d then o else OCast d o.

  (** SPVM_CHECK_perform_integer_promotional_conversion,
      spvm_check.c:4039-4063. *)
  Definition promote (t : nty) (o : op) : op :=
    if tid t <=? tid TInt then cast_to TInt t o else o.

  (** SPVM_CHECK_perform_binary_numeric_conversion, spvm_check.c:4065-4106. *)
  Definition binary_type (l r : nty) : nty :=
    if nty_eqb l TDouble || nty_eqb r TDouble then TDouble
    else if nty_eqb l TFloat || nty_eqb r TFloat then TFloat
    else if nty_eqb l TLong || nty_eqb r TLong then TLong
    else TInt.

  (** The operand tests of spvm_check.c:2433-2825 (unary and binary
      operators). *)
  Definition un_operand_ok (u : unop) (t : nty) : bool :=
    match u with UPlus | UMinus => true | UNot => is_integer t end.

  Definition bin_convert (b : binop) (tl tr : nty) (l r : op) : option (op * op) :=
    match b with
    (* 2493-2587 *)
    | BAdd | BSub | BMul | BDiv =>
        let d := binary_type tl tr in Some (cast_to d tl l, cast_to d tr r)
    (* 2588-2618, 2641-2673 *)
    | BDivUInt | BModUInt => if nty_eqb tl TInt && nty_eqb tr TInt then Some (l, r) else None
    | BDivULong | BModULong => if nty_eqb tl TLong && nty_eqb tr TLong then Some (l, r) else None
    (* 2620-2639, 2675-2720, 2178-2194 *)
    | BMod | BAnd | BOr | BXor =>
        if is_integer tl && is_integer tr then
          let d := binary_type tl tr in Some (cast_to d tl l, cast_to d tr r)
        else None
    (* 2721-2825 *)
    | BShl | BSar | BShr =>
        if is_integer tl && is_integer tr && negb (tid TLong <=? tid tr) then
          Some (promote tl l, promote tr r)
        else None
    end.

  (** SPVM_CHECK_check_allow_narrowing_conversion, spvm_check.c:4108-4210, for
      numeric types. *)
  Definition allow_narrowing (d s : nty) (src : op) : bool :=
    match src with
    | OBin _ true _ _ => true
    | OConst _ v =>
        if tid d <? tid s then
          match s, v with
          | TInt, VI z | TLong, VI z =>
              match d with
              | TByte => (-128 <=? z) && (z <=? 127)
              | TShort => (-32768 <=? z) && (z <=? 32767)
              | TInt => (INT32_MIN <=? z) && (z <=? INT32_MAX)
              | _ => false
              end
          | TDouble, _ => nty_eqb d TFloat
          | _, _ => false
          end
        else false
    | _ => false
    end.

  (** SPVM_CHECK_check_assign, spvm_check.c:4212-4266, with the numeric part of
      SPVM_TYPE_satisfy_assignment_requirement, spvm_type.c:913-942. *)
  Definition check_assign (d s : nty) (src : op) : option op :=
    if tid s =? tid d then Some src
    else if tid s <? tid d then Some (OCast d src)
    else if allow_narrowing d s src then Some (OCast d src)
    else None.

  (** SPVM_CHECK_check_ast_syntax: the walk is in postorder, so the operands
      are checked, and changed, before the operator. *)
  Fixpoint check (T : tenv) (o : op) : option (tenv * op) :=
    match o with
    | OVar x => Some (T, OVar x)
    | OConst t v => Some (T, OConst t v)
    | OUn u a =>
        match check T a with
        | Some (T, a) =>
            match get_type T a with
            | Some t => if un_operand_ok u t then Some (T, OUn u (promote t a)) else None
            | None => None
            end
        | None => None
        end
    | OBin b n l r =>
        match check T l with
        | Some (T, l) =>
            match check T r with
            | Some (T, r) =>
                match get_type T l, get_type T r with
                | Some tl, Some tr =>
                    match bin_convert b tl tr l r with
                    | Some (l, r) => Some (T, OBin b n l r)
                    | None => None
                    end
                | _, _ => None
                end
            | None => None
            end
        | None => None
        end
    | OCmp c l r =>
        (* 1658-1941 *)
        match check T l with
        | Some (T, l) =>
            match check T r with
            | Some (T, r) =>
                match get_type T l, get_type T r with
                | Some tl, Some tr =>
                    let d := binary_type tl tr in
                    Some (T, OCmp c (cast_to d tl l) (cast_to d tr r))
                | _, _ => None
                end
            | None => None
            end
        | None => None
        end
    | OCast t a =>
        (* 3363-3398: every numeric type can be cast to every numeric type
           (spvm_type.c:1387-1391); a cast to the same type is removed *)
        match check T a with
        | Some (T, a) =>
            match get_type T a with
            | Some s => Some (T, cast_to t s a)
            | None => None
            end
        | None => None
        end
    | OAssign x a =>
        (* 2367-2406: the type of the variable is inferred if it has none *)
        match check T a with
        | Some (T, a) =>
            match get_type T a with
            | Some s =>
                let T := match T x with Some _ => T | None => tset T x (Some s) end in
                match T x with
                | Some d =>
                    match check_assign d s a with
                    | Some a => Some (T, OAssign x a)
                    | None => None
                    end
                | None => None
                end
            | None => None
            end
        | None => None
        end
    | OSeq a b =>
        match check T a with
        | Some (T, a) => match check T b with Some (T, b) => Some (T, OSeq a b) | None => None end
        | None => None
        end
    end.

  (** SPVM_CHECK_check_ast_assign_unassigned_op_to_var, spvm_check.c:3431-3622,
      and SPVM_CHECK_new_op_var_tmp, 4314-4335: an operator, cast or literal
      that is not the source of an assignment to a variable becomes one, to a
      new temporary variable of its type. *)
  Definition to_tmp (assigned : bool) (T : tenv) (n : nat) (o : op) : tenv * nat * op :=
    if assigned then (T, n, o) else (tset T n (get_type T o), S n, OAssign n o).

  Fixpoint temps (assigned : bool) (T : tenv) (n : nat) (o : op) : tenv * nat * op :=
    match o with
    | OVar x => (T, n, OVar x)
    | OConst t v => to_tmp assigned T n (OConst t v)
    | OUn u a => let '(T, n, a) := temps false T n a in to_tmp assigned T n (OUn u a)
    | OBin b w l r =>
        let '(T, n, l) := temps false T n l in
        let '(T, n, r) := temps false T n r in
        to_tmp assigned T n (OBin b w l r)
    | OCmp c l r =>
        let '(T, n, l) := temps false T n l in
        let '(T, n, r) := temps false T n r in
        to_tmp assigned T n (OCmp c l r)
    | OCast t a => let '(T, n, a) := temps false T n a in to_tmp assigned T n (OCast t a)
    | OAssign x a => let '(T, n, a) := temps true T n a in (T, n, OAssign x a)
    | OSeq a b =>
        let '(T, n, a) := temps false T n a in
        let '(T, n, b) := temps false T n b in
        (T, n, OSeq a b)
    end.

  (** ** Instructions *)
  Inductive instr :=
  | IConst (t : nty) (x : nat) (v : val)            (* MOVE_CONSTANT_T; operand1 *)
  | IMove (t : nty) (x y : nat)                     (* MOVE_T *)
  | IUn (u : unop) (t : nty) (x y : nat)            (* NEGATE_T, BIT_NOT_T *)
  | IBin (b : binop) (t : nty) (x y z : nat)        (* ADD_T, ... *)
  | ICmp (c : cmpop) (t : nty) (x y z : nat)        (* NUMERIC_COMPARISON_EQ_T, ... *)
  | IConv (s d : nty) (x y : nat).                  (* TYPE_CONVERSION_S_TO_D *)

  (** SPVM_OPCODE_BUILDER_get_typed_var_index, spvm_opcode_builder.c:5154-5230:
      the variable an operand is read from. *)
  Fixpoint place (o : op) : option nat :=
    match o with
    | OVar x => Some x
    | OAssign x a => match a with OVar _ | OAssign _ _ => place a | _ => Some x end
    | OSeq _ b => place b
    | _ => None
    end.

  (** spvm_opcode_builder.c:2665-2713: operand1 of MOVE_CONSTANT. *)
  Definition encode (t : nty) (v : val) : val :=
    match t, v with
    | TByte, VI z => VI (z mod 2 ^ 8)
    | TInt, VI z => VI (z mod 2 ^ 32)
    | _, _ => v
    end.

  (** Which types have an instruction: the switch statements of
      spvm_opcode_builder.c:2081-2660 and 3642-4025. *)
  Definition arith_type (t : nty) : bool := match t with TInt | TLong | TFloat | TDouble => true | _ => false end.
  Definition int_type (t : nty) : bool := match t with TInt | TLong => true | _ => false end.
  Definition const_type (t : nty) : bool := match t with TShort => false | _ => true end.

  Definition bin_instr (b : binop) (t : nty) (x y z : nat) : option instr :=
    match b with
    | BAdd | BSub | BMul | BDiv => if arith_type t then Some (IBin b t x y z) else None
    | BDivUInt | BModUInt => Some (IBin b TInt x y z)
    | BDivULong | BModULong => Some (IBin b TLong x y z)
    | BMod | BAnd | BOr | BXor | BShl | BSar | BShr => if int_type t then Some (IBin b t x y z) else None
    end.

  (** The instruction of an assignment, by the operator of its source;
      [t] is the type of the variable (type_dist). No instruction for a source
      that has no case in the switch. *)
  Definition assign_instr (T : tenv) (t : nty) (x : nat) (src : op) : option (list instr) :=
    match src with
    | OVar y => Some [IMove t x y]
    | OAssign _ _ => match place src with Some y => Some [IMove t x y] | None => None end
    | OConst _ v => if const_type t then Some [IConst t x (encode t v)] else None
    | OUn u a =>
        match place a with
        | Some y =>
            match u with
            | UPlus => if arith_type t then Some [IMove t x y] else None
            | UMinus => if arith_type t then Some [IUn UMinus t x y] else None
            | UNot => if int_type t then Some [IUn UNot t x y] else None
            end
        | None => None
        end
    | OBin b _ l r =>
        match place l, place r with
        | Some y, Some z => match bin_instr b t x y z with Some i => Some [i] | None => None end
        | _, _ => None
        end
    | OCmp c l r =>
        match place l, place r, get_type T l with
        | Some y, Some z, Some s => if arith_type s then Some [ICmp c s x y z] else None
        | _, _, _ => None
        end
    | OCast d a =>
        match place a, get_type T a with
        | Some y, Some s => Some [if nty_eqb s d then IMove d x y else IConv s d x y]
        | _, _ => None
        end
    | OSeq _ _ => Some []
    end.

  (** The walk of the opcode builder, in postorder. An operator that is not the
      source of an assignment emits nothing. spvm_opcode_builder.c:940-942: of
      a source that is a sequence the last member is taken. *)
  Definition assign_source (a : op) : op := match a with OSeq _ b => b | _ => a end.

  Fixpoint gen (T : tenv) (o : op) : option (list instr) :=
    match o with
    | OVar _ | OConst _ _ => Some []
    | OUn _ a | OCast _ a => gen T a
    | OBin _ _ l r | OCmp _ l r | OSeq l r =>
        match gen T l, gen T r with Some c, Some c' => Some (c ++ c') | _, _ => None end
    | OAssign x a =>
        match gen T a, T x with
        | Some c, Some t =>
            match assign_instr T t x (assign_source a) with Some i => Some (c ++ i) | None => None end
        | _, _ => None
        end
    end.

  (** The compiler: the instructions, and the register of the result. *)
  Record code := Code { c_types : tenv; c_instrs : list instr; c_result : nat }.

  Definition compile (T : tenv) (n : nat) (e : expr) : option code :=
    let (o, n) := build e n in
    match check T o with
    | Some (T, o) =>
        let '(T, _, o) := temps false T n o in
        match gen T o, place o with
        | Some c, Some r => Some (Code T c r)
        | _, _ => None
        end
    | None => None
    end.

  (** ** The virtual machine *)

  (** The arithmetic of float and double. *)
  Inductive fop := FAdd | FSub | FMul | FDiv.
  Record floats := Floats {
    f_op : fop -> F -> F -> F; f_neg : F -> F; f_lt : F -> F -> bool; f_eq : F -> F -> bool; f_le : F -> F -> bool;
    d_op : fop -> D -> D -> D; d_neg : D -> D; d_lt : D -> D -> bool; d_eq : D -> D -> bool; d_le : D -> D -> bool;
    f_of_z : Z -> F; d_of_z : Z -> D; f_of_d : D -> F; d_of_f : F -> D;
    z_of_f : nty -> F -> option Z; z_of_d : nty -> D -> option Z }.
  Variable fl : floats.

  (** The registers: one array for each type. *)
  Definition regs := nty -> nat -> val.
  Definition rset (R : regs) (t : nty) (x : nat) (v : val) : regs :=
    fun t' x' => if nty_eqb t' t && Nat.eqb x' x then v else R t' x'.

  Definition bool_val (b : bool) : val := VI (if b then 1 else 0).
  Definition z_val (o : outcome Z) : outcome val := let! z := o in Ret (VI z).

  Definition bits_of (t : nty) : Z := match t with TLong => 64 | _ => 32 end.

  (** spvm_implement.h:187-323, through VmArith_model.v for int and long. *)
  Definition iop_of (b : binop) : iop :=
    match b with
    | BAdd => OAdd | BSub => OSub | BMul => OMul | BDiv => ODiv
    | BDivUInt | BDivULong => ODivU | BMod => OMod | BModUInt | BModULong => OModU
    | BAnd => OAnd | BOr => OOr | BXor => OXor | BShl => OShl | BSar => OSar | BShr => OShr
    end.
  Definition fop_of (b : binop) : option fop :=
    match b with BAdd => Some FAdd | BSub => Some FSub | BMul => Some FMul | BDiv => Some FDiv | _ => None end.

  Definition run_bin (b : binop) (t : nty) (v w : val) : outcome val :=
    match t, v, w with
    | TInt, VI a, VI b' | TLong, VI a, VI b' => z_val (int_op (bits_of t) (iop_of b) a b')
    | TFloat, VF a, VF b' => match fop_of b with Some o => Ret (VF (f_op fl o a b')) | None => UB end
    | TDouble, VD a, VD b' => match fop_of b with Some o => Ret (VD (d_op fl o a b')) | None => UB end
    | _, _, _ => UB
    end.

  (** spvm_implement.h:412-417 BIT_NOT, NEGATE. *)
  Definition run_un (u : unop) (t : nty) (v : val) : outcome val :=
    match u, t, v with
    | UMinus, TInt, VI a | UMinus, TLong, VI a => z_val (neg_i (bits_of t) a)
    | UMinus, TFloat, VF a => Ret (VF (f_neg fl a))
    | UMinus, TDouble, VD a => Ret (VD (d_neg fl a))
    | UNot, TInt, VI a | UNot, TLong, VI a => z_val (not_i a)
    | _, _, _ => UB
    end.

  (** spvm_implement.h:446-482. [lt], [eq], [le] are C's [<], [==], [<=]. *)
  Definition compare {A} (lt eq le : A -> A -> bool) (c : cmpop) (a b : A) : val :=
    match c with
    | CEq => bool_val (eq a b)
    | CNe => bool_val (negb (eq a b))
    | CGt => bool_val (lt b a)
    | CGe => bool_val (le b a)
    | CLt => bool_val (lt a b)
    | CLe => bool_val (le a b)
    | CCmp => VI (if lt b a then 1 else if lt a b then -1 else 0)
    end.
  Definition run_cmp (c : cmpop) (t : nty) (v w : val) : outcome val :=
    match t, v, w with
    | TInt, VI a, VI b | TLong, VI a, VI b => Ret (compare Z.ltb Z.eqb Z.leb c a b)
    | TFloat, VF a, VF b => Ret (compare (f_lt fl) (f_eq fl) (f_le fl) c a b)
    | TDouble, VD a, VD b => Ret (compare (d_lt fl) (d_eq fl) (d_le fl) c a b)
    | _, _, _ => UB
    end.

  (** spvm_implement.h:2022-2051. *)
  Definition wrap_to (d : nty) (z : Z) : Z :=
    match d with TByte => wrap8 z | TShort => wrap16 z | TInt => wrap32 z | _ => wrap64 z end.
  Definition opt_val (o : option Z) : outcome val := match o with Some z => Ret (VI z) | None => UB end.
  Definition run_conv (s d : nty) (v : val) : outcome val :=
    match v with
    | VI z =>
        match s with
        | TFloat | TDouble => UB
        | _ => match d with
               | TFloat => Ret (VF (f_of_z fl z))
               | TDouble => Ret (VD (d_of_z fl z))
               | _ => Ret (VI (wrap_to d z))
               end
        end
    | VF f =>
        match s with
        | TFloat => match d with TDouble => Ret (VD (d_of_f fl f)) | TFloat => UB | _ => opt_val (z_of_f fl d f) end
        | _ => UB
        end
    | VD f =>
        match s with
        | TDouble => match d with TFloat => Ret (VF (f_of_d fl f)) | TDouble => UB | _ => opt_val (z_of_d fl d f) end
        | _ => UB
        end
    end.

  (** spvm_vm.c:345-366. *)
  Definition decode (t : nty) (v : val) : val :=
    match t, v with
    | TByte, VI z => VI (wrap8 (z mod 2 ^ 8))
    | TInt, VI z => VI (wrap32 z)
    | _, _ => v
    end.

  Definition step (R : regs) (i : instr) : outcome regs :=
    match i with
    | IConst t x v => Ret (rset R t x (decode t v))
    | IMove t x y => Ret (rset R t x (R t y))
    | IUn u t x y => let! v := run_un u t (R t y) in Ret (rset R t x v)
    | IBin b t x y z =>
        (* the count of a shift is an int, spvm_vm.c:500-523 *)
        let tz := match b with BShl | BSar | BShr => TInt | _ => t end in
        let! v := run_bin b t (R t y) (R tz z) in Ret (rset R t x v)
    | ICmp c t x y z => let! v := run_cmp c t (R t y) (R t z) in Ret (rset R TInt x v)
    | IConv s d x y => let! v := run_conv s d (R s y) in Ret (rset R d x v)
    end.

  Fixpoint run (R : regs) (c : list instr) : outcome regs :=
    match c with
    | [] => Ret R
    | i :: c => let! R := step R i in run R c
    end.
End Float.
