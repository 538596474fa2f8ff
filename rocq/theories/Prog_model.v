(** * Methods made of numeric statements: conditions, logical operators,
      branches, loops and return

    lib/SPVM/Builder/src/spvm_op.c:1544-1575 (the parts added to a method),
    1851-2092 (if, unless, while, for), 2822-3029 (&&, || and !),
    spvm_check.c:1402-1423 (next, last), 1614-1657 (condition evaluation),
    2408-2432 (return), 3431-3622 (temporaries), 3757-3770 (loops),
    spvm_opcode_builder.c:279-760 (control flow, in Code_model.v), 4083-4152
    (condition evaluation), include/spvm_implement.h:438-441.

    Numeric expressions are those of Expr_model.v, control flow and its
    machine those of Code_model.v; here the two are put together.

    Scope: methods of one numeric return type whose statements are numeric
    expressions, assignments and returns of conditions, blocks, if, unless,
    elsif, else, while, for, next, last and return.

    Simplifications.
    - The variables of the method are declared in advance; [my $x;] is the
      assignment of zero. As in Expr_model.v a variable is a number and its
      register has that number.
    - The temporary variables an expression needs are numbered anew in each
      expression: none is used after the end of its expression. (The variables
      of the logical operators, which are made by the parser, have numbers of
      their own.)
    - A logical operator is the whole condition, the whole right side of an
      assignment, the whole operand of a return, or an operand of a logical
      operator; not an operand of an arithmetic operator.
    - A sequence node (my $tmp, if ..., $tmp) is a pair of the statements before
      and the last operand, which is where the builder takes its value from
      (spvm_opcode_builder.c:5154-5230). A cast of a sequence is the sequence
      with the cast of the last operand.
    - The numbers of lines, and the lines added to a message on the way of an
      exception, are left out (C22). *)

From Verif Require Import Code_model.
From Verif Require Import Base VmArith_model Expr_model.

Section Float.
  Variables F D : Type.
  Local Notation val := (val F D).
  Local Notation expr := (expr F D).
  Local Notation op := (op F D).

  (** ** The source *)
  Inductive cond :=
  | CVal (e : expr)
  | CAnd (l r : cond)
  | COr (l r : cond)
  | CNot (c : cond).

  Inductive stmt :=
  | TSkip
  | TSeq (a b : stmt)
  | TExp (e : expr)
  | TSet (x : nat) (c : cond)                         (* $x = c *)
  | TBlock (b : stmt)
  | TIf (unless : bool) (c : cond) (t e : stmt)       (* elsif: an if in the else part *)
  | TWhile (c : cond) (b : stmt)
  | TFor (i : expr) (c : cond) (n : expr) (b : stmt)  (* for (i; c; n) b *)
  | TNext
  | TLast
  | TReturn (c : cond).

  (** ** The trees the parser builds

      The operand of a condition is a pair: statements to be run before, and a
      numeric expression. *)
  Inductive ast :=
  | ASkip
  | ASeq (a b : ast)
  | AExp (e : expr)
  | ADecl (x : nat)                                   (* my $x : int *)
  | ABlock (b : ast)
  | AIf (no_scope : bool) (pre : ast) (e : expr) (t f : ast)
  | ALoop (init body inc : ast) (pre : ast) (e : expr)
  | ANext
  | ALast
  | AReturn (pre : ast) (e : expr).

  (** $.condition_flag, spvm_op.c:1544-1551: the first variable of the method,
      so int register 0 (spvm_check.c:3836). *)
  Definition FLAG : nat := 0.
  Definition set_flag (x : nat) : ast := AExp (EAssign F D x (EVar F D FLAG)).
  Definition set_int (x : nat) (z : Z) : ast := AExp (EAssign F D x (EConst F D TInt (VI F D z))).

  (** spvm_op.c:2822-2895, 2897-2970 and 2972-3029. [n] is the next variable
      number; the operands were built before. *)
  Definition logical_and (pl : ast) (l : expr) (pr : ast) (r : expr) (n : nat) : ast :=
    ASeq (ADecl n) (AIf true pl l (AIf true pr r (set_flag n) (set_flag n)) (set_flag n)).
  Definition logical_or (pl : ast) (l : expr) (pr : ast) (r : expr) (n : nat) : ast :=
    ASeq (ADecl n) (AIf true pl l (set_flag n) (AIf true pr r (set_flag n) (set_flag n))).
  Definition logical_not (p : ast) (e : expr) (n : nat) : ast :=
    ASeq (ADecl n) (AIf true p e (set_int n 0) (set_int n 1)).

  Fixpoint build_cond (c : cond) (n : nat) : ast * expr * nat :=
    match c with
    | CVal e => (ASkip, e, n)
    | CAnd l r =>
        let '(pl, l, n) := build_cond l n in
        let '(pr, r, n) := build_cond r n in
        (logical_and pl l pr r n, EVar F D n, S n)
    | COr l r =>
        let '(pl, l, n) := build_cond l n in
        let '(pr, r, n) := build_cond r n in
        (logical_or pl l pr r n, EVar F D n, S n)
    | CNot c =>
        let '(p, e, n) := build_cond c n in
        (logical_not p e n, EVar F D n, S n)
    end.

  Fixpoint build_stmt (s : stmt) (n : nat) : ast * nat :=
    match s with
    | TSkip => (ASkip, n)
    | TSeq a b => let '(a, n) := build_stmt a n in let '(b, n) := build_stmt b n in (ASeq a b, n)
    | TExp e => (AExp e, n)
    | TSet x c => let '(p, e, n) := build_cond c n in (ASeq p (AExp (EAssign F D x e)), n)
    | TBlock b => let '(b, n) := build_stmt b n in (ABlock b, n)
    | TIf unless c t e =>
        (* 2047-2092: unless is the logical not of the condition *)
        let '(p, o, n) := build_cond c n in
        let '(t, n) := build_stmt t n in
        let '(e, n) := build_stmt e n in
        if unless then (AIf false (logical_not p o n) (EVar F D n) t e, S n)
        else (AIf false p o t e, n)
    | TWhile c b =>
        (* 1999-2033 *)
        let '(p, o, n) := build_cond c n in
        let '(b, n) := build_stmt b n in
        (ALoop ASkip b ASkip p o, n)
    | TFor i c k b =>
        (* 1868-1897 *)
        let '(p, o, n) := build_cond c n in
        let '(b, n) := build_stmt b n in
        (ALoop (AExp i) b (AExp k) p o, n)
    | TNext => (ANext, n)
    | TLast => (ALast, n)
    | TReturn c => let '(p, e, n) := build_cond c n in (AReturn p e, n)
    end.

  (** The types of all the variables: those of the source, $.condition_flag and
      those of the logical operators, which are of type int. *)
  Definition all_types (T : tenv) (n n' : nat) : tenv :=
    fun x => if Nat.eqb x FLAG || (Nat.leb n x && Nat.ltb x n') then Some TInt else T x.

  (** ** Instructions *)
  Inductive linstr :=
  | LI (i : instr F D)
  | LZero (t : nty) (x : nat)                (* MOVE_T_ZERO *)
  | LCond (t : nty) (x y : nat)              (* CONDITION_EVALUATION_T *)
  | LRet (t : nty) (x : nat).                (* RETURN_T *)

  (** The instructions followed by GOTO_END_OF_METHOD_ON_EXCEPTION,
      spvm_opcode_builder.c:2216-2348. *)
  Definition throws (i : linstr) : bool :=
    match i with
    | LI (IBin _ _ b t _ _ _) =>
        match b with
        | BDiv | BMod => match t with TInt | TLong => true | _ => false end
        | BDivUInt | BDivULong | BModUInt | BModULong => true
        | _ => false
        end
    | _ => false
    end.

  (** The instructions of the method are numbered in the order of the source;
      the nodes of Code_model.v refer to them by their number, from [k] on. *)
  Fixpoint nodes (k : nat) (l : list linstr) : node :=
    match l with
    | [] => NSkip
    | i :: l => NSeq (if throws i then NTry k 0 else NDo k) (nodes (S k) l)
    end.

  (** An operand of a condition: CONDITION_EVALUATION, spvm_check.c:1614-1657,
      and its assignment to a temporary (3533), then
      spvm_opcode_builder.c:4083-4152. The result is the register the jump
      tests. *)
  Definition gen_cond (T : tenv) (m : nat) (e : expr) : option (list linstr * nat) :=
    let (o, n) := build F D e m in
    match check F D T o with
    | Some (T, o) =>
        match get_type F D T o with
        | Some t =>
            let o := promote F D t o in
            match get_type F D T o with
            | Some t =>
                let '(T, n, o) := temps F D false T n o in
                match gen F D T o, place F D o with
                | Some c, Some r =>
                    if arith_type t then
                      Some (map LI c ++ [LCond t n r; LI (IMove F D TInt FLAG n)], n)
                    else None
                | _, _ => None
                end
            | None => None
            end
        | None => None
        end
    | None => None
    end.

  (** RETURN: the operand is converted like the source of an assignment to the
      return type [rt], spvm_check.c:2419-2423. *)
  Definition gen_return (T : tenv) (m : nat) (rt : nty) (e : expr) : option (list linstr * nat) :=
    let (o, n) := build F D e m in
    match check F D T o with
    | Some (T, o) =>
        match get_type F D T o with
        | Some t =>
            match check_assign F D rt t o with
            | Some o =>
                let '(T, n, o) := temps F D false T n o in
                match gen F D T o, place F D o with
                | Some c, Some r => Some (map LI c, r)
                | _, _ => None
                end
            | None => None
            end
        | None => None
        end
    | None => None
    end.

  (** The walk of the opcode builder: the node and its instructions, which are
      numbered from [k] on. [None]: a compile error. [lp]: in a loop
      (spvm_check.c:1402-1423). *)
  Section Gen.
    Variables (T : tenv) (m : nat) (rt : nty).

    Fixpoint gen_ast (lp : bool) (k : nat) (a : ast) : option (node * list linstr) :=
      match a with
      | ASkip => Some (NSkip, [])
      | ASeq a b =>
          match gen_ast lp k a with
          | Some (na, la) =>
              match gen_ast lp (k + length la) b with
              | Some (nb, lb) => Some (NSeq na nb, la ++ lb)
              | None => None
              end
          | None => None
          end
      | AExp e =>
          match compile F D T m e with
          | Some c => let l := map LI (c_instrs F D c) in Some (nodes k l, l)
          | None => None
          end
      | ADecl x => let l := [LZero TInt x] in Some (nodes k l, l)
      | ABlock b => match gen_ast lp k b with Some (nb, l) => Some (NBlock nb, l) | None => None end
      | AIf ns p e t f =>
          match gen_ast false k p with
          | Some (np, lpre) =>
              match gen_cond T m e with
              | Some (lc, r) =>
                  match gen_ast lp (k + length (lpre ++ lc)) t with
                  | Some (nt, lt) =>
                      match gen_ast lp (k + length (lpre ++ lc ++ lt)) f with
                      | Some (nf, lf) =>
                          Some (NIf ns (NSeq np (nodes (k + length lpre) lc)) r nt nf, lpre ++ lc ++ lt ++ lf)
                      | None => None
                      end
                  | None => None
                  end
              | None => None
              end
          | None => None
          end
      | ALoop i b inc p e =>
          match gen_ast false k i with
          | Some (ni, li) =>
              match gen_ast true (k + length li) b with
              | Some (nb, lb) =>
                  match gen_ast false (k + length (li ++ lb)) inc with
                  | Some (nn, ln) =>
                      match gen_ast false (k + length (li ++ lb ++ ln)) p with
                      | Some (np, lpre) =>
                          match gen_cond T m e with
                          | Some (lc, r) =>
                              Some (NLoop ni nb nn (NSeq np (nodes (k + length (li ++ lb ++ ln ++ lpre)) lc)) r,
                                    li ++ lb ++ ln ++ lpre ++ lc)
                          | None => None
                          end
                      | None => None
                      end
                  | None => None
                  end
              | None => None
              end
          | None => None
          end
      | ANext => if lp then Some (NNext, []) else None
      | ALast => if lp then Some (NLast, []) else None
      | AReturn p e =>
          match gen_ast lp k p with
          | Some (np, lpre) =>
              match gen_return T m rt e with
              | Some (lc, r) =>
                  let l := lpre ++ lc in
                  Some (NSeq (NSeq np (nodes (k + length lpre) lc)) (NReturn (k + length l)), l ++ [LRet rt r])
              | None => None
              end
          | None => None
          end
      end.
  End Gen.

  (** A method, spvm_op.c:1544-1575: at the end, my $.return; return $.return.
      The variables of the source are below [n]. *)
  Definition gen_method (T : tenv) (n : nat) (rt : nty) (s : stmt) : option (node * list linstr) :=
    let (a, n') := build_stmt s n in
    match gen_ast (all_types T n n') n' rt false 0 a with
    | Some (b, l) =>
        let k := length l in
        Some (NSeq b (NSeq (nodes k [LZero rt n']) (NReturn (S k))), l ++ [LZero rt n'; LRet rt n'])
    | None => None
    end.

  (** ** The machine *)
  Variable fl : floats F D.
  Local Notation regs := (regs F D).

  Definition zero_val (t : nty) : val :=
    match t with
    | TFloat => VF F D (f_of_z F D fl 0)
    | TDouble => VD F D (d_of_z F D fl 0)
    | _ => VI F D 0
    end.

  (** spvm_implement.h:438-441: for int the value itself, else !!. *)
  Definition cond_val (t : nty) (v : val) : outcome val :=
    match t, v with
    | TInt, VI _ _ z => Ret (VI F D z)
    | TLong, VI _ _ z => Ret (bool_val F D (negb (z =? 0)))
    | TFloat, VF _ _ f => Ret (bool_val F D (negb (f_eq F D fl f (f_of_z F D fl 0))))
    | TDouble, VD _ _ f => Ret (bool_val F D (negb (d_eq F D fl f (d_of_z F D fl 0))))
    | _, _ => UB
    end.

  Definition lstep (R : regs) (i : linstr) : outcome regs :=
    match i with
    | LI i => step F D fl R i
    | LZero t x => Ret (rset F D R t x (zero_val t))
    | LCond t x y => let! v := cond_val t (R t y) in Ret (rset F D R TInt x v)
    | LRet _ _ => UB
    end.

  (** What the caller sees: the values of the variables at the start (the
      arguments), the returned value, the message of the exception, and
      whether there was undefined behaviour. The registers of a frame are
      [None] once there was undefined behaviour. *)
  Record world := World { w_args : regs; w_ret : option val; w_msg : option string; w_ub : bool }.

  Definition machine (tbl : list linstr) : prims world (option regs) := {|
    p_do a w R :=
      match R, nth_error tbl a with
      | Some R, Some i => match lstep R i with Ret R => (w, Some R) | _ => (w, None) end
      | _, _ => (w, None)
      end;
    p_try a w R :=
      match R, nth_error tbl a with
      | Some R, Some i =>
          match lstep R i with
          | Ret R => (w, Some R, 0)
          | Die msg => (World (w_args w) (w_ret w) (Some msg) (w_ub w), Some R, ERROR_ID)
          | _ => (w, None, 0)
          end
      | _, _ => (w, None, 0)
      end;
    p_test r R :=
      match R with
      | Some R => match R TInt r with VI _ _ z => negb (z =? 0) | _ => false end
      | None => false
      end;
    p_sel r R := 0;
    p_release v w R := (w, R);
    p_get_err v e R := R;
    p_return a w R :=
      match R, nth_error tbl a with
      | Some R, Some (LRet t x) => (World (w_args w) (Some (R t x)) (w_msg w) (w_ub w), Some R)
      | _, _ => (World (w_args w) (w_ret w) (w_msg w) true, None)
      end;
    p_clear_exc w := w;
    p_trace me line w := w;
    p_frame m w := Some (w_args w);
    p_deep w := w;
    p_enter m w := (w, None);
    p_leave m e w := w;
    p_native m w := (w, 0)
  |}.
End Float.
