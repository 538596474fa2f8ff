(** * Statements to opcodes: the control-flow part of the opcode builder, and
      the virtual machine that runs the result *)

From Coq Require Export List ZArith Bool Lia Arith.
Import ListNotations.

(** ** Statements

    lib/SPVM/Builder/src/spvm_op.c:1762-2095: the statement trees handed to the
    opcode builder, after the checks in spvm_check.c gave every operator result
    a variable. Expressions are sequences of the first seven forms. *)
Inductive node :=
| NSkip
| NSeq (a b : node)
| NDo (a : nat)                     (* an opcode that cannot fail *)
| NTry (a line : nat)               (* an opcode that may set error_id, [die] included *)
| NCall (m line : nat)              (* a method call *)
| NDecl (v : nat)                   (* the declaration of an object variable, temporaries included *)
| NGetErr (v : nat)                 (* eval_error_id *)
| NReturn (a : nat)
| NNext
| NLast
| NBreak
| NBlock (b : node)                 (* { ... } *)
| NIf (no_scope : bool) (c : node) (r : nat) (t e : node)
    (* no_scope = 1 for the operands of &&, || and ! (spvm_op.c:2840-3030) *)
| NLoop (init body inc c : node) (r : nat)
    (* in the order of the tree after spvm_check.c:3757-3770 *)
| NEval (b : node)
| NSwitch (c : node) (r : nat) (cs : cases)
with cases :=
| CDefault (b : node)
    (* spvm_check.c:1552-1562 adds "default: {}" if there is none *)
| CLabel (v : Z) (cs : cases)       (* case v: *)
| CCase (v : Z) (b : node) (cs : cases).  (* case v: { ... } *)

(** spvm_op.c:1815-1836: a break is added at the end of a case block
    unless its last statement is one. *)
Fixpoint ends_break (n : node) : bool :=
  match n with
  | NBreak => true
  | NSeq _ b => ends_break b
  | _ => false
  end.

(** spvm_check.c:3626-3720: has_object_var_decls of a block. *)
Fixpoint has_decl (n : node) : bool :=
  match n with
  | NDecl _ => true
  | NSeq a b => has_decl a || has_decl b
  | NBlock b | NEval b => has_decl b
  | NIf _ c _ t e => has_decl c || has_decl t || has_decl e
  | NLoop i b n c _ => has_decl i || has_decl b || has_decl n || has_decl c
  | NSwitch c _ cs => has_decl c || has_decl_cases cs
  | _ => false
  end
with has_decl_cases (cs : cases) : bool :=
  match cs with
  | CDefault b => has_decl b
  | CLabel _ cs => has_decl_cases cs
  | CCase _ b cs => has_decl b || has_decl_cases cs
  end.

(** ** Opcodes

    include/spvm_opcode.h; one constructor for each kind of opcode, the jump
    target being operand0 (operand1 for the RETURN opcodes). [T] is the type of jump
    targets, [nat] in the real code. *)
Inductive op (T : Type) :=
| ODo (a : nat)
| OTry (a : nat)
| OCall (m : nat)
| OGetErr (v : nat)
| OPush (v : nat)                   (* PUSH_MORTAL *)
| OLeave (n : nat)                  (* LEAVE_SCOPE *)
| OClearErr                         (* CLEAR_EVAL_ERROR_ID *)
| OExcUndef                         (* SET_EXCEPTION_VAR_UNDEF *)
| OGoto (t : T)
| OIfEq (t : T) (r : nat)           (* IF_EQ_ZERO *)
| OIfNe (t : T) (r : nat)           (* IF_NE_ZERO *)
| OExcEval (t : T) (line : nat)     (* GOTO_END_OF_EVAL_ON_EXCEPTION *)
| OExcMethod (t : T) (line : nat)   (* GOTO_END_OF_METHOD_ON_EXCEPTION *)
| OReturn (t : T) (a : nat)         (* RETURN_INT, ... *)
| OSwitch (r dflt : nat) (tbl : list (Z * nat))
    (* LOOKUP_SWITCH with the operands of the CASE_INFO opcodes that follow it;
       C18_switch proves that the real sorted table and its binary search give
       the same target as this list *)
| OCaseInfo                         (* CASE_INFO, never executed *)
| OEnd.                             (* END_METHOD *)
Arguments ODo {T}. Arguments OTry {T}. Arguments OCall {T}. Arguments OGetErr {T}.
Arguments OPush {T}. Arguments OLeave {T}. Arguments OClearErr {T}. Arguments OExcUndef {T}.
Arguments OGoto {T}. Arguments OIfEq {T}. Arguments OIfNe {T}. Arguments OExcEval {T}.
Arguments OExcMethod {T}. Arguments OReturn {T}. Arguments OSwitch {T}.
Arguments OCaseInfo {T}. Arguments OEnd {T}.

Definition map_op {A B : Type} (f : A -> B) (o : op A) : op B :=
  match o with
  | ODo a => ODo a | OTry a => OTry a | OCall m => OCall m | OGetErr v => OGetErr v
  | OPush v => OPush v | OLeave n => OLeave n | OClearErr => OClearErr | OExcUndef => OExcUndef
  | OGoto t => OGoto (f t) | OIfEq t r => OIfEq (f t) r | OIfNe t r => OIfNe (f t) r
  | OExcEval t l => OExcEval (f t) l | OExcMethod t l => OExcMethod (f t) l
  | OReturn t a => OReturn (f t) a
  | OSwitch r d tbl => OSwitch r d tbl | OCaseInfo => OCaseInfo | OEnd => OEnd
  end.

(** Writing a jump operand of an opcode already in the list
    ((opcode_list->values + i)->operand0 = t). *)
Definition set_target (t : nat) (o : op nat) : op nat := map_op (fun _ => t) o.
Fixpoint upd {A} (l : list A) (i : nat) (f : A -> A) : list A :=
  match l, i with
  | [], _ => []
  | x :: l, O => f x :: l
  | x :: l, S i => x :: upd l i f
  end.
Definition patch1 (t : nat) (code : list (op nat)) (i : nat) : list (op nat) :=
  upd code i (set_target t).

(** ** The opcode builder

    spvm_opcode_builder.c:230-270: its stacks. The top of a stack is the head
    of the list. switch_stack_switch_info and block_stack_typed_var_index_top
    follow the recursion of [gen] below and are not kept separately. *)
Record gs := mkgs {
  code : list (op nat);      (* opcode_list *)
  ifeq : list nat;           (* if_eq_or_if_ne_opcode_index_stack *)
  ifend : list nat;          (* if_block_stack_goto_end_opcode_index *)
  loopgoto : list nat;       (* loop_block_stack_goto_opcode_index *)
  lastb : list nat;          (* loop_block_stack_last_base *)
  lasts : list nat;          (* last_opcode_index_stack *)
  nextb : list nat;          (* loop_block_stack_next_base *)
  nexts : list nat;          (* next_opcode_index_stack *)
  brkb : list nat;           (* switch_block_stack_break_base *)
  brks : list nat;           (* break_opcode_index_stack *)
  evals : list nat;          (* eval_block_stack_goto_opcode_index *)
  exce : list nat;           (* goto_end_of_eval_on_exception_opcode_index_stack *)
  excm : list nat;           (* goto_end_of_method_on_exception_opcode_index_stack *)
  rets : list nat;           (* return_opcode_index_stack *)
  mortal : nat;              (* mortal_stack->length, at compile time *)
  total : nat                (* mortal_stack_top *)
}.

Definition gs0 : gs := mkgs [] [] [] [] [] [] [] [] [] [] [] [] [] [] 0 0.

Definition w_code c g := mkgs c (ifeq g) (ifend g) (loopgoto g) (lastb g) (lasts g) (nextb g) (nexts g) (brkb g) (brks g) (evals g) (exce g) (excm g) (rets g) (mortal g) (total g).
Definition w_ifeq x g := mkgs (code g) x (ifend g) (loopgoto g) (lastb g) (lasts g) (nextb g) (nexts g) (brkb g) (brks g) (evals g) (exce g) (excm g) (rets g) (mortal g) (total g).
Definition w_ifend x g := mkgs (code g) (ifeq g) x (loopgoto g) (lastb g) (lasts g) (nextb g) (nexts g) (brkb g) (brks g) (evals g) (exce g) (excm g) (rets g) (mortal g) (total g).
Definition w_loopgoto x g := mkgs (code g) (ifeq g) (ifend g) x (lastb g) (lasts g) (nextb g) (nexts g) (brkb g) (brks g) (evals g) (exce g) (excm g) (rets g) (mortal g) (total g).
Definition w_last b x g := mkgs (code g) (ifeq g) (ifend g) (loopgoto g) b x (nextb g) (nexts g) (brkb g) (brks g) (evals g) (exce g) (excm g) (rets g) (mortal g) (total g).
Definition w_next b x g := mkgs (code g) (ifeq g) (ifend g) (loopgoto g) (lastb g) (lasts g) b x (brkb g) (brks g) (evals g) (exce g) (excm g) (rets g) (mortal g) (total g).
Definition w_brk b x g := mkgs (code g) (ifeq g) (ifend g) (loopgoto g) (lastb g) (lasts g) (nextb g) (nexts g) b x (evals g) (exce g) (excm g) (rets g) (mortal g) (total g).
Definition w_evals x g := mkgs (code g) (ifeq g) (ifend g) (loopgoto g) (lastb g) (lasts g) (nextb g) (nexts g) (brkb g) (brks g) x (exce g) (excm g) (rets g) (mortal g) (total g).
Definition w_exce x g := mkgs (code g) (ifeq g) (ifend g) (loopgoto g) (lastb g) (lasts g) (nextb g) (nexts g) (brkb g) (brks g) (evals g) x (excm g) (rets g) (mortal g) (total g).
Definition w_excm x g := mkgs (code g) (ifeq g) (ifend g) (loopgoto g) (lastb g) (lasts g) (nextb g) (nexts g) (brkb g) (brks g) (evals g) (exce g) x (rets g) (mortal g) (total g).
Definition w_rets x g := mkgs (code g) (ifeq g) (ifend g) (loopgoto g) (lastb g) (lasts g) (nextb g) (nexts g) (brkb g) (brks g) (evals g) (exce g) (excm g) x (mortal g) (total g).
Definition w_mortal m t g := mkgs (code g) (ifeq g) (ifend g) (loopgoto g) (lastb g) (lasts g) (nextb g) (nexts g) (brkb g) (brks g) (evals g) (exce g) (excm g) (rets g) m t.

Definition here (g : gs) : nat := length (code g).
(** SPVM_OPCODE_LIST_push_opcode. *)
Definition emit (o : op nat) (g : gs) : gs := w_code (code g ++ [o]) g.
Definition top (l : list nat) : nat := hd 0 l.

(** Pop entries until the stack has length [base] and point each opcode at
    the current end of the list (spvm_opcode_builder.c:401-455). *)
Fixpoint patch_pop (count : nat) (stk : list nat) (t : nat) (c : list (op nat))
  : list nat * list (op nat) :=
  match count, stk with
  | S k, i :: stk => patch_pop k stk t (patch1 t c i)
  | _, _ => (stk, c)
  end.

(** spvm_opcode_builder.c:5115-5155; new opcodes are zeroed. *)
Definition emit_exc (line : nat) (g : gs) : gs :=
  match evals g with
  | _ :: _ => w_exce (here g :: exce g) (emit (OExcEval 0 line) g)
  | [] => w_excm (here g :: excm g) (emit (OExcMethod 0 line) g)
  end.

(** spvm_opcode_builder.c:329-330 and 463-487, around a block: LEAVE_SCOPE if
    the block needs it, and the compile-time mortal stack is cut back to its
    length at the start of the block. *)
Definition end_block (need : bool) (m0 : nat) (g : gs) : gs :=
  let g := if need then emit (OLeave m0) g else g in
  w_mortal (Nat.min m0 (mortal g)) (total g) g.

Fixpoint count_cases (cs : cases) : nat :=
  match cs with
  | CDefault _ => 0
  | CLabel _ cs | CCase _ _ cs => S (count_cases cs)
  end.

(** CONDITION, spvm_opcode_builder.c:503-545. *)
Definition cond_if (r : nat) (g : gs) : gs :=
  w_ifeq (here g :: ifeq g) (emit (OIfEq 0 r) g).

(** The end of a block IF, 371-386. *)
Definition end_true (need : bool) (m0 : nat) (g : gs) : gs :=
  let g := w_ifend (here g :: ifend g) (emit (OGoto 0) g) in
  let g := w_code (patch1 (here g) (code g) (top (ifeq g))) g in
  end_block need m0 (w_ifeq (tl (ifeq g)) g).

(** The end of a block ELSE, 387-396. *)
Definition end_else (need : bool) (m0 : nat) (g : gs) : gs :=
  let g := w_code (patch1 (here g) (code g) (top (ifend g))) g in
  end_block need m0 (w_ifend (tl (ifend g)) g).

(** The start of a block LOOP_INIT, 290-294. *)
Definition start_loop (g : gs) : gs := w_last (length (lasts g) :: lastb g) (lasts g) g.

(** The start of a block LOOP_STATEMENTS, 295-311. *)
Definition start_body (g : gs) : gs :=
  let g := w_next (length (nexts g) :: nextb g) (nexts g) g in
  w_loopgoto (here g :: loopgoto g) (emit (OGoto 0) g).

(** The end of a block LOOP_STATEMENTS, 412-425. *)
Definition end_body (need : bool) (m0 : nat) (g : gs) : gs :=
  let base := top (nextb g) in
  let '(stk, c) := patch_pop (length (nexts g) - base) (nexts g) (here g) (code g) in
  end_block need m0 (w_code c (w_next (tl (nextb g)) stk g)).

(** LOOP_INCREMENT, 492-501. *)
Definition end_inc (g : gs) : gs := w_code (patch1 (here g) (code g) (top (loopgoto g))) g.

(** CONDITION_NOT of a loop, 503-545. *)
Definition cond_loop (r : nat) (g : gs) : gs :=
  let j := top (loopgoto g) in
  emit (OIfNe (j + 1) r) (w_loopgoto (tl (loopgoto g)) g).

(** The end of a block LOOP_INIT, 397-411. *)
Definition end_loop (need : bool) (m0 : nat) (g : gs) : gs :=
  let base := top (lastb g) in
  let '(stk, c) := patch_pop (length (lasts g) - base) (lasts g) (here g) (code g) in
  end_block need m0 (w_code c (w_last (tl (lastb g)) stk g)).

(** The start of a block EVAL, 317-334. *)
Definition start_eval (g : gs) : gs :=
  emit OExcUndef (emit OClearErr (w_evals (here g :: evals g) g)).

(** The end of a block EVAL, 440-451: the whole stack is patched. *)
Definition end_eval (need : bool) (m0 : nat) (g : gs) : gs :=
  let '(stk, c) := patch_pop (length (exce g)) (exce g) (here g) (code g) in
  end_block need m0 (w_evals (tl (evals g)) (w_code c (w_exce stk g))).

(** SWITCH_CONDITION, 588-623, and the start of a block SWITCH, 312-316. *)
Definition start_switch (r n : nat) (g : gs) : gs :=
  let g := emit (OSwitch r 0 []) g in
  let g := w_code (code g ++ repeat OCaseInfo n) g in
  w_brk (length (brks g) :: brkb g) (brks g) g.

(** The end of a block SWITCH, 426-439. *)
Definition end_switch (need : bool) (m0 : nat) (g : gs) : gs :=
  let base := top (brkb g) in
  let '(stk, c) := patch_pop (length (brks g) - base) (brks g) (here g) (code g) in
  end_block need m0 (w_code c (w_brk (tl (brkb g)) stk g)).

(** BREAK, 624-634. *)
Definition gen_break (g : gs) : gs := w_brk (brkb g) (here g :: brks g) (emit (OGoto 0) g).

(** spvm_opcode_builder.c:279-5098: the traversal of the statements of a
    method, restricted to control flow. *)
Fixpoint gen (n : node) (g : gs) {struct n} : gs :=
  match n with
  | NSkip => g
  | NSeq a b => gen b (gen a g)
  | NDo a => emit (ODo a) g
  | NTry a line => emit_exc line (emit (OTry a) g)
  | NCall m line => emit_exc line (emit (OCall m) g)
  | NDecl v => (* 788-806 *)
      let g := emit (OPush v) g in
      w_mortal (S (mortal g)) (S (total g)) g
  | NGetErr v => emit (OGetErr v) g
  | NReturn a => (* 635-760 *)
      w_rets (here g :: rets g) (emit (OReturn 0 a) g)
  | NNext => (* 546-559 *)
      w_next (nextb g) (here g :: nexts g) (emit (OGoto 0) g)
  | NLast => (* 560-573 *)
      w_last (lastb g) (here g :: lasts g) (emit (OGoto 0) g)
  | NBreak => gen_break g
  | NBlock b => end_block (has_decl b) (mortal g) (gen b g)
  | NIf ns c r t e =>
      let g := cond_if r (gen c g) in
      let g := end_true (has_decl t && negb ns) (mortal g) (gen t g) in
      end_else (has_decl e && negb ns) (mortal g) (gen e g)
  | NLoop init body inc c r =>
      let m0 := mortal g in
      let g := start_body (gen init (start_loop g)) in
      let g := end_body (has_decl body) (mortal g) (gen body g) in
      let g := end_inc (gen inc g) in
      let g := cond_loop r (gen c g) in
      end_loop (has_decl init || has_decl body || has_decl inc || has_decl c) m0 g
  | NEval b => end_eval (has_decl b) (mortal g) (gen b (start_eval g))
  | NSwitch c r cs =>
      let g := gen c g in
      let i := here g in
      let m0 := mortal g in
      let '(g, tbl, dflt) := gen_cases cs (start_switch r (count_cases cs) g) in
      let g := end_switch (has_decl_cases cs) m0 g in
      (* SWITCH, 562-586 *)
      w_code (upd (code g) i (fun _ => OSwitch r dflt tbl)) g
  end
(** CASE and DEFAULT, 339-358; the recorded goto_opcode_index of each case
    and the default_opcode_index. *)
with gen_cases (cs : cases) (g : gs) {struct cs} : gs * list (Z * nat) * nat :=
  match cs with
  | CDefault b => (end_block (has_decl b) (mortal g) (gen b g), [], here g)
  | CLabel v cs =>
      let '(g', tbl, d) := gen_cases cs g in
      (g', (v, here g) :: tbl, d)
  | CCase v b cs =>
      let g1 := if ends_break b then gen b g else gen_break (gen b g) in
      let '(g', tbl, d) := gen_cases cs (end_block (has_decl b) (mortal g) g1) in
      (g', (v, here g) :: tbl, d)
  end.

(** The method block: spvm_opcode_builder.c:452-471, END_METHOD and
    mortal_stack_length (5089-5099). *)
Definition compile (b : node) : list (op nat) * nat :=
  let g := gen b gs0 in
  let '(_, c) := patch_pop (length (rets g)) (rets g) (here g) (code g) in
  let '(_, c) := patch_pop (length (excm g)) (excm g) (here g) c in
  let g := w_code c g in
  let g := end_block (has_decl b) 0 g in
  (code g ++ [OEnd], total g + 1).

(** ** The virtual machine

    [G] is everything outside the frame of a running method (objects, class
    variables, $@, the stack for arguments and return values), [R] the
    variables of a method. What an opcode other than those of control flow
    does to them is left open. *)
Record prims (G R : Type) := {
  p_do : nat -> G -> R -> G * R;
  p_try : nat -> G -> R -> G * R * Z;        (* with the new error_id, 0 if none *)
  p_test : nat -> R -> bool;                 (* int_vars[r] != 0 *)
  p_sel : nat -> R -> Z;                     (* int_vars[r] *)
  p_release : nat -> G -> R -> G * R;        (* assign undef to object_vars[v] *)
  p_get_err : nat -> Z -> R -> R;
  p_return : nat -> G -> R -> G * R;
  p_clear_exc : G -> G;                      (* $@ = undef *)
  p_trace : nat -> nat -> G -> G;            (* add method and line to $@ *)
  p_frame : nat -> G -> R;                   (* the initial variables of a method *)
  p_deep : G -> G;                           (* $@ = "Deep recursion occurs. ..." *)
  p_enter : nat -> G -> G * option Z;
    (* spvm_api.c:4812-4868: the checks of the arguments (Some error id), an
       INIT method that was run before (Some 0); None: run the method *)
  p_leave : nat -> Z -> G -> G;              (* spvm_vm.c:2398-2413 *)
  p_native : nat -> G -> G * Z
}.
Arguments p_do {G R}. Arguments p_try {G R}. Arguments p_test {G R}. Arguments p_sel {G R}.
Arguments p_release {G R}. Arguments p_get_err {G R}. Arguments p_return {G R}.
Arguments p_clear_exc {G R}. Arguments p_trace {G R}. Arguments p_frame {G R}.
Arguments p_deep {G R}. Arguments p_enter {G R}. Arguments p_leave {G R}. Arguments p_native {G R}.

(** SPVM_NATIVE_C_BASIC_TYPE_ID_ERROR_CLASS, the error id of SPVM_API_die. *)
Definition ERROR_ID : Z := 18.
Definition MAX_DEPTH : Z := 1000.

Section Machine.
Variables G R : Type.
Variable P : prims G R.

(** spvm_vm.c:49-170: the state of a frame, and the call depth
    (stack[SPVM_API_C_STACK_INDEX_CALL_DEPTH]). The entries of mortal_stack
    up to mortal_stack_top are the list [mort]. *)
Record vst := mkv {
  pc : nat; dep : Z; gl : G; rg : R; err : Z; eerr : Z; mort : list nat
}.

Inductive vres :=
| VRet (e : Z) (dep : Z) (g : G)
| VFuel
| VUB                                  (* outside the code or the mortal stack *)
| VNest.                               (* more nested C calls than allowed for *)

(** SPVM_API_leave_scope_local, spvm_api.c:4946-4957. *)
Definition release_all (vs : list nat) (g : G) (r : R) : G * R :=
  fold_left (fun '(g, r) v => p_release P v g r) vs (g, r).

Fixpoint find_case (v : Z) (tbl : list (Z * nat)) (d : nat) : nat :=
  match tbl with
  | [] => d
  | (w, t) :: tbl => if Z.eqb v w then t else find_case v tbl d
  end.

(** The opcodes and mortal_stack_length of each method; [None] for a native
    method. *)
Variable cprog : nat -> option (list (op nat) * nat).

(** spvm_vm.c:171-2396, the opcodes of control flow, and
    SPVM_API_call_method_common (spvm_api.c:4792-4897) for method calls.
    [nest] bounds the nesting of C calls. *)
Fixpoint exec (k nest : nat) (me : nat) (C : list (op nat)) (cap : nat) (s : vst) {struct k} : vres :=
  match k with
  | O => VFuel
  | S k =>
      let go p s := exec k nest me C cap (mkv p (dep s) (gl s) (rg s) (err s) (eerr s) (mort s)) in
      let next s := go (S (pc s)) s in
      match nth_error C (pc s) with
      | None => VUB
      | Some o =>
          match o with
          | ODo a =>
              let '(g, r) := p_do P a (gl s) (rg s) in
              next (mkv (pc s) (dep s) g r (err s) (eerr s) (mort s))
          | OTry a =>
              let '(g, r, e) := p_try P a (gl s) (rg s) in
              next (mkv (pc s) (dep s) g r (if Z.eqb e 0 then err s else e) (eerr s) (mort s))
          | OGetErr v =>
              next (mkv (pc s) (dep s) (gl s) (p_get_err P v (eerr s) (rg s)) (err s) (eerr s) (mort s))
          | OPush v =>
              if length (mort s) <? cap
              then next (mkv (pc s) (dep s) (gl s) (rg s) (err s) (eerr s) (mort s ++ [v]))
              else VUB
          | OLeave m =>
              if m <=? length (mort s)
              then let '(g, r) := release_all (skipn m (mort s)) (gl s) (rg s) in
                   next (mkv (pc s) (dep s) g r (err s) (eerr s) (firstn m (mort s)))
              else VUB (* stale entries of the array *)
          | OClearErr => next (mkv (pc s) (dep s) (gl s) (rg s) (err s) 0 (mort s))
          | OExcUndef => next (mkv (pc s) (dep s) (p_clear_exc P (gl s)) (rg s) (err s) (eerr s) (mort s))
          | OGoto t => go t s
          | OIfEq t r => if p_test P r (rg s) then next s else go t s
          | OIfNe t r => if p_test P r (rg s) then go t s else next s
          | OExcEval t line =>
              if Z.eqb (err s) 0 then next s
              else go t (mkv (pc s) (dep s) (p_trace P me line (gl s)) (rg s) 0 (err s) (mort s))
          | OExcMethod t line =>
              if Z.eqb (err s) 0 then next s
              else go t (mkv (pc s) (dep s) (p_trace P me line (gl s)) (rg s) (err s) (eerr s) (mort s))
          | OReturn t a =>
              let '(g, r) := p_return P a (gl s) (rg s) in
              go t (mkv (pc s) (dep s) g r (err s) (eerr s) (mort s))
          | OSwitch r d tbl => go (find_case (p_sel P r (rg s)) tbl d) s
          | OCaseInfo => VUB
          | OEnd => VRet (err s) (dep s) (p_leave P me (err s) (gl s))
          | OCall m =>
              let back e d g := next (mkv (pc s) (d - 1)%Z g (rg s) e (eerr s) (mort s)) in
              let d := (dep s + 1)%Z in
              if Z.ltb MAX_DEPTH d then back ERROR_ID d (p_deep P (gl s))
              else
                let '(g, pre) := p_enter P m (gl s) in
                match pre with
                | Some e => back e d g
                | None =>
                    match cprog m with
                    | None => let '(g, e) := p_native P m g in back e d g
                    | Some (C', cap') =>
                        match nest with
                        | O => VNest
                        | S nest =>
                            match exec k nest m C' cap' (mkv 0 d g (p_frame P m g) 0 0 []) with
                            | VRet e d g => back e d g
                            | bad => bad
                            end
                        end
                    end
                end
          end
      end
  end.

(** A call from outside (SPVM_API_call_method, env->call_method), at call
    depth [d]: the error id, the call depth afterwards and the state. *)
Definition vm_call (k nest : nat) (d : Z) (m : nat) (g : G) : vres :=
  let d := (d + 1)%Z in
  if Z.ltb MAX_DEPTH d then VRet ERROR_ID (d - 1) (p_deep P g)
  else
    let '(g, pre) := p_enter P m g in
    match pre with
    | Some e => VRet e (d - 1) g
    | None =>
        match cprog m with
        | None => let '(g, e) := p_native P m g in VRet e (d - 1) g
        | Some (C, cap) =>
            match nest with
            | O => VNest
            | S nest =>
                match exec k nest m C cap (mkv 0 d g (p_frame P m g) 0 0 []) with
                | VRet e d g => VRet e (d - 1) g
                | bad => bad
                end
            end
        end
    end.
End Machine.
Arguments VRet {G}. Arguments VFuel {G}. Arguments VUB {G}. Arguments VNest {G}.
Arguments mkv {G R}. Arguments exec {G R}. Arguments vm_call {G R}.
Arguments release_all {G R}.
Arguments pc {G R}. Arguments dep {G R}. Arguments gl {G R}. Arguments rg {G R}.
Arguments err {G R}. Arguments eerr {G R}. Arguments mort {G R}.
