(** * Variable names: local variables, scopes and class variables

    Builder/src/spvm_check.c SPVM_CHECK_check_ast_syntax, the parts for BLOCK
    (1371-1388, 2927-2952) and VAR (2976-3073) nodes, and
    SPVM_CHECK_check_class_var_access (965-1011); the trees that spvm_op.c and
    yacc/spvm_yacc.y build for statements and operators, as far as blocks and
    variables are concerned.

    Simplifications.
    - A tree keeps its BLOCK and VAR nodes; every other node is its children in
      order. The walk over first and sibling pointers is a recursion.
    - [EOp] is any operator, call or creation that puts its operands in the tree
      in source order and adds no variable: the operators that add further
      temporary variables (array initialization, special assignment, creation of
      an anonymous method; spvm_op.c 2143, 2235, 2555-2766) are not modelled, nor
      are the temporary variables of spvm_check.c (named tmp_in_method).
    - Types are left out, with "The type of %s variable is not detected"
      (spvm_check.c 3008-3011). So are the file and the line of the messages.
    - Temporary variables are numbered by a natural number; the counter is an
      int32_t, which no source text of less than 2 GB overflows. *)
From Verif Require Import Base CLib Dec Type_model Dispatch_model.
Local Open Scope Z_scope.

Definition name := list Z.

(** ** Sources. Each place where a variable is written has a number. *)
Inductive expr :=
| EConst
| EUse (l : nat) (x : name)          (* $x *)
| EMy (l : nat) (x : name)           (* my $x : T *)
| EOp (a b : expr)
| EAssign (dist src : expr)
| EAnd (a b : expr)
| EOr (a b : expr)
| ENot (a : expr).

Inductive stmt :=
| SExpr (e : expr)
| SBlock (b : stmts)
| SIf (unless : bool) (c : expr) (b : stmts) (r : els)
| SWhile (c : expr) (b : stmts)
| SFor (i c n : expr) (b : stmts)
| SForeach (l : nat) (x : name) (arr : expr) (b : stmts)   (* for my $x (arr) { b } *)
| SSwitch (c : expr) (cs : cases)
| SEval (b : stmts)
with stmts := BNil | BCons (s : stmt) (b : stmts)
with els := LNone | LElse (b : stmts) | LElsif (c : expr) (b : stmts) (r : els)
with cases := CNil | CCons (b : stmts) (cs : cases).      (* the blocks of case and default *)

(** ** Trees. A variable node has an identity: a written one its number, one that
    the compiler adds the number of the construct's temporary variable. *)
Inductive role := Tmp | Array | Length.
Inductive label := User (l : nat) | Hidden (n : nat) (r : role) | Flag | Return.

Inductive tree :=
| TNil
| TVar (is_declaration : bool) (l : label) (x : name)
| TPair (t u : tree)
| TBlock (no_scope : bool) (t : tree).

Fixpoint TList (ts : list tree) : tree :=
  match ts with [] => TNil | t :: ts' => TPair t (TList ts') end.

(** SPVM_OP_new_op_name_tmp_var (3649-3659) and the other names. *)
Definition tmp_name (n : nat) : name := bytes "$.tmp_in_op" ++ print_dec (Z.of_nat n).
Definition array_name : name := bytes "$.array".
Definition length_name : name := bytes "$.array_length".
Definition flag_name : name := bytes "$.condition_flag".
Definition return_name : name := bytes "$.return".
Definition self_name : name := bytes "$self".

Definition tmp_my (n : nat) := TVar true (Hidden n Tmp) (tmp_name n).
Definition tmp_use (n : nat) := TVar false (Hidden n Tmp) (tmp_name n).
Definition flag_use := TVar false Flag flag_name.

(** SPVM_OP_build_assign (3031-3046): the source comes first. *)
Definition assign (dist src : tree) : tree := TPair src dist.

(** SPVM_OP_build_if_statement (2047-2092), without the logical not of unless. A
    branch that is not a block gets one; [no_scope] is set on both. *)
Definition as_block (no_scope : bool) (t : tree) : tree :=
  match t with TBlock _ u => TBlock no_scope u | _ => TBlock no_scope t end.
Definition build_if (c t f : tree) (no_scope : bool) : tree :=
  TList [c; as_block no_scope t; as_block no_scope f].

(** SPVM_OP_build_logical_and (2822-2895). *)
Definition build_and (n : nat) (a b : tree) : tree :=
  TList [tmp_my n;
         build_if a (build_if b (assign (tmp_use n) flag_use) (assign (tmp_use n) flag_use) true)
                  (assign (tmp_use n) flag_use) true;
         tmp_use n].
(** SPVM_OP_build_logical_or (2897-2970). *)
Definition build_or (n : nat) (a b : tree) : tree :=
  TList [tmp_my n;
         build_if a (assign (tmp_use n) flag_use)
                  (build_if b (assign (tmp_use n) flag_use) (assign (tmp_use n) flag_use) true) true;
         tmp_use n].
(** SPVM_OP_build_logical_not (2972-3029). *)
Definition build_not (n : nat) (a : tree) : tree :=
  TList [tmp_my n; build_if a (assign (tmp_use n) TNil) (assign (tmp_use n) TNil) true; tmp_use n].

(** The actions of the grammar for operators: the operands are built first, from
    left to right, so they take their numbers first. *)
Fixpoint build_expr (e : expr) (n : nat) : tree * nat :=
  match e with
  | EConst => (TNil, n)
  | EUse l x => (TVar false (User l) x, n)
  | EMy l x => (TVar true (User l) x, n)
  | EOp a b =>
      let (ta, n) := build_expr a n in
      let (tb, n) := build_expr b n in (TPair ta tb, n)
  | EAssign d s =>
      let (td, n) := build_expr d n in
      let (ts, n) := build_expr s n in (assign td ts, n)
  | EAnd a b =>
      let (ta, n) := build_expr a n in
      let (tb, n) := build_expr b n in (build_and n ta tb, S n)
  | EOr a b =>
      let (ta, n) := build_expr a n in
      let (tb, n) := build_expr b n in (build_or n ta tb, S n)
  | ENot a =>
      let (ta, n) := build_expr a n in (build_not n ta, S n)
  end.

(** SPVM_OP_build_for_statement (1868-1897); SPVM_OP_build_while_statement
    (1999-2033) is the same with DO_NOTHING for the initialization and the
    increment. *)
Definition build_for (i c n b : tree) : tree := TBlock false (TList [i; c; b; n]).

(** SPVM_OP_build_foreach_statement (1899-1997); [b] is the list of the statements
    of the block. *)
Definition build_foreach (n : nat) (element arr b : tree) : tree :=
  let array d := TVar d (Hidden n Array) array_name in
  let len d := TVar d (Hidden n Length) length_name in
  TBlock false (TList
    [assign (array true) arr;
     assign (len true) (array false);
     build_for (assign (tmp_my n) TNil)
               (TPair (tmp_use n) (len false))
               (tmp_use n)
               (TBlock false (TPair (assign element (TPair (array false) (tmp_use n))) b))]).

(** The actions of the grammar for statements: spvm_yacc.y 700-895 (if and
    unless: 849-871, else and elsif: 873-885), SPVM_OP_build_switch_statement
    (1772-1791), SPVM_OP_build_case_statement (1807-1840), SPVM_OP_build_eval
    (1762-1770). The logical not of unless is built by build_if_statement, after
    the blocks. *)
Fixpoint build_stmt (s : stmt) (n : nat) : tree * nat :=
  match s with
  | SExpr e => build_expr e n
  | SBlock b => let (tb, n) := build_stmts b n in (TBlock false tb, n)
  | SIf unless c b r =>
      let (tc, n) := build_expr c n in
      let (tb, n) := build_stmts b n in
      let (tr, n) := build_els r n in
      let (tc, n) := if unless then (build_not n tc, S n) else (tc, n) in
      (TBlock false (build_if tc (TBlock false tb) tr false), n)
  | SWhile c b =>
      let (tc, n) := build_expr c n in
      let (tb, n) := build_stmts b n in (build_for TNil tc TNil (TBlock false tb), n)
  | SFor i c u b =>
      let (ti, n) := build_expr i n in
      let (tc, n) := build_expr c n in
      let (tu, n) := build_expr u n in
      let (tb, n) := build_stmts b n in (build_for ti tc tu (TBlock false tb), n)
  | SForeach l x arr b =>
      let (ta, n) := build_expr arr n in
      let (tb, n) := build_stmts b n in (build_foreach n (TVar true (User l) x) ta tb, S n)
  | SSwitch c cs =>
      let (tc, n) := build_expr c n in
      let (ts, n) := build_cases cs n in (TPair tc (TBlock false ts), n)
  | SEval b => let (tb, n) := build_stmts b n in (TBlock false tb, n)
  end
with build_stmts (b : stmts) (n : nat) : tree * nat :=
  match b with
  | BNil => (TNil, n)
  | BCons s b => let (ts, n) := build_stmt s n in
                 let (tb, n) := build_stmts b n in (TPair ts tb, n)
  end
with build_els (r : els) (n : nat) : tree * nat :=
  match r with
  | LNone => (TNil, n)
  | LElse b => let (tb, n) := build_stmts b n in (TBlock false tb, n)
  | LElsif c b r =>
      let (tc, n) := build_expr c n in
      let (tb, n) := build_stmts b n in
      let (tr, n) := build_els r n in (build_if tc (TBlock false tb) tr false, n)
  end
with build_cases (cs : cases) (n : nat) : tree * nat :=
  match cs with
  | CNil => (TNil, n)
  | CCons b cs => let (tb, n) := build_stmts b n in
                  let (tc, n) := build_cases cs n in (TPair (TBlock false tb) tc, n)
  end.

(** ** Methods. The places of $self, the arguments and the captured variables have
    numbers too. *)
Record method := Method {
  m_self : option nat;               (* an instance method: the place of $self *)
  m_args : list (nat * name);
  m_captures : list (nat * nat * name);   (* place of my $x, place of $self, $x *)
  m_void : bool;
  m_body : stmts
}.

(** SPVM_OP_build_method (1460-1575) and SPVM_OP_attach_anon_method_fields
    (1586-1637). Each captured variable is inserted right after the node that
    marks the place, so the last one comes first. *)
Definition build_method (m : method) (n : nat) : tree * nat :=
  let (tb, n') := build_stmts (m_body m) n in
  let args := match m_self m with Some l => [(l, self_name)] | None => [] end ++ m_args m in
  let decl '(l, x) := TVar true (User l) x in
  let capture '(l, ls, x) := assign (TVar true (User l) x) (TVar false (User ls) self_name) in
  (TBlock false (TList
    [TVar true Flag flag_name;
     TList (map decl args);
     TList (map capture (rev (m_captures m)));
     tb;
     if m_void m then TNil else TVar true Return return_name]), n').

(** ** Class variables: the variables of each class by name. *)
Definition classes := list (name * list name).
Inductive target := Local (l : label) | ClassVar (c x : name).

Inductive error := Redeclaration (x : name) | Not_found (x : name) | No_access (c x : name)
| Colons | Undefined.
Inductive result (A : Type) := Good (a : A) | Fail (e : error).
Arguments Good {A}. Arguments Fail {A}.

Section Check.
  Variable cs : classes.
  (** current_basic_type->name, or outmost_basic_type_name for the type of an
      anonymous method. *)
  Variable current : name.
  (** can_access or is_allowed (Access_model.v). *)
  Variable accessible : name -> name -> bool.

  (** SPVM_HASH_get on basic_type_symtable and class_var_symtable. *)
  Fixpoint get_class (l : classes) (c : name) : option (list name) :=
    match l with
    | [] => None
    | (c', vs) :: l => if name_eqb c' c then Some vs else get_class l c
    end.
  Fixpoint get_var (l : list name) (x : name) : bool :=
    match l with [] => false | y :: l => if name_eqb y x then true else get_var l x end.

  (** spvm_check.c:965-1011 [SPVM_CHECK_check_class_var_access]. A colon at the
      index 0 or 1 gives memcpy a negative length. *)
  Definition class_var (x : name) : result (option (name * name)) :=
    let search c y := match get_class cs c with
                      | Some vs => if get_var vs y then Good (Some (c, y)) else Good None
                      | None => Good None
                      end in
    match strrchr x 58 0 None with
    | Some i => if i <? 2 then Fail Undefined
                else search (zsub x 1 (i - 2)) (36 :: zdrop (i + 1) x)
    | None => search current x
    end.

  (** var_decl_stack in the order of the pushes, var_decl_scope_base_stack with
      the last pushed first, and what each variable node was resolved to. *)
  Record state := State { stack : list (name * label); bases : list Z; out : list (label * target) }.

  (** spvm_check.c:2985-2995: the first declaration of the name from the base on. *)
  Fixpoint redeclared (l : list (name * label)) (x : name) : bool :=
    match l with
    | [] => false
    | (y, _) :: l => if name_eqb x y then negb (is_prefix (bytes "$.") x) else redeclared l x
    end.
  (** spvm_check.c:3018-3025: from the top of the stack. *)
  Fixpoint search (l : list (name * label)) (x : name) : option label :=
    match l with
    | [] => None
    | (y, d) :: l => if name_eqb x y then Some d else search l x
    end.

  (** spvm_check.c:3014-3073. *)
  Definition resolve (x : name) (l : label) (s : state) : result state :=
    match search (rev (stack s)) x with
    | Some d => Good (State (stack s) (bases s) (out s ++ [(l, Local d)]))
    | None =>
        match class_var x with
        | Fail e => Fail e
        | Good None => Fail (Not_found x)
        | Good (Some (c, y)) =>
            if accessible c y then Good (State (stack s) (bases s) (out s ++ [(l, ClassVar c y)]))
            else Fail (No_access c y)
        end
    end.

  (** spvm_check.c:2978-3005; reading the base stack when it is empty is a read
      before the array. *)
  Definition declare (x : name) (l : label) (s : state) : result state :=
    match bases s with
    | [] => Fail Undefined
    | b :: _ =>
        if redeclared (zdrop b (stack s)) x then Fail (Redeclaration x)
        else resolve x l (State (stack s ++ [(x, l)]) (bases s) (out s))
    end.

  Fixpoint walk (t : tree) (s : state) : result state :=
    match t with
    | TNil => Good s
    | TVar true l x => declare x l s
    | TVar false l x => resolve x l s
    | TPair t u => match walk t s with Good s => walk u s | Fail e => Fail e end
    | TBlock true t => walk t s
    | TBlock false t =>
        match walk t (State (stack s) (zlen (stack s) :: bases s) (out s)) with
        | Fail e => Fail e
        | Good s => match bases s with
                    | [] => Fail Undefined
                    | b :: bs => Good (State (ztake (zlen (stack s) - (zlen (stack s) - b)) (stack s)) bs (out s))
                    end
        end
    end.

  (** SPVM_OP_build_var_decl (2417-2419): the message is there when the parser
      ends, and then the check does not run (spvm_compiler.c). *)
  Fixpoint colons (t : tree) : bool :=
    match t with
    | TNil => false
    | TVar d _ x => d && strstr x (bytes "::")
    | TPair t u => colons t || colons u
    | TBlock _ t => colons t
    end.

  Definition check_method (m : method) (n : nat) : result (list (label * target)) :=
    let (t, _) := build_method m n in
    if colons t then Fail Colons
    else match walk t (State [] [] []) with
         | Good s => Good (out s)
         | Fail e => Fail e
         end.
End Check.
