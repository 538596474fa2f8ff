(** * What a variable name means (C66)

    This file mentions the sources and the results of Names_model.v, and nothing
    else of it. Reading a method from its start to its end, in the order in which
    it is executed, one meets the following. *)
From Coq Require Import List ZArith.
From Verif Require Import Base CLib Names_model.
Import ListNotations.

Inductive event :=
| Open                          (* a block begins *)
| Close                         (* it ends *)
| Decl (l : nat) (x : name)     (* my $x, at the place l *)
| Use (l : nat) (x : name).     (* $x, at the place l *)

(** The right side of an assignment comes before its left side. *)
Fixpoint expr_events (e : expr) : list event :=
  match e with
  | EConst => []
  | EUse l x => [Use l x]
  | EMy l x => [Decl l x]
  | EOp a b | EAnd a b | EOr a b => expr_events a ++ expr_events b
  | EAssign d s => expr_events s ++ expr_events d
  | ENot a => expr_events a
  end.

Definition block (es : list event) : list event := Open :: es ++ [Close].

(** Statements.pm: if and while statements are enclosed by an invisible block, and
    so are for and foreach statements; an elsif is an if statement in an else
    block. A foreach statement is a for statement in a block that evaluates the
    array. A switch statement is not enclosed. *)
Fixpoint stmt_events (s : stmt) : list event :=
  match s with
  | SExpr e => expr_events e
  | SBlock b | SEval b => block (stmts_events b)
  | SIf _ c b r => block (expr_events c ++ block (stmts_events b) ++ block (els_events r))
  | SWhile c b => block (expr_events c ++ block (stmts_events b))
  | SFor i c n b => block (expr_events i ++ expr_events c ++ block (stmts_events b) ++ expr_events n)
  | SForeach l x arr b => block (expr_events arr ++ block (block (Decl l x :: stmts_events b)))
  | SSwitch c cs => expr_events c ++ block (cases_events cs)
  end
with stmts_events (b : stmts) : list event :=
  match b with
  | BNil => []
  | BCons s b => stmt_events s ++ stmts_events b
  end
with els_events (r : els) : list event :=
  match r with
  | LNone => []
  | LElse b => stmts_events b
  | LElsif c b r => expr_events c ++ block (stmts_events b) ++ block (els_events r)
  end
with cases_events (cs : cases) : list event :=
  match cs with
  | CNil => []
  | CCons b cs => block (stmts_events b) ++ cases_events cs
  end.

Definition dollar_self : name := bytes "$self".

(** The invocant and the arguments are declared in the block of the method; then
    each captured variable, the last one first, from $self. *)
Definition method_events (m : method) : list event :=
  block (match m_self m with Some l => [Decl l dollar_self] | None => [] end
         ++ map (fun '(l, x) => Decl l x) (m_args m)
         ++ flat_map (fun '(l, ls, x) => [Use ls dollar_self; Decl l x]) (rev (m_captures m))
         ++ stmts_events (m_body m)).

(** Between a declaration and a later place: the block of the declaration has not
    ended if at no point more blocks have ended than have begun. *)
Definition is_open (e : event) : bool := match e with Open => true | _ => false end.
Definition is_close (e : event) : bool := match e with Close => true | _ => false end.
Definition count (f : event -> bool) (es : list event) : nat := length (filter f es).
Definition stays (es : list event) : Prop :=
  forall q r, es = q ++ r -> (count is_close q <= count is_open q)%nat.
(** And the later place is in that very block. *)
Definition same_block (es : list event) : Prop := stays es /\ count is_close es = count is_open es.

(** [pre] is what comes before a place. There, the name [x] refers to the last
    declaration of [x] whose block has not ended. *)
Definition visible (pre : list event) (x : name) (l : nat) : Prop :=
  exists p1 p2, pre = p1 ++ Decl l x :: p2 /\ stays p2.
Definition refers (pre : list event) (x : name) (l : nat) : Prop :=
  exists p1 p2, pre = p1 ++ Decl l x :: p2 /\ stays p2 /\
    forall q1 q2 l', p2 = q1 ++ Decl l' x :: q2 -> ~ stays q2.
(** It cannot be declared again in the same block. *)
Definition declared_in_block (pre : list event) (x : name) : Prop :=
  exists p1 p2 l, pre = p1 ++ Decl l x :: p2 /\ same_block p2.

(** The class variable that a name denotes if no local variable does: $x is the
    variable $x of the current class, $C::x the variable $x of the class C. *)
Definition colon : Z := 58.
Definition dollar : Z := 36.
Definition denotes (current : name) (x c y : name) : Prop :=
  (~ In colon x /\ c = current /\ y = x)
  \/ exists v, ~ In colon v /\ x = dollar :: c ++ [colon; colon] ++ v /\ y = dollar :: v.
Definition defined (cs : classes) (c y : name) : Prop :=
  exists vs, In (c, vs) cs /\ In y vs.

(** What is wrong with the event [e] after [pre]. *)
Inductive wrong (cs : classes) (current : name) (accessible : name -> name -> bool) (pre : list event)
  : event -> error -> Prop :=
| wrong_redeclaration l x :
    declared_in_block pre x -> wrong cs current accessible pre (Decl l x) (Redeclaration x)
| wrong_not_found l x :
    (forall l', ~ visible pre x l') ->
    (forall c y, denotes current x c y -> ~ defined cs c y) ->
    wrong cs current accessible pre (Use l x) (Not_found x)
| wrong_access l x c y :
    (forall l', ~ visible pre x l') ->
    denotes current x c y -> defined cs c y -> accessible c y = false ->
    wrong cs current accessible pre (Use l x) (No_access c y).

(** What the variable of the event [e] after [pre] means. *)
Inductive means (cs : classes) (current : name) (accessible : name -> name -> bool) (pre : list event)
  : event -> nat * target -> Prop :=
| means_declaration l x : means cs current accessible pre (Decl l x) (l, Local (User l))
| means_local l x l' :
    refers pre x l' -> means cs current accessible pre (Use l x) (l, Local (User l'))
| means_class_var l x c y :
    (forall l', ~ visible pre x l') ->
    denotes current x c y -> defined cs c y -> accessible c y = true ->
    means cs current accessible pre (Use l x) (l, ClassVar c y).

Definition is_var (e : event) : bool := match e with Decl _ _ | Use _ _ => true | _ => false end.

(** The names that a source can contain: a dollar, then a name without a dot at
    its beginning; a colon comes in pairs (the tokenizer, Toke_model.v). *)
Definition source_name (x : name) : Prop :=
  exists y, x = dollar :: y /\ (forall z, y <> 46%Z :: z) /\
    (In colon y -> exists c v, y = c ++ [colon; colon] ++ v /\ ~ In colon v).
Definition event_name (e : event) : option name :=
  match e with Decl _ x | Use _ x => Some x | _ => None end.
Definition source_names (es : list event) : Prop :=
  forall e x, In e es -> event_name e = Some x -> source_name x.
Definition no_colons (es : list event) : Prop :=
  forall l x, In (Decl l x) es -> ~ In colon x.

(** The classes are named apart. *)
Definition classes_ok (cs : classes) : Prop := NoDup (map fst cs).

(** Splitting results: those for written variables, and the others. *)
Fixpoint written (out : list (label * target)) : list (nat * target) :=
  match out with
  | [] => []
  | (User l, t) :: out => (l, t) :: written out
  | _ :: out => written out
  end.

(** The declarations of a tree, and those that the compiler adds. *)
Fixpoint declarations (t : tree) : list label :=
  match t with
  | TNil => []
  | TVar d l _ => if d then [l] else []
  | TPair t u => declarations t ++ declarations u
  | TBlock _ t => declarations t
  end.
Definition added (l : label) : bool := match l with User _ => false | _ => true end.
