(** * What anonymous methods mean *)
From Verif Require Import Base Anon_model.
Local Open Scope Z_scope.

(** Creating the object of an anonymous method: a new object, whose fields get the values of
    their operands, evaluated from left to right. The environment has the user's variables. *)
Inductive evals : expr -> env -> heap -> val -> env -> heap -> Prop :=
| V_const v e h : evals (EConst v) e h v e h
| V_var x e h v : get e (User x) = Some v -> evals (EVar x) e h v e h
| V_my x a e h v e' h' : evals a e h v e' h' -> evals (EMy x a) e h v ((User x, v) :: e') h'
| V_assign x a e h v e' h' : evals a e h v e' h' -> evals (EAssign x a) e h v (set e' (User x) v) h'
| V_call f a b e h va ea ha vb eb hb v h' : evals a e h va ea ha -> evals b ea ha vb eb hb -> f hb va vb = Ret (v, h') ->
    evals (ECall f a b) e h v eb h'
| V_anon class gap fields e h e' h' :
    stores (length h) fields e (h ++ [mk_obj class (map (fun f => (fst f, VUndef)) fields)]) e' h' ->
    evals (EAnon class gap fields) e h (VRef (length h)) e' h'
with stores : nat -> list (list Z * option expr) -> env -> heap -> env -> heap -> Prop :=
| S_end r e h : stores r [] e h e h
| S_none r f l e h e' h' : stores r l e h e' h' -> stores r ((f, None) :: l) e h e' h'
| S_operand r f a l e h v e1 h1 e' h' : evals a e h v e1 h1 -> stores r l e1 (set_object h1 r f v) e' h' ->
    stores r ((f, Some a) :: l) e h e' h'.

(** The variables without the temporaries of the compiler. *)
Definition user (e : env) : env := filter (fun nv => match fst nv with User _ => true | Tmp _ => false end) e.

(** The variable that an item declares in the method. *)
Definition declares (i : item) : list (list Z) :=
  match i with IVar x | IVarOperand x _ => [x] | _ => [] end.
(** The field of an item, and the variable it takes its value from. *)
Definition field_of (i : item) : list Z := match i with IHas f | IHasOperand f _ => f | IVar x | IVarOperand x _ => zdrop 1 x end.
Definition dollar (i : item) : Prop := forall x, In x (declares i) -> exists s, x = 36 :: s.
(** Items that read a variable: $x : TYPE, and $x : TYPE = $y or has x : TYPE = $y. *)
Definition source (i : item) : option (list Z) :=
  match i with IVar x => Some x | IVarOperand _ (EVar y) | IHasOperand _ (EVar y) => Some y | _ => None end.
Definition reads_variable (i : item) : Prop :=
  match i with IHas _ => True | IVar _ => True | IHasOperand _ (EVar _) => True | IVarOperand _ (EVar _) => True | _ => False end.
