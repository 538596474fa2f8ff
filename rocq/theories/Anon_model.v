(** * Anonymous methods

    lib/SPVM/Builder/src/spvm_op.c: the name of the class (SPVM_OP_build_anon_method
    1664-1677), fields (SPVM_OP_build_anon_method_field 1700-1727, redeclaration 840-852),
    declarations at the top of the method (SPVM_OP_build_method 1520-1548,
    SPVM_OP_attach_anon_method_fields 1586-1637) and the expression that creates the
    object (SPVM_OP_build_new 2116-2170).

    Simplifications. Types and attributes are left out; a value of any type is an element
    of [val]; [VUndef] also stands for the initial value 0 of a numeric field. Operators other than reading, declaring and assigning a variable are calls of
    an arbitrary function of the heap and of two values. A failed assert is [UB]: it ends
    the process (NDEBUG is defined nowhere in the build). *)
From Verif Require Import Base CLib Dec.
Local Open Scope Z_scope.

(** ** The name of the class *)

(** 1670-1673: the size of the buffer. *)
Definition name_buffer (outmost : list Z) : Z := 6 + zlen outmost + 2 + 10 + 2 + 10 + 1.
(** 1674-1676: sprintf into the buffer. *)
Definition class_name (outmost : list Z) (line column : Z) : outcome (list Z) :=
  let s := outmost ++ bytes "::anon_method::" ++ print_dec line ++ bytes "::" ++ print_dec column in
  if zlen s + 1 <=? name_buffer outmost then Ret s else UB.

(** ** Values, objects, expressions *)

Inductive val := VNum (n : Z) | VRef (r : nat) | VUndef.
Record obj := mk_obj { o_class : list Z; o_fields : list (list Z * val) }.
Definition heap := list obj.
(** User variables have the names of the source, temporaries those of
    SPVM_OP_new_op_name_tmp_var, which are numbered in a compilation (NamesSim). *)
Inductive name := User (x : list Z) | Tmp (n : nat).
Definition env := list (name * val).

Definition name_eqb (a b : name) : bool :=
  match a, b with
  | User x, User y => if list_eq_dec Z.eq_dec x y then true else false
  | Tmp m, Tmp n => Nat.eqb m n
  | _, _ => false
  end.
(** The last declaration counts. *)
Fixpoint get (e : env) (x : name) : option val :=
  match e with
  | [] => None
  | (y, v) :: e => if name_eqb y x then Some v else get e x
  end.
Fixpoint set (e : env) (x : name) (v : val) : env :=
  match e with
  | [] => []
  | (y, w) :: e => if name_eqb y x then (y, v) :: e else (y, w) :: set e x v
  end.
Fixpoint get_field (fs : list (list Z * val)) (f : list Z) : option val :=
  match fs with
  | [] => None
  | (g, v) :: fs => if list_eq_dec Z.eq_dec g f then Some v else get_field fs f
  end.
Fixpoint set_field (fs : list (list Z * val)) (f : list Z) (v : val) : list (list Z * val) :=
  match fs with
  | [] => []
  | (g, w) :: fs => if list_eq_dec Z.eq_dec g f then (g, v) :: fs else (g, w) :: set_field fs f v
  end.
Fixpoint set_object (h : heap) (r : nat) (f : list Z) (v : val) : heap :=
  match h, r with
  | [], _ => []
  | o :: h, O => mk_obj (o_class o) (set_field (o_fields o) f v) :: h
  | o :: h, S r => o :: set_object h r f v
  end.

(** Operators as written. The fields of an anonymous method have a name and perhaps an
    operand; [gap] temporaries are numbered in the body of the method. *)
Inductive expr :=
| EConst (v : val)
| EVar (x : list Z)
| EMy (x : list Z) (e : expr)
| EAssign (x : list Z) (e : expr)
| ECall (f : heap -> val -> val -> outcome (val * heap)) (e1 e2 : expr)
| EAnon (class : list Z) (gap : nat) (fields : list (list Z * option expr)).

(** Operators after the parser. *)
Inductive core :=
| CConst (v : val)
| CVar (x : name)
| CMy (x : name) (e : core)
| CAssign (x : name) (e : core)
| CCall (f : heap -> val -> val -> outcome (val * heap)) (e1 e2 : core)
| CNew (class : list Z) (fields : list (list Z))
| CSetField (x : name) (f : list Z) (e : core)     (* $x->{f} = e *)
| CSequence (l : list core).

(** 2116-2170, for the operators of an expression from left to right; the operands of the
    fields are parsed before the method, and the method before its object is created. *)
Fixpoint build (e : expr) (n : nat) : core * nat :=
  match e with
  | EConst v => (CConst v, n)
  | EVar x => (CVar (User x), n)
  | EMy x e => let (c, n) := build e n in (CMy (User x) c, n)
  | EAssign x e => let (c, n) := build e n in (CAssign (User x) c, n)
  | ECall f e1 e2 => let (c1, n) := build e1 n in let (c2, n) := build e2 n in (CCall f c1 c2, n)
  | EAnon class gap fields =>
      let (ops, n) :=
        (fix operands (l : list (list Z * option expr)) (n : nat) : list (list Z * core) * nat :=
           match l with
           | [] => ([], n)
           | (f, None) :: l => operands l n
           | (f, Some e) :: l => let (c, n) := build e n in let (r, n) := operands l n in ((f, c) :: r, n)
           end) fields n in
      let n := (n + gap)%nat in
      match fields with
      | [] => (CNew class [], n)                                                             (* 2127 *)
      | _ => (CSequence (CMy (Tmp n) (CNew class (map fst fields))                           (* 2143-2148 *)
                :: map (fun fc => CSetField (Tmp n) (fst fc) (snd fc)) ops                   (* 2150-2165 *)
                ++ [CVar (Tmp n)]), S n)                                                     (* 2167-2168 *)
      end
  end.

(** Evaluation of the operators of the tree: the value, the variables and the heap. The
    object of a field access is looked up before the operand is evaluated or after it: the
    temporary does not change. *)
Fixpoint eval (c : core) (e : env) (h : heap) : outcome (val * env * heap) :=
  match c with
  | CConst v => Ret (v, e, h)
  | CVar x => match get e x with Some v => Ret (v, e, h) | None => UB end
  | CMy x c => let! (v, e, h) := eval c e h in Ret (v, (x, v) :: e, h)
  | CAssign x c => let! (v, e, h) := eval c e h in Ret (v, set e x v, h)
  | CCall f c1 c2 =>
      let! (v1, e, h) := eval c1 e h in
      let! (v2, e, h) := eval c2 e h in
      let! (v, h) := f h v1 v2 in
      Ret (v, e, h)
  | CNew class fields => Ret (VRef (length h), e, h ++ [mk_obj class (map (fun f => (f, VUndef)) fields)])
  | CSetField x f c =>
      let! (v, e, h) := eval c e h in
      match get e x with
      | Some (VRef r) => Ret (v, e, set_object h r f v)
      | Some VUndef => Die "The invocant must be defined."
      | _ => UB
      end
  | CSequence l =>
      (fix sequence (l : list core) (v : val) (e : env) (h : heap) : outcome (val * env * heap) :=
         match l with
         | [] => Ret (v, e, h)
         | c :: l => let! (v, e, h) := eval c e h in sequence l v e h
         end) l VUndef e h
  end.

(** ** The fields *)

(** The grammar rules anon_method_field, spvm_yacc.y:565-585. *)
Inductive item :=
| IHas (f : list Z)                            (* has f : TYPE *)
| IHasOperand (f : list Z) (e : expr)          (* has f : TYPE = e *)
| IVar (x : list Z)                            (* $x : TYPE *)
| IVarOperand (x : list Z) (e : expr).         (* $x : TYPE = e *)
Record field := mk_field { f_name : list Z; f_operand : option expr; f_declares : bool }.
(** Variable names begin with $, as field->name + 1 expects. *)
Definition build_field (i : item) : outcome field :=
  match i with
  | IHas f => Ret (mk_field f None false)
  | IHasOperand f e => Ret (mk_field f (Some e) false)
  | IVar x => Ret (mk_field (zdrop 1 x) (Some (EVar x)) true)                                (* 1703-1710 *)
  | IVarOperand x e =>
      match e with
      | EVar _ => Ret (mk_field (zdrop 1 x) (Some e) true)                                   (* 1711-1718 *)
      | _ => UB                                                                              (* 1713: assert *)
      end
  end.
Fixpoint build_fields (l : list item) : outcome (list field) :=
  match l with
  | [] => Ret []
  | i :: l => let! f := build_field i in let! r := build_fields l in Ret (f :: r)
  end.
(** 840-852: the table of fields of the class. *)
Fixpoint check_fields (l : list field) (seen : list (list Z)) : outcome unit :=
  match l with
  | [] => Ret tt
  | f :: l => if in_dec (list_eq_dec Z.eq_dec) (f_name f) seen then Die "Redeclaration of the field." else check_fields l (f_name f :: seen)
  end.

(** ** The top of the method *)

Inductive stmt :=
| SFlag                                   (* the condition flag *)
| SArg (i : nat) (x : list Z)             (* the declaration of argument i *)
| SNothing                                (* where declarations of fields start *)
| SCapture (x f : list Z)                 (* my $x = $self->{f} *)
| SBody (k : nat)                         (* statement k of the block *)
| SReturn.

(** 1525-1548: args_length insertions at the front, from the last argument to the first;
    [args] begins with $self. *)
Definition build_method (args : list (list Z)) (statements : nat) : list stmt :=
  let l := SNothing :: map SBody (seq 0 statements) in
  let l := fold_left (fun l ia => SArg (fst ia) (snd ia) :: l) (rev (combine (seq 0 (length args)) args)) l in
  SFlag :: l ++ [SReturn].
(** SPVM_OP_insert_child after the statement SNothing. *)
Fixpoint insert_after_start (l : list stmt) (s : stmt) : list stmt :=
  match l with
  | [] => []
  | SNothing :: l => SNothing :: s :: l
  | t :: l => t :: insert_after_start l s
  end.
(** 1601-1634. *)
Definition attach_fields (l : list stmt) (fields : list field) : list stmt :=
  fold_left (fun l f => if f_declares f then insert_after_start l (SCapture (36 :: f_name f) (f_name f)) else l) fields l.

(** The declarations of the top scope in order (spvm_check.c: a name of the scope that is
    declared again is an error; see NamesSim). *)
Fixpoint check_names (l : list stmt) (seen : list (list Z)) : outcome unit :=
  match l with
  | [] => Ret tt
  | SArg _ x :: l | SCapture x _ :: l =>
      if in_dec (list_eq_dec Z.eq_dec) x seen then Die "Redeclaration of the variable." else check_names l (x :: seen)
  | _ :: l => check_names l seen
  end.
(** The declarations executed by a call with the values [args], up to the first statement
    of the block. *)
Fixpoint enter (l : list stmt) (args : list val) (e : env) (h : heap) : outcome env :=
  match l with
  | SArg i x :: l => match nth_error args i with Some v => enter l args ((User x, v) :: e) h | None => UB end
  | SCapture x f :: l =>
      match get e (User (bytes "$self")) with
      | Some (VRef r) =>
          match nth_error h r with
          | Some o => match get_field (o_fields o) f with Some v => enter l args ((User x, v) :: e) h | None => UB end
          | None => UB
          end
      | Some VUndef => Die "The invocant must be defined."
      | _ => UB
      end
  | SFlag :: l | SNothing :: l => enter l args e h
  | SBody _ :: _ | SReturn :: _ | [] => Ret e
  end.
