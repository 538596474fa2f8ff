(** * What a numeric method means (independent of the model)

    lib/SPVM/Document/Language/Operators.pm, "Logical Operators" and "Condition
    Evaluation", and Statements.pm. Only the syntax is taken from the model;
    the meaning of numeric expressions ([ty], [eval]) is that of Expr_spec.v.
    There are no jumps, registers, temporary variables or flags here. *)

From Verif Require Import Base Expr_model Expr_spec Prog_model.

Section Float.
  Context {F D : Type} (fl : floats F D).
  Local Notation val := (val F D).
  Local Notation expr := (expr F D).
  Local Notation cond := (cond F D).
  Local Notation stmt := (stmt F D).
  Local Notation store := (nat -> val).

  (** The types of the variables, and of the value to be returned. *)
  Variables (T : nat -> option nty) (rt : nty).

  (** ** Which programs compile *)

  (** [e] can be assigned to a variable of type [d]. *)
  Definition assignable (d : nty) (e : expr) : bool :=
    match ty T e with
    | Some s => Nat.leb (rank s) (rank d) || narrowing_literal T d e
    | None => false
    end.

  Fixpoint cond_ok (c : cond) : bool :=
    match c with
    | CVal _ _ e => match ty T e with Some _ => true | None => false end
    | CAnd _ _ l r | COr _ _ l r => cond_ok l && cond_ok r
    | CNot _ _ c => cond_ok c
    end.
  (** The value of a logical operator is an int. *)
  Definition cond_assignable (d : nty) (c : cond) : bool :=
    match c with
    | CVal _ _ e => assignable d e
    | _ => cond_ok c && Nat.leb (rank TInt) (rank d)
    end.

  Fixpoint stmt_ok (loop : bool) (s : stmt) : bool :=
    match s with
    | TSkip _ _ => true
    | TSeq _ _ a b => stmt_ok loop a && stmt_ok loop b
    | TExp _ _ e => match ty T e with Some _ => true | None => false end
    | TSet _ _ x c => match T x with Some d => cond_assignable d c | None => false end
    | TBlock _ _ b => stmt_ok loop b
    | TIf _ _ _ c t e => cond_ok c && stmt_ok loop t && stmt_ok loop e
    | TWhile _ _ c b => cond_ok c && stmt_ok true b
    | TFor _ _ i c n b =>
        (match ty T i, ty T n with Some _, Some _ => true | _, _ => false end) && cond_ok c && stmt_ok true b
    | TNext _ _ | TLast _ _ => loop
    | TReturn _ _ c => cond_assignable rt c
    end.

  (** ** Values of conditions *)

  (** Condition evaluation: byte, short and int are converted to int and give
      that value; the other types 1 if the value is not zero and otherwise 0.
      (The last line is for values that are not of type [t].) *)
  Definition truth (t : nty) (v : val) : outcome Z :=
    match t, v with
    | (TByte | TShort | TInt), _ =>
        let! w := doc_conv fl t TInt v in match w with VI _ _ z => Ret z | _ => UB end
    | TLong, VI _ _ z => Ret (if z =? 0 then 0 else 1)
    | TFloat, VF _ _ f => Ret (if f_eq F D fl f (f_of_z F D fl 0) then 0 else 1)
    | TDouble, VD _ _ f => Ret (if d_eq F D fl f (d_of_z F D fl 0) then 0 else 1)
    | _, _ => UB
    end.

  Fixpoint truth_of (c : cond) (st : store) : outcome (Z * store) :=
    match c with
    | CVal _ _ e => let! p := eval fl T e st in let! z := truth (typ T e) (fst p) in Ret (z, snd p)
    | CAnd _ _ l r =>
        let! p := truth_of l st in
        if fst p =? 0 then Ret (0, snd p) else truth_of r (snd p)
    | COr _ _ l r =>
        let! p := truth_of l st in
        if fst p =? 0 then truth_of r (snd p) else Ret p
    | CNot _ _ c =>
        let! p := truth_of c st in
        Ret ((if fst p =? 0 then 1 else 0), snd p)
    end.

  (** The value of the right side of an assignment to a variable of type [d]. *)
  Definition value_as (d : nty) (c : cond) (st : store) : outcome (val * store) :=
    match c with
    | CVal _ _ e =>
        let! p := eval fl T e st in let! v := doc_conv fl (typ T e) d (fst p) in Ret (v, snd p)
    | _ =>
        let! p := truth_of c st in let! v := doc_conv fl TInt d (VI F D (fst p)) in Ret (v, snd p)
    end.

  (** ** Statements *)

  Inductive done :=
  | Normal (st : store)
  | Next (st : store)
  | Last (st : store)
  | Returned (v : val)
  | Threw (msg : string)
  | Undefined.

  Definition after {A} (o : outcome A) (f : A -> option done) : option done :=
    match o with
    | Ret a => f a
    | Die m => Some (Threw m)
    | UB => Some Undefined
    | Fuel => None
    end.

  (** At most [fuel + 1] iterations of each loop; [None] if there are more. *)
  Variable fuel : nat.

  (** [next] is what happens between two iterations. *)
  Definition loop (test : store -> outcome (Z * store)) (body : store -> option done)
      (next : store -> outcome store) : nat -> store -> option done :=
    fix iter (k : nat) (st : store) : option done :=
      after (test st) (fun p =>
        if fst p =? 0 then Some (Normal (snd p))
        else
          match body (snd p) with
          | Some (Normal st) | Some (Next st) =>
              match k with O => None | S k => after (next st) (iter k) end
          | Some (Last st) => Some (Normal st)
          | other => other
          end).

  Fixpoint exec (s : stmt) (st : store) : option done :=
    match s with
    | TSkip _ _ => Some (Normal st)
    | TSeq _ _ a b => match exec a st with Some (Normal st) => exec b st | other => other end
    | TExp _ _ e => after (eval fl T e st) (fun p => Some (Normal (snd p)))
    | TSet _ _ x c =>
        after (value_as (vtyp T x) c st) (fun p => Some (Normal (supd (snd p) x (fst p))))
    | TBlock _ _ b => exec b st
    | TIf _ _ unless c t e =>
        after (truth_of c st) (fun p =>
          if xorb unless (fst p =? 0) then exec e (snd p) else exec t (snd p))
    | TWhile _ _ c b => loop (truth_of c) (exec b) (fun st => Ret st) fuel st
    | TFor _ _ i c n b =>
        after (eval fl T i st) (fun p =>
          loop (truth_of c) (exec b) (fun st => let! q := eval fl T n st in Ret (snd q)) fuel (snd p))
    | TNext _ _ => Some (Next st)
    | TLast _ _ => Some (Last st)
    | TReturn _ _ c => after (value_as rt c st) (fun p => Some (Returned (fst p)))
    end.

  (** A method that reaches its end returns zero. *)
  Definition zero_of (t : nty) : val :=
    match t with
    | TFloat => VF F D (f_of_z F D fl 0)
    | TDouble => VD F D (d_of_z F D fl 0)
    | _ => VI F D 0
    end.
  Definition call (s : stmt) (st : store) : option done :=
    match exec s st with
    | Some (Normal _) => Some (Returned (zero_of rt))
    | other => other
    end.

  (** ** The restrictions on expressions, of Expr_spec.v, for all of them *)
  Section Every.
    Variable P : expr -> Prop.
    Fixpoint cond_every (c : cond) : Prop :=
      match c with
      | CVal _ _ e => P e
      | CAnd _ _ l r | COr _ _ l r => cond_every l /\ cond_every r
      | CNot _ _ c => cond_every c
      end.
    Fixpoint every (s : stmt) : Prop :=
      match s with
      | TSkip _ _ | TNext _ _ | TLast _ _ => True
      | TSeq _ _ a b => every a /\ every b
      | TExp _ _ e => P e
      | TSet _ _ x (CVal _ _ e) => P (EAssign F D x e)
      | TSet _ _ x c => P (EVar F D x) /\ cond_every c
      | TBlock _ _ b => every b
      | TIf _ _ _ c t e => cond_every c /\ every t /\ every e
      | TWhile _ _ c b => cond_every c /\ every b
      | TFor _ _ i c n b => P i /\ cond_every c /\ P n /\ every b
      | TReturn _ _ c => cond_every c
      end.
  End Every.
End Float.
