(** * What a numeric expression means (independent of the model)

    lib/SPVM/Document/Language/Operators.pm: the operators and "Data
    Conversions". The only parts taken from elsewhere are the syntax of the
    source ([expr]), the arguments for float and double arithmetic ([floats]),
    and [int_op], the integer operators on int and long values, whose meaning
    is the subject of C14 and C15. *)

From Verif Require Import Base VmArith_model Expr_model.

(** ** Types *)

(** The order of the numeric types: byte < short < int < long < float <
    double. *)
Definition rank (t : nty) : nat :=
  match t with TByte => 0 | TShort => 1 | TInt => 2 | TLong => 3 | TFloat => 4 | TDouble => 5 end.
Definition wider (a b : nty) : nty := if Nat.leb (rank a) (rank b) then b else a.

(** Integer promotion: at least int. Binary numeric conversion: the wider of
    the two operands, at least int. *)
Definition widen (t : nty) : nty := wider TInt t.
Definition common (a b : nty) : nty := widen (wider a b).

Definition integral (t : nty) : bool := Nat.leb (rank t) 3.
Definition same (a b : nty) : bool := Nat.eqb (rank a) (rank b).

(** The type of the result, if the operands are allowed. *)
Definition bin_ty (b : binop) (l r : nty) : option nty :=
  match b with
  | BAdd | BSub | BMul | BDiv => Some (common l r)
  | BMod | BAnd | BOr | BXor => if integral l && integral r then Some (common l r) else None
  | BDivUInt | BModUInt => if same l TInt && same r TInt then Some TInt else None
  | BDivULong | BModULong => if same l TLong && same r TLong then Some TLong else None
  | BShl | BSar | BShr => if integral l && Nat.leb (rank r) (rank TInt) then Some (widen l) else None
  end.
(** The type the right operand is converted to. *)
Definition right_ty (b : binop) (w : nty) : nty :=
  match b with BShl | BSar | BShr => TInt | _ => w end.

Section Float.
  Context {F D : Type} (fl : floats F D).
  Local Notation val := (val F D).
  Local Notation expr := (expr F D).

  (** The integers of a type. *)
  Definition int_range (t : nty) : Z * Z :=
    match t with
    | TByte => (- 2 ^ 7, 2 ^ 7) | TShort => (- 2 ^ 15, 2 ^ 15)
    | TInt => (- 2 ^ 31, 2 ^ 31) | _ => (- 2 ^ 63, 2 ^ 63)
    end.
  Definition in_range (t : nty) (z : Z) : bool :=
    (fst (int_range t) <=? z) && (z <? snd (int_range t)).

  (** [v] is a value of type [t]. *)
  Definition value_ok (t : nty) (v : val) : Prop :=
    match t, v with
    | TFloat, VF _ _ _ => True
    | TDouble, VD _ _ _ => True
    | (TByte | TShort | TInt | TLong), VI _ _ z => in_range t z = true
    | _, _ => False
    end.

  (** The declared types of the variables. *)
  Variable T : nat -> option nty.

  (** The type of an expression; [None] for one that must not compile. *)
  Fixpoint ty (e : expr) : option nty :=
    match e with
    | EVar _ _ x => T x
    | EConst _ _ t _ => Some t
    | EUn _ _ u a =>
        match ty a with
        | Some t => match u with
                    | UPlus | UMinus => Some (widen t)
                    | UNot => if integral t then Some (widen t) else None
                    end
        | None => None
        end
    | EBin _ _ b l r => match ty l, ty r with Some tl, Some tr => bin_ty b tl tr | _, _ => None end
    | ECmp _ _ _ l r => match ty l, ty r with Some _, Some _ => Some TInt | _, _ => None end
    | ECast _ _ t a => match ty a with Some _ => Some t | None => None end
    | EAssign _ _ x a =>
        match ty a, T x with
        | Some s, Some d => if Nat.leb (rank s) (rank d) || narrowing_literal d a then Some d else None
        | _, _ => None
        end
    | EOpAssign _ _ b x a =>
        match T x, ty a with
        | Some d, Some s => match bin_ty b d s with Some _ => Some d | None => None end
        | _, _ => None
        end
    | EInc _ _ _ _ x => T x
    | ESeq _ _ a b => match ty a with Some _ => ty b | None => None end
    end
  (** A wider literal, possibly under casts to its own type, whose value the
      type [d] has; a double literal can always become a float. *)
  with narrowing_literal (d : nty) (e : expr) : bool :=
    match e with
    | EConst _ _ t v =>
        match t, v with
        | (TInt | TLong), VI _ _ z => integral d && in_range d z
        | TDouble, _ => same d TFloat
        | _, _ => false
        end
    | ECast _ _ t a =>
        match ty a with Some s => same s t && narrowing_literal d a | None => false end
    | _ => false
    end.

  Definition typ (e : expr) : nty := match ty e with Some t => t | None => TInt end.
  Definition vtyp (x : nat) : nty := match T x with Some t => t | None => TInt end.

  (** ** Values *)

  Definition is_long (t : nty) : bool := same t TLong.
  (** The integer of the type that is equal to [z] modulo its number of
      values. *)
  Definition wrapped (t : nty) (z : Z) : Z :=
    (z - fst (int_range t)) mod (snd (int_range t) - fst (int_range t)) + fst (int_range t).

  Definition undefined_or (o : option Z) : outcome val :=
    match o with Some z => Ret (VI F D z) | None => UB end.

  (** Conversion from type [s] to type [d]. *)
  Definition doc_conv (s d : nty) (v : val) : outcome val :=
    if same s d then Ret v
    else
      match v with
      | VI _ _ z =>
          if integral s then
            if integral d then Ret (VI F D (wrapped d z))
            else if same d TFloat then Ret (VF F D (f_of_z F D fl z)) else Ret (VD F D (d_of_z F D fl z))
          else UB
      | VF _ _ f =>
          if same s TFloat then
            if same d TDouble then Ret (VD F D (d_of_f F D fl f)) else undefined_or (z_of_f F D fl d f)
          else UB
      | VD _ _ f =>
          if same s TDouble then
            if same d TFloat then Ret (VF F D (f_of_d F D fl f)) else undefined_or (z_of_d F D fl d f)
          else UB
      end.

  (** The operators on two values of type [t]: int, long, float or double. *)
  Definition doc_int (b : binop) : iop :=
    match b with
    | BAdd => OAdd | BSub => OSub | BMul => OMul
    | BDiv => ODiv | BMod => OMod
    | BDivUInt | BDivULong => ODivU | BModUInt | BModULong => OModU
    | BAnd => OAnd | BOr => OOr | BXor => OXor
    | BShl => OShl | BSar => OSar | BShr => OShr
    end.
  Definition doc_bin (b : binop) (t : nty) (v w : val) : outcome val :=
    match v, w with
    | VI _ _ x, VI _ _ y =>
        if same t TInt then let! z := int_op 32 (doc_int b) x y in Ret (VI F D z)
        else if same t TLong then let! z := int_op 64 (doc_int b) x y in Ret (VI F D z)
        else UB
    | VF _ _ x, VF _ _ y =>
        if same t TFloat then
          match b with
          | BAdd => Ret (VF F D (f_op F D fl FAdd x y)) | BSub => Ret (VF F D (f_op F D fl FSub x y))
          | BMul => Ret (VF F D (f_op F D fl FMul x y)) | BDiv => Ret (VF F D (f_op F D fl FDiv x y))
          | _ => UB
          end
        else UB
    | VD _ _ x, VD _ _ y =>
        if same t TDouble then
          match b with
          | BAdd => Ret (VD F D (d_op F D fl FAdd x y)) | BSub => Ret (VD F D (d_op F D fl FSub x y))
          | BMul => Ret (VD F D (d_op F D fl FMul x y)) | BDiv => Ret (VD F D (d_op F D fl FDiv x y))
          | _ => UB
          end
        else UB
    | _, _ => UB
    end.
  Definition doc_un (u : unop) (t : nty) (v : val) : outcome val :=
    match u, v with
    | UPlus, _ => Ret v
    | UMinus, VI _ _ z => if same t TInt then let! r := int_op 32 ONeg z 0 in Ret (VI F D r)
                          else if same t TLong then let! r := int_op 64 ONeg z 0 in Ret (VI F D r)
                          else UB
    | UMinus, VF _ _ f => if same t TFloat then Ret (VF F D (f_neg F D fl f)) else UB
    | UMinus, VD _ _ f => if same t TDouble then Ret (VD F D (d_neg F D fl f)) else UB
    | UNot, VI _ _ z => if same t TInt || same t TLong then let! r := int_op 64 ONot z 0 in Ret (VI F D r) else UB
    | UNot, _ => UB
    end.

  (** The result of a comparison, from whether the left operand is less than,
      equal to or greater than the right one. *)
  Definition doc_order (c : cmpop) (lt eq gt le ge : bool) : Z :=
    match c with
    | CEq => if eq then 1 else 0
    | CNe => if eq then 0 else 1
    | CGt => if gt then 1 else 0
    | CGe => if ge then 1 else 0
    | CLt => if lt then 1 else 0
    | CLe => if le then 1 else 0
    | CCmp => if gt then 1 else if lt then -1 else 0
    end.
  Definition doc_cmp (c : cmpop) (t : nty) (v w : val) : outcome val :=
    match v, w with
    | VI _ _ x, VI _ _ y =>
        if same t TInt || same t TLong
        then Ret (VI F D (doc_order c (x <? y) (x =? y) (y <? x) (x <=? y) (y <=? x))) else UB
    | VF _ _ x, VF _ _ y =>
        if same t TFloat
        then Ret (VI F D (doc_order c (f_lt F D fl x y) (f_eq F D fl x y) (f_lt F D fl y x) (f_le F D fl x y) (f_le F D fl y x)))
        else UB
    | VD _ _ x, VD _ _ y =>
        if same t TDouble
        then Ret (VI F D (doc_order c (d_lt F D fl x y) (d_eq F D fl x y) (d_lt F D fl y x) (d_le F D fl x y) (d_le F D fl y x)))
        else UB
    | _, _ => UB
    end.

  (** ** Evaluation: operands from left to right, by value *)

  Definition store := nat -> val.
  Definition supd (st : store) (x : nat) (v : val) : store := fun y => if Nat.eqb y x then v else st y.

  Fixpoint eval (e : expr) (st : store) : outcome (val * store) :=
    match e with
    | EVar _ _ x => Ret (st x, st)
    | EConst _ _ _ v => Ret (v, st)
    | EUn _ _ u a =>
        let w := widen (typ a) in
        let! p := eval a st in
        let! v := doc_conv (typ a) w (fst p) in
        let! r := doc_un u w v in Ret (r, snd p)
    | EBin _ _ b l r =>
        let w := typ e in
        let! p := eval l st in
        let! v := doc_conv (typ l) w (fst p) in
        let! q := eval r (snd p) in
        let! v' := doc_conv (typ r) (right_ty b w) (fst q) in
        let! z := doc_bin b w v v' in Ret (z, snd q)
    | ECmp _ _ c l r =>
        let w := common (typ l) (typ r) in
        let! p := eval l st in
        let! v := doc_conv (typ l) w (fst p) in
        let! q := eval r (snd p) in
        let! v' := doc_conv (typ r) w (fst q) in
        let! z := doc_cmp c w v v' in Ret (z, snd q)
    | ECast _ _ t a =>
        let! p := eval a st in
        let! v := doc_conv (typ a) t (fst p) in Ret (v, snd p)
    | EAssign _ _ x a =>
        let! p := eval a st in
        let! v := doc_conv (typ a) (vtyp x) (fst p) in Ret (v, supd (snd p) x v)
    | EOpAssign _ _ b x a =>
        (* $x = $x b a *)
        let w := match bin_ty b (vtyp x) (typ a) with Some w => w | None => TInt end in
        let! v := doc_conv (vtyp x) w (st x) in
        let! q := eval a st in
        let! v' := doc_conv (typ a) (right_ty b w) (fst q) in
        let! z := doc_bin b w v v' in
        let! z := doc_conv w (vtyp x) z in Ret (z, supd (snd q) x z)
    | EInc _ _ dec post x =>
        let w := common (vtyp x) TInt in
        let! v := doc_conv (vtyp x) w (st x) in
        let! one := doc_conv TInt w (VI F D 1) in
        let! z := doc_bin (if dec then BSub else BAdd) w v one in
        let! z := doc_conv w (vtyp x) z in
        Ret (if post then st x else z, supd st x z)
    | ESeq _ _ a b =>
        let! p := eval a st in eval b (snd p)
    end.

  (** ** The two restrictions *)

  (** The variables an expression assigns. *)
  Fixpoint assigned (e : expr) : list nat :=
    match e with
    | EVar _ _ _ | EConst _ _ _ _ => []
    | EUn _ _ _ a | ECast _ _ _ a => assigned a
    | EBin _ _ _ l r | ECmp _ _ _ l r | ESeq _ _ l r => assigned l ++ assigned r
    | EAssign _ _ x a | EOpAssign _ _ _ x a => x :: assigned a
    | EInc _ _ _ _ x => [x]
    end.

  (** The variables whose value an expression passes on unchanged. *)
  Fixpoint passes (e : expr) : list nat :=
    match e with
    | EVar _ _ x => [x]
    | EAssign _ _ x a => x :: (if same (typ a) (vtyp x) then passes a else [])
    | EOpAssign _ _ _ x _ => [x]
    | EInc _ _ _ post x => if post then [] else [x]
    | ESeq _ _ _ b => passes b
    | ECast _ _ t a => if same (typ a) t then passes a else []
    | _ => []
    end.
  (** The same, after a conversion to type [w]. *)
  Definition passes_as (w : nty) (e : expr) : list nat := if same (typ e) w then passes e else [].

  (** No right operand assigns a variable whose value the left operand
      passes on. *)
  Definition disjoint (l m : list nat) : Prop := forall x, In x l -> ~ In x m.
  Fixpoint stable (e : expr) : Prop :=
    match e with
    | EVar _ _ _ | EConst _ _ _ _ | EInc _ _ _ _ _ => True
    | EUn _ _ _ a | ECast _ _ _ a | EAssign _ _ _ a | EOpAssign _ _ _ _ a => stable a
    | EBin _ _ b l r => stable l /\ stable r /\ disjoint (passes_as (typ e) l) (assigned r)
    | ECmp _ _ _ l r => stable l /\ stable r /\ disjoint (passes_as (common (typ l) (typ r)) l) (assigned r)
    | ESeq _ _ a b => stable a /\ stable b
    end.

  (** The source of an assignment without conversion is not a sequence that
      ends in a sequence, [op=], [++] or [--]. *)
  Fixpoint ends_in_update (e : expr) : bool :=
    match e with
    | ESeq _ _ _ _ | EOpAssign _ _ _ _ _ | EInc _ _ _ _ _ => true
    | ECast _ _ t a => same (typ a) t && ends_in_update a
    | _ => false
    end.
  Fixpoint nested (e : expr) : bool :=
    match e with
    | ESeq _ _ _ b => ends_in_update b
    | ECast _ _ t a => same (typ a) t && nested a
    | _ => false
    end.
  Fixpoint not_dropped (e : expr) : Prop :=
    match e with
    | EVar _ _ _ | EConst _ _ _ _ | EInc _ _ _ _ _ => True
    | EUn _ _ _ a | ECast _ _ _ a | EOpAssign _ _ _ _ a => not_dropped a
    | EAssign _ _ x a => not_dropped a /\ (same (typ a) (vtyp x) && nested a = false)
    | EBin _ _ _ l r | ECmp _ _ _ l r | ESeq _ _ l r => not_dropped l /\ not_dropped r
    end.

  (** ** Well-formed sources *)

  (** The literals are values of their type, and there is none of type short;
      every variable is declared. *)
  Fixpoint well_formed (e : expr) : Prop :=
    match e with
    | EVar _ _ x | EInc _ _ _ _ x => T x <> None
    | EConst _ _ t v => value_ok t v /\ t <> TShort
    | EUn _ _ _ a | ECast _ _ _ a => well_formed a
    | EBin _ _ _ l r | ECmp _ _ _ l r | ESeq _ _ l r => well_formed l /\ well_formed r
    | EAssign _ _ x a | EOpAssign _ _ _ x a => T x <> None /\ well_formed a
    end.
End Float.
