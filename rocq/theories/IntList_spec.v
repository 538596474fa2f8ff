(** * The numeric lists as mathematical sequences *)
From Verif Require Import Base IntList_model.

Section Spec.
  Context {A X : Type}.
  Variable zero : A.
  Variable conv : X -> A.

  (** What each operation does to a sequence; [None] is a documented argument
      error (IntList.pm). *)
  Definition seq_op (l : list A) (op : iop A X) : option (list A * ires A) :=
    let n := zlen l in
    match op with
    | IGet i =>
        match znth l i with Some x => Some (l, RElem x) | None => None end
    | IInsert i x =>
        if (0 <=? i) && (i <=? n) then Some (ztake i l ++ conv x :: zdrop i l, RUnit) else None
    | IPop =>
        match znth l (n - 1) with Some x => Some (ztake (n - 1) l, RElem x) | None => None end
    | IPush x => Some (l ++ [conv x], RUnit)
    | IRemove i =>
        match znth l i with Some x => Some (ztake i l ++ zdrop (i + 1) l, RElem x) | None => None end
    | IReplace off rem r =>
        if (0 <=? off) && (0 <=? rem) && (off + rem <=? n)
        then Some (ztake off l ++ (match r with Some r => r | None => [] end) ++ zdrop (off + rem) l, RUnit)
        else None
    | IReserve c => if 0 <=? c then Some (l, RUnit) else None
    | IResize m => if 0 <=? m then Some (ztake m l ++ zrep (m - n) zero, RUnit) else None
    | ISet i x => if (0 <=? i) && (i <? n) then Some (zupd l i (conv x), RUnit) else None
    | IShift =>
        match l with x :: l' => Some (l', RElem x) | [] => None end
    | IToArray => Some (l, RArray l)
    | IUnshift x => Some (conv x :: l, RUnit)
    | ILength => Some (l, RInt n)
    end.

  (** The largest length for which the capacity can always be doubled. *)
  Definition max_length : Z := 1073741823.

  (** The sequence afterwards and the outcome an operation may have: the effect
      of the sequence operation; an exception and no change when an argument is
      in error; or, for a result longer than [max_length], possibly an exception
      and no change. *)
  Definition allowed (l : list A) (op : iop A X) (l' : list A) (o : outcome (ires A)) : Prop :=
    match seq_op l op with
    | None => l' = l /\ exists e, o = Die e
    | Some (l1, r) =>
        (l' = l1 /\ o = Ret r) \/
        (max_length < zlen l1 /\ l' = l /\ exists e, o = Die e)
    end.

  (** The result of the operation has a length an int can hold. *)
  Definition fits (l : list A) (op : iop A X) : Prop :=
    forall l1 r, seq_op l op = Some (l1, r) -> zlen l1 <= INT32_MAX.

  (** Outcomes of a history (nothing is claimed from an operation on whose
      result would not [fit]). *)
  Fixpoint allowed_run (l : list A) (ops : list (iop A X)) (outs : list (outcome (ires A))) : Prop :=
    match ops, outs with
    | [], [] => True
    | op :: ops, o :: outs =>
        fits l op -> exists l', allowed l op l' o /\ allowed_run l' ops outs
    | _, _ => False
    end.

  (** Arguments are ints; array arguments have int lengths. *)
  Definition op_args_ok (op : iop A X) : Prop :=
    match op with
    | IGet i | IRemove i | IInsert i _ | ISet i _ | IReserve i | IResize i => in_i32 i
    | IReplace off rem r =>
        in_i32 off /\ in_i32 rem /\ match r with Some r => zlen r <= INT32_MAX | None => True end
    | _ => True
    end.
End Spec.
