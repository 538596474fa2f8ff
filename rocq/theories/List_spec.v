(** * List as a mathematical sequence *)
From Verif Require Import Base List_model.

Section Spec.
  Context {A : Type}.
  Variable undef : A.
  Variable defined : A -> bool.
  Variable accepts : A -> bool.

  (** A sequence, with two facts about its history: [stale], elements were
      removed from its end by remove or replace; [rotated], shift or unshift
      was used. *)
  Record seq := mk_seq { elems : list A; stale : bool; rotated : bool }.

  Definition given (r : option (list A)) : list A := match r with Some r => r | None => [] end.

  (** What each operation does to the elements; [None] is a documented
      argument error (List.pm), or storing an element of a wrong type. *)
  Definition seq_op (l : list A) (op : lop A) : option (list A * lres A) :=
    let n := zlen l in
    match op with
    | LGet i =>
        match znth l i with Some x => Some (l, LRElem x) | None => None end
    | LInsert i x =>
        if (0 <=? i) && (i <=? n) then Some (ztake i l ++ x :: zdrop i l, LRUnit) else None
    | LPop =>
        match znth l (n - 1) with Some x => Some (ztake (n - 1) l, LRElem x) | None => None end
    | LPush x => Some (l ++ [x], LRUnit)
    | LRemove i =>
        match znth l i with Some x => Some (ztake i l ++ zdrop (i + 1) l, LRElem x) | None => None end
    | LReplace off rem r =>
        if (0 <=? off) && (0 <=? rem) && (off + rem <=? n)
        then Some (ztake off l ++ given r ++ zdrop (off + rem) l, LRUnit)
        else None
    | LReserve c => Some (l, LRUnit)
    | LResize m => if 0 <=? m then Some (ztake m l ++ zrep (m - n) undef, LRUnit) else None
    | LSet i x => if (0 <=? i) && (i <? n) && accepts x then Some (zupd l i x, LRUnit) else None
    | LShift =>
        match l with x :: l' => Some (l', LRElem x) | [] => None end
    | LToArray => Some (l, LRArray l)
    | LUnshift x => Some (x :: l, LRUnit)
    | LLength => Some (l, LRInt n)
    end.

  (** Removing elements leaves removed ones behind when the part after the
      removed range is shorter than the number of elements the list loses. *)
  Definition leaves_stale (l : list A) (op : lop A) : bool :=
    match op with
    | LRemove i => zlen l - (i + 1) <? 1
    | LReplace off rem r => zlen l - (off + rem) <? rem - zlen (given r)
    | _ => false
    end.

  Definition rotates (op : lop A) : bool :=
    match op with LShift | LUnshift _ => true | _ => false end.

  (** The elements afterwards and the outcome an operation may have: the effect
      of the sequence operation; an exception and no change for an argument
      error.  Two exceptions: on a stale list, the elements that resize adds
      may be any; on a rotated list, reserve may throw. *)
  Definition allowed (s : seq) (op : lop A) (l' : list A) (o : outcome (lres A)) : Prop :=
    match seq_op (elems s) op with
    | None => l' = elems s /\ exists e, o = Die e
    | Some (l1, r) =>
        (l' = l1 /\ o = Ret r) \/
        match op with
        | LResize m =>
            stale s = true /\ zlen (elems s) < m /\
            (exists ext, l' = elems s ++ ext /\ zlen ext = m - zlen (elems s)) /\ o = Ret r
        | LReserve _ => rotated s = true /\ l' = elems s /\ exists e, o = Die e
        | _ => False
        end
    end.

  Definition next (s : seq) (op : lop A) (l' : list A) (o : outcome (lres A)) : seq :=
    match o with
    | Ret _ => mk_seq l' (stale s || leaves_stale (elems s) op) (rotated s || rotates op)
    | _ => mk_seq l' (stale s) (rotated s)
    end.

  (** The sizes for which no capacity overflows an int. *)
  Definition max_length : Z := 536870912.
  Definition max_capacity : Z := 1073741824.

  (** The result is short enough, and the elements to be added have the right
      type; insert is given a defined element. *)
  Definition fits (s : seq) (op : lop A) : Prop :=
    (forall l1 r, seq_op (elems s) op = Some (l1, r) -> zlen l1 <= max_length \/ zlen l1 <= zlen (elems s)) /\
    match op with
    | LReserve n => n <= max_capacity
    | LPush x | LUnshift x => accepts x = true
    | LInsert _ x => accepts x = true /\ defined x = true
    | LReplace off rem r => off + rem <= INT32_MAX /\ Forall (fun x => accepts x = true) (given r)
    | _ => True
    end.

  (** Outcomes of a history (nothing is claimed from an operation on that does
      not [fit]). *)
  Fixpoint allowed_run (s : seq) (ops : list (lop A)) (outs : list (outcome (lres A))) : Prop :=
    match ops, outs with
    | [], [] => True
    | op :: ops, o :: outs =>
        fits s op -> exists l', allowed s op l' o /\ allowed_run (next s op l' o) ops outs
    | _, _ => False
    end.

  (** Arguments are ints; array arguments have int lengths. *)
  Definition op_args_ok (op : lop A) : Prop :=
    match op with
    | LGet i | LRemove i | LInsert i _ | LSet i _ | LReserve i | LResize i => in_i32 i
    | LReplace off rem r => in_i32 off /\ in_i32 rem /\ zlen (given r) <= INT32_MAX
    | _ => True
    end.
End Spec.
Arguments seq A : clear implicits.
