(** * What an array is: C16

    A sequence of elements; an element is a tuple of numbers (one number for
    the plain numeric types). *)

From Verif Require Import Base Bytes Elem_model.

Notation array := (list (list Z)).

(** Access to element [i] of an array that may be undef. *)
Definition at_index {A} (t : option array) (i : Z) (f : array -> list Z -> outcome A) : outcome A :=
  match t with
  | None => Die ARRAY_UNDEFINED
  | Some t => match znth t i with None => Die INDEX_OUT_OF_RANGE | Some e => f t e end
  end.

Definition number (e : list Z) (f : Z) : outcome out :=
  match znth e f with Some v => Ret (ONum v) | None => UB end.

(** The array after the operation, and its result. A failing access leaves
    the array as it was. *)
Definition spec_step (t : option array) (o : op) : option array * outcome out :=
  let upd (r : outcome array) :=
    match r with
    | Ret t' => (Some t', Ret ODone)
    | Die e => (t, Die e) | UB => (t, UB) | Fuel => (t, Fuel)
    end in
  match o with
  | EGet i => (t, at_index t i (fun _ e => number e 0))
  | FGet i f => (t, at_index t i (fun _ e => number e f))
  | AGet i => (t, at_index t i (fun _ e => Ret (OTuple e)))
  | ESet i v => upd (at_index t i (fun a e => Ret (zupd a i (zupd e 0 v))))
  | FSet i f v => upd (at_index t i (fun a e => Ret (zupd a i (zupd e f v))))
  | ASet i vs => upd (at_index t i (fun a _ => Ret (zupd a i vs)))
  | Len => (t, match t with None => Die ARRAY_UNDEFINED | Some a => Ret (ONum (zlen a)) end)
  end.

Fixpoint spec_run (t : option array) (os : list op) : list (outcome out) :=
  match os with
  | [] => []
  | o :: r => let (t', x) := spec_step t o in x :: spec_run t' r
  end.

(** What the compiler lets through: element accesses on numeric arrays
    ([fields = 1]) or accesses with the fields of the type on multi-numeric
    arrays; values of the element type. *)
Definition typed (k : nkind) (mulnum : bool) (fields : Z) (o : op) : Prop :=
  match o with
  | EGet i => mulnum = false
  | ESet i v => mulnum = false /\ kvalue k v
  | FGet i f => mulnum = true /\ 0 <= f < fields
  | FSet i f v => mulnum = true /\ 0 <= f < fields /\ kvalue k v
  | AGet i => mulnum = true
  | ASet i vs => mulnum = true /\ zlen vs = fields /\ Forall (kvalue k) vs
  | Len => True
  end.
