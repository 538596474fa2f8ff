(** * What immutable lists show *)
From Verif Require Import Base Immutable_model.
Local Open Scope Z_scope.

(** The value of an operation. *)
Definition result (shares : bool) (o : op) (s : state) : outcome value :=
  let! s' := step shares o s in Ret (last (regs s') VVoid).

Definition out_of_range (i : Z) : string :=
  if i <? 0 then "The index $index must be greater than or equal to 0."%string
  else "The index $index must be less than the length of $list."%string.

(** What the list in register r shows through its methods: the numbers [l]. *)
Definition shows_numbers (shares : bool) (s : state) (r : nat) (l : list Z) : Prop :=
  result shares (N_length r) s = Ret (VNum (zlen l)) /\
  forall i, result shares (N_get r i) s = match znth l i with Some z => Ret (VNum z) | None => Die (out_of_range i) end.

(** A string value and its text; undef has none. *)
Definition has_text (s : state) (q : option nat) (t : option text) : Prop :=
  match q, t with
  | None, None => True
  | Some q, Some b => exists ro, nth_error (strings s) q = Some (b, ro)
  | _, _ => False
  end.
Definition shows_texts (shares : bool) (s : state) (r : nat) (l : list (option text)) : Prop :=
  result shares (S_length r) s = Ret (VNum (zlen l)) /\
  forall i, match znth l i with
            | Some t => exists q, result shares (S_get r i) s = Ret (VString q) /\ has_text s q t
            | None => result shares (S_get r i) s = Die (out_of_range i)
            end.

(** The client's operations, without the cast that is not checked. *)
Definition checked (o : op) : Prop := match o with Cast_object _ => False | _ => True end.
(** What clients can reach. *)
Definition reachable (shares : bool) (s : state) : Prop := exists h, Forall checked h /\ run shares h empty = Ret s.
