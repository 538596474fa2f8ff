(** * The order of strings (independent of the model) *)

From Verif Require Import Base.

(** [a] is before [b] in bytewise lexicographic order: they share a prefix
    [p], after which either [a] ends and [b] goes on, or the next byte of [a]
    is smaller. *)
Inductive before_bytes (a b : list Z) : Prop :=
| Prefix : forall p y r, a = p -> b = p ++ y :: r -> before_bytes a b
| Smaller : forall p x y r r', a = p ++ x :: r -> b = p ++ y :: r' -> x < y -> before_bytes a b.

(** undef is before every string. *)
Inductive before : option (list Z) -> option (list Z) -> Prop :=
| UndefFirst : forall b, before None (Some b)
| Bytes : forall a b, before_bytes a b -> before (Some a) (Some b).

(** [flag P r]: the comparison result [r] is 1 if [P] and 0 otherwise. *)
Definition flag (P : Prop) (r : Z) : Prop := (P /\ r = 1) \/ (~ P /\ r = 0).
