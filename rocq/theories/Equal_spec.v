(** * Orders and equivalences with undef *)
From Verif Require Import Base.
Local Open Scope Z_scope.

(** Undef is before every object; objects are compared by [le]. *)
Inductive undef_first {R} (le : R -> R -> Prop) : option R -> option R -> Prop :=
| Undef o : undef_first le None o
| Both x y : le x y -> undef_first le (Some x) (Some y).

(** Undef equals undef only; objects are compared by [E]. *)
Inductive both {R} (E : R -> R -> Prop) : option R -> option R -> Prop :=
| BothUndef : both E None None
| BothDefined x y : E x y -> both E (Some x) (Some y).

(** [r] is 1 if [P] holds, otherwise 0. *)
Definition answers (P : Prop) (r : Z) : Prop := (P /\ r = 1) \/ (~ P /\ r = 0).

(** IEEE 754 equality of doubles given by their bits, the operator == of double: NaN is equal to
    nothing, and 0.0 equals -0.0. *)
Definition nan_bits (b : Z) : bool := 0x7FF0000000000000 <? b mod 2 ^ 63.
Definition zero_bits (b : Z) : bool := b mod 2 ^ 63 =? 0.
Definition double_eq (a b : Z) : bool :=
  negb (nan_bits a) && negb (nan_bits b) && ((a =? b) || zero_bits a && zero_bits b).
(** The value of eight bytes, the least significant first, and doubles from bytes. *)
Fixpoint le_value (l : list Z) : Z := match l with [] => 0 | b :: l => b + 256 * le_value l end.
