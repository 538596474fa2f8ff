(** * What the integer operators mean (independent of the model) *)

From Verif Require Import Base.
From Verif Require Import VmArith_model(iop(..)).

(** [a] is a value of the signed type with that many bits. *)
Definition fits (bits a : Z) : Prop := - 2 ^ (bits - 1) <= a < 2 ^ (bits - 1).

(** The value of the same bit pattern read as unsigned. *)
Definition uread (bits a : Z) : Z := a mod 2 ^ bits.

(** [q] is [a / b] truncated toward zero. *)
Definition trunc_quotient (a b q : Z) : Prop :=
  exists r, a = q * b + r /\ Z.abs r < Z.abs b /\ (r = 0 \/ (r < 0 <-> a < 0)).

(** [r] is the remainder of [a] by [b] for the floor quotient: it is zero or
    has the sign of [b]. *)
Definition floor_remainder (a b r : Z) : Prop :=
  exists q, a = q * b + r /\ Z.abs r < Z.abs b /\ (r = 0 \/ (r < 0 <-> b < 0)).

(** The result an operator must give. *)
Definition means (bits : Z) (o : iop) (a b r : Z) : Prop :=
  match o with
  | OAdd => r = a + b
  | OSub => r = a - b
  | OMul => r = a * b
  | ODiv => trunc_quotient a b r
  | OMod => floor_remainder a b r
  | ODivU => uread bits r = uread bits a / uread bits b
  | OModU => uread bits r = uread bits a mod uread bits b
  | OShl => r = a * 2 ^ b
  | OSar => r * 2 ^ b <= a < (r + 1) * 2 ^ b
  | OShr => uread bits r * 2 ^ b <= uread bits a < (uread bits r + 1) * 2 ^ b
  | OAnd => forall i, 0 <= i < bits -> Z.testbit r i = Z.testbit a i && Z.testbit b i
  | OOr => forall i, 0 <= i < bits -> Z.testbit r i = Z.testbit a i || Z.testbit b i
  | OXor => forall i, 0 <= i < bits -> Z.testbit r i = xorb (Z.testbit a i) (Z.testbit b i)
  | ONot => forall i, 0 <= i < bits -> Z.testbit r i = negb (Z.testbit a i)
  | ONeg => r = - a
  end.

(** Operators that throw. *)
Definition divides (o : iop) : Prop := o = ODiv \/ o = OMod \/ o = ODivU \/ o = OModU.

(** The operands for which ISO C leaves the operator undefined. *)
Definition c_undefined (bits : Z) (o : iop) (a b : Z) : Prop :=
  match o with
  | OAdd => ~ fits bits (a + b)
  | OSub => ~ fits bits (a - b)
  | OMul => ~ fits bits (a * b)
  | ODiv | OMod => a = - 2 ^ (bits - 1) /\ b = -1
  | OShl => ~ (0 <= b < bits) \/ a < 0 \/ ~ fits bits (a * 2 ^ b)
  | OSar | OShr => ~ (0 <= b < bits)
  | ONeg => a = - 2 ^ (bits - 1)
  | ODivU | OModU | OAnd | OOr | OXor | ONot => False
  end.
