(** * The integer operators of the virtual machine

    Models the operator macros and functions of
    lib/SPVM/Builder/include/spvm_implement.h, for the types int and long
    ([bits] = 32 and 64). Operands are int32_t/int64_t; a shift count is an
    int32_t for both types (lib/SPVM/Builder/src/spvm_vm.c:500-523).

    C semantics: ISO C11. A signed operation whose exact result is not
    representable is undefined (6.5 p5), so is a shift by a negative count or
    by at least the width, and a left shift of a negative value or past the
    largest value (6.5.7 p3-4). No build file of /repo passes -fwrapv.
    [>>] of a negative value is implementation-defined; it is modelled as the
    arithmetic shift of GCC and Clang, and so is the conversion of an unsigned
    value above the maximum (wrap-around). *)

From Verif Require Import Base.

Definition half (bits : Z) : Z := 2 ^ (bits - 1).

(** A value stored in a signed integer of that width by a C arithmetic
    operator: representable or undefined. *)
Definition c_signed (bits x : Z) : outcome Z :=
  if (- half bits <=? x) && (x <? half bits) then Ret x else UB.

(** (uint32_t)x, (uint64_t)x. *)
Definition c_unsigned (bits x : Z) : Z := x mod 2 ^ bits.

Definition DIVIDE_ZERO : string := "The value of the right operand of the division or modulo operator cannot be zero.".

(** spvm_implement.h:187-189 ADD_INT, ADD_LONG. *)
Definition add_i (bits a b : Z) : outcome Z := c_signed bits (a + b).
(** spvm_implement.h:195-197 SUBTRACT_INT, SUBTRACT_LONG. *)
Definition sub_i (bits a b : Z) : outcome Z := c_signed bits (a - b).
(** spvm_implement.h:203-205 MULTIPLY_INT, MULTIPLY_LONG. *)
Definition mul_i (bits a b : Z) : outcome Z := c_signed bits (a * b).

(** C's [/] and [%] truncate toward zero (6.5.5 p6); both are undefined when
    the quotient is not representable. *)
Definition c_div (bits a b : Z) : outcome Z :=
  if b =? 0 then UB else c_signed bits (Z.quot a b).
Definition c_rem (bits a b : Z) : outcome Z :=
  let! _ := c_div bits a b in Ret (Z.rem a b).

(** spvm_implement.h:211-231 DIVIDE_INT, DIVIDE_LONG. *)
Definition div_i (bits a b : Z) : outcome Z :=
  if b =? 0 then Die DIVIDE_ZERO else c_div bits a b.

(** spvm_implement.h:237-257 DIVIDE_UNSIGNED_INT, DIVIDE_UNSIGNED_LONG; the
    unsigned quotient is converted back by the assignment. *)
Definition divu_i (bits a b : Z) : outcome Z :=
  if b =? 0 then Die DIVIDE_ZERO
  else Ret (wrap (half bits) (c_unsigned bits a / c_unsigned bits b)).

(** spvm_implement.h:259-283 MODULO_INT, MODULO_LONG. *)
Definition mod_i (bits a b : Z) : outcome Z :=
  if b =? 0 then Die DIVIDE_ZERO
  else
    let! ret := c_rem bits a b in
    if negb (Bool.eqb (a <? 0) (b <? 0)) && negb (ret =? 0)
    then c_signed bits (ret + b)
    else Ret ret.

(** spvm_implement.h:285-305 MODULO_UNSIGNED_INT, MODULO_UNSIGNED_LONG. *)
Definition modu_i (bits a b : Z) : outcome Z :=
  if b =? 0 then Die DIVIDE_ZERO
  else Ret (wrap (half bits) (c_unsigned bits a mod c_unsigned bits b)).

Definition shift_ok (bits n : Z) : bool := (0 <=? n) && (n <? bits).

(** spvm_implement.h:307-308 LEFT_SHIFT_INT, LEFT_SHIFT_LONG. *)
Definition shl_i (bits a n : Z) : outcome Z :=
  if shift_ok bits n && (0 <=? a) then c_signed bits (a * 2 ^ n) else UB.
(** spvm_implement.h:310-311 RIGHT_ARITHMETIC_SHIFT_INT, _LONG. *)
Definition sar_i (bits a n : Z) : outcome Z :=
  if shift_ok bits n then Ret (Z.shiftr a n) else UB.
(** spvm_implement.h:313-314 RIGHT_LOGICAL_SHIFT_INT, _LONG. *)
Definition shr_i (bits a n : Z) : outcome Z :=
  if shift_ok bits n then Ret (wrap (half bits) (Z.shiftr (c_unsigned bits a) n)) else UB.

(** spvm_implement.h:316-323 BIT_AND, BIT_OR, BIT_XOR (two's complement). *)
Definition and_i (a b : Z) : outcome Z := Ret (Z.land a b).
Definition or_i (a b : Z) : outcome Z := Ret (Z.lor a b).
Definition xor_i (a b : Z) : outcome Z := Ret (Z.lxor a b).

(** spvm_implement.h:414-417 BIT_NOT, NEGATE. *)
Definition not_i (a : Z) : outcome Z := Ret (Z.lnot a).
Definition neg_i (bits a : Z) : outcome Z := c_signed bits (- a).

(** spvm_implement.h:449-482 NUMERIC_COMPARISON_EQ .. CMP for int and long. *)
Definition cmp_i (a b : Z) : Z := if b <? a then 1 else if a <? b then -1 else 0.

(** The binary integer operators under one name; for the unary ones the second
    operand is ignored. *)
Inductive iop :=
| OAdd | OSub | OMul | ODiv | ODivU | OMod | OModU | OShl | OSar | OShr
| OAnd | OOr | OXor | ONot | ONeg.

Definition int_op (bits : Z) (o : iop) (a b : Z) : outcome Z :=
  match o with
  | OAdd => add_i bits a b | OSub => sub_i bits a b | OMul => mul_i bits a b
  | ODiv => div_i bits a b | ODivU => divu_i bits a b
  | OMod => mod_i bits a b | OModU => modu_i bits a b
  | OShl => shl_i bits a b | OSar => sar_i bits a b | OShr => shr_i bits a b
  | OAnd => and_i a b | OOr => or_i a b | OXor => xor_i a b
  | ONot => not_i a | ONeg => neg_i bits a
  end.
