(** * Numbers in Fn (lib/SPVM/Fn.spvm, lib/SPVM/Fn.c)

    int and long arithmetic of SPVM code wraps around (see C15). *)
From Verif Require Import Base CLib Array_model CStrto FnMem_model FnStr_model.

(** strtol: long has 64 bits, or 32 (Windows). *)
Definition strtol (long64 : bool) (base : Z) (s : list Z) : Z * Z * bool :=
  if long64 then strtoll base s else strto INT32_MIN INT32_MAX base s.

Definition base_ok (digit : Z) : bool := (digit =? 2) || (digit =? 8) || (digit =? 10) || (digit =? 16).

(** SPVM__Fn__to_int_with_base, Fn.c:548-576.  [end] points to the terminating
    NUL if all characters of the C string were consumed. *)
Definition to_int_with_base (long64 : bool) (string : option (list Z)) (digit : Z) : outcome Z :=
  match string with
  | None => Die "The string $string must be defined."
  | Some s =>
      check! base_ok digit else "The digit $digit must be one of 2, 8, 10, or 16." in
      let '(num, used, erange) := strtol long64 digit (c_str s) in
      if negb (used =? zlen (c_str s)) then Die "The string $string must be the string that can be parsed as a %d-digit 32-bit integer"
      else if erange || (num <? INT32_MIN) || (num >? INT32_MAX) then Die "The string $string must be a 32-bit integer in correct range."
      else Ret (wrap32 num)
  end.

(** SPVM__Fn__to_long_with_base, Fn.c:578-606. *)
Definition to_long_with_base (string : option (list Z)) (digit : Z) : outcome Z :=
  match string with
  | None => Die "The string $string must be defined."
  | Some s =>
      check! base_ok digit else "The digit $digit must be one of 2, 8, 10, or 16." in
      let '(num, used, erange) := strtoll digit (c_str s) in
      if negb (used =? zlen (c_str s)) then Die "The string $string must be the string that can be parsed as a %d-digit 64-bit integer"
      else if erange : bool then Die "The string $string must be a 64-bit integer in correct range."
      else Ret num
  end.

(** to_int, Fn.spvm:857-859, and to_long, Fn.spvm:863-865. *)
Definition to_int (long64 : bool) (string : option (list Z)) : outcome Z := to_int_with_base long64 string 10.
Definition to_long (string : option (list Z)) : outcome Z := to_long_with_base string 10.

(** abs, Fn.spvm:57-67, and labs, Fn.spvm:499-509. *)
Definition abs (value : Z) : Z := if value >? 0 then value else wrap32 (- value).
Definition labs (value : Z) : Z := if value >? 0 then value else wrap64 (- value).

(** The loop of powi, Fn.spvm:584-586. *)
Fixpoint powi_loop (n : nat) (base ret : Z) : Z :=
  match n with O => ret | S n => powi_loop n base (wrap32 (ret * base)) end.

(** powi, Fn.spvm:571-589. *)
Definition powi (base exponent : Z) : outcome Z :=
  check! exponent >=? 0 else "The exponent number $exponant must be greater than or equal to 0." in
  check! negb (base =? 0) || negb (exponent =? 0)
    else "If the base number $base is 0, the exponent number $exponant number cannnot be 0." in
  Ret (powi_loop (Z.to_nat exponent) base 1).

(** The loop of powl, Fn.spvm:603-605: the counter is an int, the exponent a
    long. *)
Fixpoint powl_loop (fuel : nat) (base exponent i ret : Z) : outcome Z :=
  match fuel with
  | O => Fuel
  | S fuel =>
      if i <? exponent then powl_loop fuel base exponent (wrap32 (i + 1)) (wrap64 (ret * base)) else Ret ret
  end.

(** powl, Fn.spvm:591-608. *)
Definition powl (fuel : nat) (base exponent : Z) : outcome Z :=
  check! exponent >=? 0 else "The exponent number $exponant number must be greater than or equal to 0." in
  check! negb (base =? 0) || negb (exponent =? 0)
    else "If the base number $base number is 0, the exponent number $exponant number cannnot be 0." in
  powl_loop fuel base exponent 0 1.

(** The value of a digit in hex, Fn.spvm:180-188. *)
Definition hex_digit_value (c : Z) : Z :=
  if (c >=? 48) && (c <=? 57) then c - 48
  else if (c >=? 97) && (c <=? 102) then c - 87
  else if (c >=? 65) && (c <=? 70) then c - 55
  else 0.

(** The loop of hex, Fn.spvm:172-192: the [n] characters that are left, from
    the last one on. *)
Fixpoint hex_loop (n : nat) (s : list Z) (digit value : Z) : outcome Z :=
  match n with
  | O => Ret value
  | S n =>
      let! c := char_at s (Z.of_nat n) in
      check! negb (is_hex_digit c =? 0) else "The hex string $hex_string must contain only hex characters." in
      let! p := powi 16 digit in
      hex_loop n s (digit + 1) (wrap32 (value + wrap32 (hex_digit_value c * p)))
  end.

(** hex, Fn.spvm:159-195. *)
Definition hex (string : option (list Z)) : outcome Z :=
  match string with
  | None => Die "The hex string $hex_string must be defined."
  | Some s =>
      check! (zlen s >=? 1) && (zlen s <=? 8) else "The length of $hex string must be 1 to 8." in
      hex_loop (Z.to_nat (zlen s)) s 0 0
  end.
