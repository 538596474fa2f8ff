(** * strtol / strtoll (ISO C 7.22.1.4)

    On a C string (a byte list; the terminating NUL is the end of the list).
    Result: the value, the number of characters consumed (endptr - nptr) and
    whether the value was out of range (errno = ERANGE). "C" locale. *)

From Verif Require Import Base.

Definition c_isspace (c : Z) : bool := ((9 <=? c) && (c <=? 13)) || (c =? 32).

(** The value of a digit or letter; 36 if it is neither. *)
Definition digit_of (c : Z) : Z :=
  if (48 <=? c) && (c <=? 57) then c - 48
  else if (97 <=? c) && (c <=? 122) then c - 87
  else if (65 <=? c) && (c <=? 90) then c - 55
  else 36.

Fixpoint skip_while (p : Z -> bool) (s : list Z) : Z * list Z :=
  match s with
  | [] => (0, [])
  | c :: r => if p c then let (n, r') := skip_while p r in (n + 1, r') else (0, s)
  end.

(** The longest prefix of digits of the base, with its value. *)
Fixpoint read_digits (base : Z) (s : list Z) (acc n : Z) : Z * Z :=
  match s with
  | [] => (acc, n)
  | c :: r => if digit_of c <? base then read_digits base r (acc * base + digit_of c) (n + 1) else (acc, n)
  end.

(** The optional sign: is it a minus, its length, what follows. *)
Definition take_sign (s : list Z) : bool * Z * list Z :=
  match s with
  | c :: r => if c =? 45 then (true, 1, r) else if c =? 43 then (false, 1, r) else (false, 0, s)
  | [] => (false, 0, s)
  end.

(** The optional 0x or 0X of base 16, when a hexadecimal digit follows it. *)
Definition take_prefix (base : Z) (s : list Z) : Z * list Z :=
  match s with
  | z :: x :: d :: r =>
      if (base =? 16) && (z =? 48) && ((x =? 120) || (x =? 88)) && (digit_of d <? 16)
      then (2, d :: r) else (0, s)
  | _ => (0, s)
  end.

Definition strto (lo hi base : Z) (s : list Z) : Z * Z * bool :=
  let (nspace, s1) := skip_while c_isspace s in
  let '(neg, nsign, s2) := take_sign s1 in
  let (npre, s3) := take_prefix base s2 in
  let (v, n) := read_digits base s3 0 0 in
  if n =? 0 then (0, 0, false)
  else
    let v := if neg : bool then - v else v in
    let used := nspace + nsign + npre + n in
    if v <? lo then (lo, used, true)
    else if hi <? v then (hi, used, true)
    else (v, used, false).

Notation INT64_MAX := 9223372036854775807.
Notation INT64_MIN := (-9223372036854775808).

Definition strtoll (base : Z) (s : list Z) : Z * Z * bool := strto INT64_MIN INT64_MAX base s.
