(** * Fn->to_double and Fn->to_float

    lib/SPVM/Fn.c: SPVM__Fn__to_double (498-521), SPVM__Fn__to_float (523-546), with strtod
    and strtof of the C standard (C11 7.22.1.3) in the C locale.

    Simplifications. The exact value of a text is a mantissa and a power of 2 or 10; its
    rounding to the floating point type, with the report of ERANGE, is a parameter. The two
    functions differ in this parameter and in two messages (the model uses one wording). *)
From Verif Require Import Base CLib.
Local Open Scope Z_scope.

(** The exact value of a text. *)
Inductive exact := Infinity (negative : bool) | Nan (negative : bool)
| Number (negative : bool) (mantissa radix exponent : Z).   (* mantissa * radix ^ exponent *)

(** Character classes of C11 7.4 in the C locale, used by the strtod called at Fn.c:511, 536. *)
Definition is_space (c : Z) : bool := (c =? 32) || ((9 <=? c) && (c <=? 13)).
Definition is_digit (c : Z) : bool := (48 <=? c) && (c <=? 57).
Definition lower (c : Z) : Z := if (65 <=? c) && (c <=? 90) then c + 32 else c.
Definition is_xdigit (c : Z) : bool := is_digit c || ((97 <=? lower c) && (lower c <=? 102)).
Definition is_nchar (c : Z) : bool := is_digit c || ((97 <=? lower c) && (lower c <=? 122)) || (c =? 95).
Definition digit_value (c : Z) : Z := if is_digit c then c - 48 else lower c - 97 + 10.
Definition is_e (c : Z) : bool := lower c =? 101.
Definition is_p (c : Z) : bool := lower c =? 112.

(** The longest prefix of characters of a class, and the rest (part of the strtod at Fn.c:511). *)
Fixpoint span (p : Z -> bool) (s : list Z) : list Z * list Z :=
  match s with
  | [] => ([], [])
  | c :: s' => if p c then let (a, r) := span p s' in (c :: a, r) else ([], s)
  end.
(** The optional sign (C11 7.22.1.3 paragraph 3; Fn.c:511). *)
Definition sign (s : list Z) : bool * list Z :=
  match s with
  | c :: r => if c =? 43 then (false, r) else if c =? 45 then (true, r) else (false, s)
  | [] => (false, [])
  end.
(** The value of digits (Fn.c:511). *)
Definition number (base : Z) (l : list Z) : Z := fold_left (fun n c => n * base + digit_value c) l 0.
(** Case is ignored; [w] is in lower case. *)
Fixpoint word (w s : list Z) : option (list Z) :=
  match w, s with
  | [], _ => Some s
  | c :: w, d :: s => if lower d =? c then word w s else None
  | _ :: _, [] => None
  end.

(** An exponent, if there is one. *)
Definition scan_exponent (is_exp : Z -> bool) (s : list Z) : Z * list Z :=
  match s with
  | c :: r =>
      if is_exp c then
        let (neg, r) := sign r in
        let (ds, r) := span is_digit r in
        match ds with
        | [] => (0, s)
        | _ => (if neg then - number 10 ds else number 10 ds, r)
        end
      else (0, s)
  | [] => (0, [])
  end.
(** Digits with at most one dot, one digit at least, and an exponent: the mantissa, the
    digits after the dot, the exponent and the rest. *)
Definition scan_number (is_dig is_exp : Z -> bool) (base : Z) (s : list Z) : option (Z * Z * Z * list Z) :=
  let (ip, r) := span is_dig s in
  let (fp, r) := match r with c :: r' => if c =? 46 then span is_dig r' else ([], r) | [] => ([], []) end in
  match ip ++ fp with
  | [] => None
  | ds => let (x, r) := scan_exponent is_exp r in Some (number base ds, zlen fp, x, r)
  end.
(** The subject of strtod after blanks and sign (C11 7.22.1.3 paragraph 3; Fn.c:511). *)
Definition scan_body (negative : bool) (s : list Z) : option (exact * list Z) :=
  match word (bytes "infinity") s with
  | Some r => Some (Infinity negative, r)
  | None =>
  match word (bytes "inf") s with
  | Some r => Some (Infinity negative, r)
  | None =>
  match word (bytes "nan") s with
  | Some r =>
      match r with
      | c :: r' =>
          if c =? 40 then
            let (_, r'') := span is_nchar r' in
            match r'' with d :: r3 => if d =? 41 then Some (Nan negative, r3) else Some (Nan negative, r) | [] => Some (Nan negative, r) end
          else Some (Nan negative, r)
      | [] => Some (Nan negative, [])
      end
  | None =>
  match word (bytes "0x") s with
  | Some r =>
      match scan_number is_xdigit is_p 16 r with
      | Some (m, f, x, r) => Some (Number negative m 2 (x - 4 * f), r)
      | None => Some (Number negative 0 10 0, zdrop 1 s)
      end
  | None =>
      match scan_number is_digit is_e 10 s with
      | Some (m, f, x, r) => Some (Number negative m 10 (x - f), r)
      | None => None
      end
  end end end end.
(** strtod: the value and the rest; the value 0 and the whole text if there is no number. *)
Definition strtod (s : list Z) : exact * list Z :=
  let (_, r) := span is_space s in
  let (negative, r) := sign r in
  match scan_body negative r with
  | Some x => x
  | None => (Number false 0 10 0, s)
  end.

Section To_double.
  Variable F : Type.
  (** The rounded value, and whether errno is ERANGE. *)
  Variable round : exact -> F * bool.

  (** Fn.c:498-521. *)
  Definition to_double (string : option (list Z)) : outcome F :=
    match string with
    | None => Die "The string $string must be defined."
    | Some s =>
        let (x, rest) := strtod (c_str s) in
        let (num, erange) := round x in
        match rest with
        | _ :: _ => Die "The string $string must be the string that can be parsed as a double number."
        | [] => if erange then Die "The string $string must be a double number in correct range." else Ret num
        end
    end.
End To_double.
