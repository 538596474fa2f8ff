(** * The texts of floating point numbers (C50)

    The grammar of C11 7.22.1.3: blanks, a sign, and a decimal number, a hexadecimal number,
    infinity or NaN. *)
From Verif Require Import Base CLib FnFloat_model.
Local Open Scope Z_scope.

Definition blank (c : Z) : Prop := c = 32 \/ 9 <= c <= 13.
Definition decimal (c : Z) : Prop := 48 <= c <= 57.
Definition hexadecimal (c : Z) : Prop := 48 <= c <= 57 \/ 97 <= c <= 102 \/ 65 <= c <= 70.
Definition name_char (c : Z) : Prop := 48 <= c <= 57 \/ 97 <= c <= 122 \/ 65 <= c <= 90 \/ c = 95.

(** A sign: none, plus or minus. *)
Inductive signed : bool -> list Z -> Prop :=
| S_none : signed false []
| S_plus : signed false [43]
| S_minus : signed true [45].

(** [n] is the number that the digits [l] denote in base [b], the last digit being the
    least one. *)
Definition digit_of (c v : Z) : Prop :=
  (48 <= c <= 57 /\ v = c - 48) \/ (97 <= c <= 102 /\ v = c - 87) \/ (65 <= c <= 70 /\ v = c - 55).
Inductive value_of (b : Z) : list Z -> Z -> Prop :=
| V_nil : value_of b [] 0
| V_snoc l n c v : value_of b l n -> digit_of c v -> value_of b (l ++ [c]) (n * b + v).

(** The exponent part: nothing, or a letter, a sign and digits. *)
Inductive exponent (letter : Z -> Prop) : list Z -> Z -> Prop :=
| E_none : exponent letter [] 0
| E_some c neg sg ds n : letter c -> signed neg sg -> ds <> [] -> Forall decimal ds -> value_of 10 ds n ->
    exponent letter (c :: sg ++ ds) (if neg then - n else n).

(** Digits, perhaps with a dot, and an exponent: [m] is the number of all digits, [f] how
    many are after the dot. *)
Inductive fraction (dig : Z -> Prop) (letter : Z -> Prop) (b : Z) : list Z -> Z -> Z -> Z -> Prop :=
| F_int ip ep m x : ip <> [] -> Forall dig ip -> value_of b ip m -> exponent letter ep x ->
    fraction dig letter b (ip ++ ep) m 0 x
| F_dot ip fp ep m x : ip ++ fp <> [] -> Forall dig ip -> Forall dig fp -> value_of b (ip ++ fp) m -> exponent letter ep x ->
    fraction dig letter b (ip ++ 46 :: fp ++ ep) m (zlen fp) x.

(** The word [w], which is in lower case, in any case. *)
Definition same_word (w s : list Z) : Prop := Forall2 (fun c d => d = c \/ d = c - 32) w s.

Inductive body : bool -> list Z -> exact -> Prop :=
| B_decimal neg s m f x : fraction decimal (fun c => c = 101 \/ c = 69) 10 s m f x -> body neg s (Number neg m 10 (x - f))
| B_hexadecimal neg c s m f x : c = 120 \/ c = 88 -> fraction hexadecimal (fun c => c = 112 \/ c = 80) 16 s m f x ->
    body neg (48 :: c :: s) (Number neg m 2 (x - 4 * f))
| B_infinity neg s : same_word (bytes "inf") s \/ same_word (bytes "infinity") s -> body neg s (Infinity neg)
| B_nan neg s : same_word (bytes "nan") s -> body neg s (Nan neg)
| B_nan_name neg s n : same_word (bytes "nan") s -> Forall name_char n -> body neg (s ++ 40 :: n ++ [41]) (Nan neg).

Definition float_text (s : list Z) (x : exact) : Prop :=
  exists w sg neg t, s = w ++ sg ++ t /\ Forall blank w /\ signed neg sg /\ body neg t x.
