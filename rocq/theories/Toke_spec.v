(** * The literals (lib/SPVM/Document/Language/Tokenization.pm:612-1300) *)
From Verif Require Import Base CLib FnNum_spec Utf8_spec.

(** ** Integers *)

(** [text] is the digits [ds] with separators among them. *)
Inductive separated (base : Z) : list Z -> list Z -> Prop :=
| Sep_nil : separated base [] []
| Sep_digit : forall c v t ds, digit base c v -> separated base t ds -> separated base (c :: t) (c :: ds)
| Sep_underscore : forall t ds, separated base t ds -> separated base (95 :: t) ds.

(** The text of a literal, its base and its digits. *)
Inductive integer_text : list Z -> Z -> list Z -> Prop :=
| I_zero : integer_text [48] 10 [48]
| I_decimal : forall c v t ds, digit 10 c v -> c <> 48 -> separated 10 t ds -> integer_text (c :: t) 10 (c :: ds)
| I_hex : forall x t ds, x = 120 \/ x = 88 -> separated 16 t ds -> ds <> [] -> integer_text (48 :: x :: t) 16 ds
| I_octal : forall t ds, separated 8 t ds -> ds <> [] -> integer_text (48 :: t) 8 ds
| I_binary : forall x t ds, x = 98 \/ x = 66 -> separated 2 t ds -> ds <> [] -> integer_text (48 :: x :: t) 2 ds.

(** The value [w] documented for the number [v] of the literal, in an integer
    type of [bits] bits. *)
Definition integer_value (bits base : Z) (minus : bool) (v w : Z) : Prop :=
  if base =? 10 then w = (if minus then - v else v) /\ - 2 ^ (bits - 1) <= w < 2 ^ (bits - 1)
  else v < 2 ^ bits /\ exists u, - 2 ^ (bits - 1) <= u < 2 ^ (bits - 1) /\ u mod 2 ^ bits = v /\ w = if minus then - u else u.

(** [c] cannot be a part of a literal of the base: it ends it. (The letters x and
    b make a lone zero a prefix.) *)
Definition ends (base c : Z) : Prop :=
  (forall v, ~ digit (if base =? 16 then 16 else 10) c v) /\ c <> 95 /\
  (base = 10 -> c <> 46 /\ c <> 101 /\ c <> 69 /\ ~ In c (bytes "xXbB")) /\ (base = 16 -> c <> 46 /\ c <> 112 /\ c <> 80).
(** A type suffix. *)
Definition suffix_letter (c : Z) : Prop := In c (bytes "lLfFdD").

(** ** Escapes *)

Definition octal (c : Z) : Prop := exists v, digit 8 c v.
Definition hexadecimal (c : Z) : Prop := exists v, digit 16 c v.
Definition starts (f : Z -> Prop) (l : list Z) : Prop := match l with [] => False | c :: _ => f c end.

(** [ds] is at most [n] digits and not continued. *)
Definition some_digits (base : Z) (f : Z -> Prop) (n : Z) (ds rest : list Z) (v : Z) : Prop :=
  number base ds v /\ zlen ds <= n /\ (zlen ds = n \/ ~ starts f rest).

(** The text of one byte behind the backslash, common to both sorts of literal;
    [rest] is what follows. *)
Definition letters : list (Z * Z) :=
  [(97, 7); (116, 9); (110, 10); (102, 12); (114, 13); (34, 34); (39, 39); (92, 92)].
Inductive byte_escape : list Z -> Z -> list Z -> Prop :=
| E_letter : forall c v rest, In (c, v) letters -> byte_escape [c] v rest
| E_octal : forall ds v rest, some_digits 8 octal 3 ds rest v -> v <= 255 -> byte_escape ds v rest
| E_octal_brace : forall ds v rest, number 8 ds v -> zlen ds <= 3 -> v <= 255 -> byte_escape (111 :: 123 :: ds ++ [125]) v rest
| E_hex : forall ds v rest, some_digits 16 hexadecimal 2 ds rest v -> byte_escape (120 :: ds) v rest
| E_hex_brace : forall ds v rest, number 16 ds v -> zlen ds <= 2 -> byte_escape (120 :: 123 :: ds ++ [125]) v rest.

(** ** String literals *)
Definition raw_letters : list Z := bytes "!#%&()*+,-./89:;<=>?@ABDGHKNPRSVWXZ[]^_`bdghkpsvwz{|}~".

(** A part of a double-quoted literal and its bytes; [rest] is what follows,
    with the closing quote. *)
Inductive piece : list Z -> list Z -> list Z -> Prop :=
| P_plain : forall c rest, c <> 34 -> c <> 92 -> c <> 36 -> c <> 0 -> piece [c] [c] rest
| P_dollar : forall rest, piece [36] [36] (34 :: rest)
| P_byte : forall t v rest, byte_escape t v rest -> piece (92 :: t) [v] rest
| P_escaped_dollar : forall rest, piece [92; 36] [36] rest
| P_unicode : forall ds cp bs rest, number 16 ds cp -> zlen ds <= 8 -> wf_char bs cp ->
    piece (92 :: 78 :: 123 :: 85 :: 43 :: ds ++ [125]) bs rest
| P_raw : forall c rest, In c raw_letters -> (c = 78 -> ~ starts (eq 123) rest) -> piece [92; c] [92; c] rest.

(** The parts of the literal up to [rest]. *)
Inductive body : list Z -> list Z -> list Z -> Prop :=
| Body_nil : forall rest, body [] [] rest
| Body_cons : forall t bs t' bs' rest, piece t bs (t' ++ rest) -> body t' bs' rest -> body (t ++ t') (bs ++ bs') rest.

(** A variable in a string. *)
Definition word (c : Z) : Prop := 48 <= c <= 57 \/ 97 <= c <= 122 \/ 65 <= c <= 90 \/ c = 95.
Inductive var_name : list Z -> Prop :=
| Name_nil : var_name []
| Name_char : forall c t, word c -> var_name t -> var_name (c :: t)
| Name_colons : forall t, var_name t -> var_name (58 :: 58 :: t).
Inductive access : list Z -> Prop :=
| Acc_field : forall w, Forall word w -> access (123 :: w ++ [125])
| Acc_element : forall w, Forall word w -> access (91 :: w ++ [93]).
(** Accesses, the first with an arrow. *)
Inductive accesses : bool -> list Z -> Prop :=
| Accs_nil : forall b, accesses b []
| Accs_arrow : forall b a t, access a -> accesses true t -> accesses b (45 :: 62 :: a ++ t)
| Accs_plain : forall a t, access a -> accesses true t -> accesses true (a ++ t).
(** [rest] begins with nothing that could belong to the variable. *)
Definition after_var (rest : list Z) : Prop :=
  ~ starts word rest /\ ~ starts (eq 58) rest /\ ~ starts (eq 125) rest /\ ~ starts (eq 123) rest /\ ~ starts (eq 91) rest /\
  rest <> [] /\ (starts (eq 45) rest -> exists c r, rest = 45 :: c :: r /\ c <> 62).
(** The text of a variable behind the dollar: $x, $x->{y}[1], ${x}, $$x, $${x},
    $@, ${@}. *)
Inductive expansion : list Z -> list Z -> Prop :=
| X_var : forall n a rest, var_name n -> n <> [] -> accesses false a -> after_var rest -> expansion (n ++ a) rest
| X_brace : forall n rest, var_name n -> expansion (123 :: n ++ [125]) rest
| X_ref : forall n rest, var_name n -> n <> [] -> after_var rest -> expansion (36 :: n) rest
| X_ref_brace : forall n rest, var_name n -> expansion (36 :: 123 :: n ++ [125]) rest
| X_exception : forall rest, expansion [64] rest
| X_exception_brace : forall rest, expansion [123; 64; 125] rest.

(** ** Single-quoted literals *)
Inductive single : list Z -> list Z -> Prop :=
| S_nil : single [] []
| S_plain : forall c t bs, c <> 39 -> c <> 92 -> c <> 0 -> single t bs -> single (c :: t) (c :: bs)
| S_escape : forall c t bs, c = 39 \/ c = 92 -> single t bs -> single (92 :: c :: t) (c :: bs).

(** ** Character literals: the text between the quotes and the byte *)
Inductive char_text : list Z -> Z -> list Z -> Prop :=
| Ch_plain : forall c rest, c <> 39 -> c <> 92 -> char_text [c] c rest
| Ch_escape : forall t v rest, byte_escape t v rest -> char_text (92 :: t) v rest.
(** The byte as a number of the signed type byte. *)
Definition as_byte (v w : Z) : Prop := -128 <= w <= 127 /\ w mod 256 = v.
