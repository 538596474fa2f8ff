(** * Literals in the tokenizer (lib/SPVM/Builder/src/spvm_toke.c)

    A pointer into the source is the list of the bytes from there on; the last
    byte of every source is the terminating NUL.  Reading through a pointer past
    the NUL is [UB].  A compilation error is [Die]; the code records the message
    and goes on to find more errors, the model stops at the first one.
    Characters are compared with ASCII constants only, so the sign of char does
    not matter. *)
From Verif Require Import Base CLib CStrto FnMem_model Utf8_model.

Definition deref (p : list Z) : outcome Z := match p with [] => UB | c :: _ => Ret c end.
Definition next (p : list Z) : list Z := tl p.

(** spvm_toke.c:2942-2962, 3079-3121. *)
Definition isdigit_ascii (c : Z) : bool := (48 <=? c) && (c <=? 57).
Definition is_octal_number (c : Z) : bool := (48 <=? c) && (c <=? 55).
Definition is_hex_number (c : Z) : bool :=
  isdigit_ascii c || ((97 <=? c) && (c <=? 102)) || ((65 <=? c) && (c <=? 70)).
Definition isalnum_ascii (c : Z) : bool :=
  isdigit_ascii c || ((97 <=? c) && (c <=? 122)) || ((65 <=? c) && (c <=? 90)).

(** ** strtoull (ISO C 7.22.1.4) *)
Notation UINT32_MAX := 4294967295.
Notation UINT64_MAX := 18446744073709551615.
Definition strtoull (base : Z) (s : list Z) : Z * Z * bool :=
  let (nspace, s1) := skip_while c_isspace s in
  let '(neg, nsign, s2) := take_sign s1 in
  let (npre, s3) := take_prefix base s2 in
  let (v, n) := read_digits base s3 0 0 in
  if n =? 0 then (0, 0, false)
  else
    let used := nspace + nsign + npre + n in
    if UINT64_MAX <? v then (UINT64_MAX, used, true)
    else ((if neg : bool then - v else v) mod 2 ^ 64, used, false).

Section Number.
  (** Floating point numbers, strtof and strtod (value and number of characters
      used), and negation. *)
  Variables F D : Type.
  Variable strtof : list Z -> F * Z.
  Variable strtod : list Z -> D * Z.
  Variable fneg : F -> F.
  Variable dneg : D -> D.

  Inductive constant := CInt (v : Z) | CLong (v : Z) | CFloat (f : F) | CDouble (d : D).

  (** The notation, spvm_toke.c:1658-1680. *)
  Definition radix (p : list Z) : outcome Z :=
    let! c := deref p in
    if c =? 48 then
      let! c1 := deref (next p) in
      Ret (if (c1 =? 120) || (c1 =? 88) then 16
           else if (c1 =? 98) || (c1 =? 66) then 2
           else if isdigit_ascii c1 || (c1 =? 95) then 8
           else 10)
    else Ret 10.

  (** The scanning loops, spvm_toke.c:1689-1742: the pointer behind the literal,
      is_floating_number, is_hex_floating_number. *)
  Fixpoint scan_hex (exponent floating hexfloat : bool) (p : list Z) : outcome (list Z * bool * bool) :=
    match p with
    | [] => UB
    | c :: q =>
        let sign := (c =? 45) || (c =? 43) in
        let ex := (c =? 112) || (c =? 80) in
        if is_hex_number c || (c =? 95) || (c =? 46) || ex || sign then
          if negb exponent && sign then Ret (p, floating, hexfloat)
          else scan_hex (exponent || ex) (floating || (c =? 46) || ex) (hexfloat || ex) q
        else Ret (p, floating, hexfloat)
    end.
  Fixpoint scan_digits (p : list Z) : outcome (list Z * bool * bool) :=
    match p with
    | [] => UB
    | c :: q => if isdigit_ascii c || (c =? 95) then scan_digits q else Ret (p, false, false)
    end.
  Fixpoint scan_decimal (exponent floating : bool) (p : list Z) : outcome (list Z * bool * bool) :=
    match p with
    | [] => UB
    | c :: q =>
        let sign := (c =? 45) || (c =? 43) in
        let fl := (c =? 46) || (c =? 101) || (c =? 69) in
        if isdigit_ascii c || fl || sign || (c =? 95) then
          if negb exponent && sign then Ret (p, floating, false)
          else scan_decimal (exponent || fl) (floating || fl) q
        else Ret (p, floating, false)
    end.
  Definition scan (digit : Z) (p : list Z) : outcome (list Z * bool * bool) :=
    let p := next p in
    if digit =? 16 then scan_hex false false false (next (next p))
    else if (digit =? 8) || (digit =? 2) then scan_digits (next p)
    else scan_decimal false false p.

  (** The bytes between two pointers. *)
  Definition between (p q : list Z) : list Z := firstn (length p - length q) p.

  (** parse_start_offset, spvm_toke.c:1814-1829. *)
  Definition parse_start_offset (digit : Z) : Z :=
    if digit =? 16 then 2 else if digit =? 8 then 1 else if digit =? 2 then 2 else 0.

  Definition range_error : string := "The numeric literal is out of range.".

  (** int, spvm_toke.c:1809-1872, and long, 1874-1936, with [bits] 32 or 64. *)
  Definition parse_integer (bits digit : Z) (minus : bool) (literal : list Z) : outcome Z :=
    let text := zdrop (parse_start_offset digit) literal in
    let '(v, used, erange) := strtoull digit text in
    let unsigned := (digit =? 16) || (digit =? 8) || (digit =? 2) in
    let max := 2 ^ (bits - 1) - 1 in
    let limit := if unsigned then 2 ^ bits - 1 else if minus then max + 1 else max in
    check! negb ((used <? zlen text) || erange || (limit <? v)) else range_error in
    if unsigned then
      let v := wrap (2 ^ (bits - 1)) v in
      if minus then if v =? - 2 ^ (bits - 1) then UB else Ret (- v) else Ret v
    else Ret (wrap (2 ^ (bits - 1)) (if minus then (- v) mod 2 ^ 64 else v)).

  (** A numeric literal, spvm_toke.c:1647-1993: the constant and the pointer
      behind it. [p] points at the first digit. *)
  Definition numeric_literal (minus : bool) (p : list Z) : outcome (constant * list Z) :=
    let! digit := radix p in
    let! (q, floating, hexfloat) := scan digit p in
    let literal := filter (fun c => negb (c =? 95)) (between p q) in
    let last := List.last (between p q) 0 in
    let back := hexfloat && negb (isdigit_ascii last) in
    let q := if back then last :: q else q in
    let literal := if back then removelast literal else literal in
    let! c := deref q in
    if (c =? 108) || (c =? 76) then
      let! v := parse_integer 64 digit minus literal in Ret (CLong v, next q)
    else if (c =? 102) || (c =? 70) || ((c =? 100) || (c =? 68)) || floating then
      if (c =? 102) || (c =? 70) then
        let (f, used) := strtof literal in
        check! used =? zlen literal else "Invalid float literal." in
        Ret (CFloat (if minus then fneg f else f), next q)
      else
        let (d, used) := strtod literal in
        check! used =? zlen literal else "Invalid double literal." in
        Ret (CDouble (if minus then dneg d else d), if (c =? 100) || (c =? 68) then next q else q)
    else
      let! v := parse_integer 32 digit minus literal in Ret (CInt v, q).
End Number.
Arguments CInt {F D} v.
Arguments CLong {F D} v.
Arguments CFloat {F D} f.
Arguments CDouble {F D} d.

(** ** Escapes *)

(** At most [n] characters for which [f] holds. *)
Fixpoint up_to (n : nat) (f : Z -> bool) (p : list Z) : outcome (list Z * list Z) :=
  match n with
  | O => let! _ := deref p in Ret ([], p)
  | S n =>
      match p with
      | [] => UB
      | c :: q => if f c then let! (ds, r) := up_to n f q in Ret (c :: ds, r) else Ret ([], p)
      end
  end.

(** spvm_toke.c:2964-3020: the character and the pointer behind it. [p] points
    at the character behind the backslash, an octal digit or "o". *)
Definition parse_octal_escape (p : list Z) : outcome (Z * list Z) :=
  let! c := deref p in
  let! (has_brace, p) :=
    if c =? 111 then
      let! c := deref (next p) in
      check! c =? 123 else "\o of the octal escape character must have its brace." in
      let! c := deref (next (next p)) in
      check! is_octal_number c else "At least one octal number must be followed by \o{ of the octal escape character." in
      Ret (true, next (next p))
    else Ret (false, p) in
  let! (ds, p) := up_to 3 is_octal_number p in
  let '(number, _, _) := strtoll 8 ds in
  check! number <=? 255 else "The maxmum number of the octal escape charcater is 377." in
  if has_brace : bool then
    let! c := deref p in
    check! c =? 125 else "The octal escape character is not closed by }." in
    Ret (number, next p)
  else Ret (number, p).

(** spvm_toke.c:3022-3066. [p] points at the "x". *)
Definition parse_hex_escape (p : list Z) : outcome (Z * list Z) :=
  let p := next p in
  let! c := deref p in
  let has_brace := c =? 123 in
  let p := if has_brace then next p else p in
  let! (ds, p) := up_to 2 is_hex_number p in
  check! 0 <? zlen ds else "One or tow hexadecimal numbers must be followed by \x of the hexadecimal escape character." in
  let '(number, _, _) := strtoll 16 ds in
  if has_brace then
    let! c := deref p in
    check! c =? 125 else "The hexadecimal escape character is not closed by }." in
    Ret (number, next p)
  else Ret (number, p).

(** All characters for which [f] holds. *)
Fixpoint while_ (f : Z -> bool) (p : list Z) : outcome (list Z * list Z) :=
  match p with
  | [] => UB
  | c :: q => if f c then let! (ds, r) := while_ f q in Ret (c :: ds, r) else Ret ([], p)
  end.

(** \N{U+...}, spvm_toke.c:1231-1283. [p] points at the "{". *)
Definition parse_unicode_escape (p : list Z) : outcome (list Z * list Z) :=
  let! c1 := deref (next p) in
  check! c1 =? 85 else "Invalid Unicode escape character." in
  let! c2 := deref (next (next p)) in
  check! c2 =? 43 else "Invalid Unicode escape character." in
  let! (ds, p) := while_ is_hex_number (next (next (next p))) in
  let! c := deref p in
  check! c =? 125 else "A Unicode escape character must be closed by }." in
  check! 1 <=? zlen ds else "One or more than one hexadecimal numbers must be followed by \N{U+ of the Unicode escape character." in
  check! zlen ds <=? 8 else "Too large Unicode escape character." in
  let '(unicode, _, _) := strtoll 16 ds in
  (* passed as int32_t, spvm_utf8.c:55 *)
  check! is_unicode_scalar_value (wrap32 unicode) else "The code point of Unicode escape character must be a Unicode scalar value." in
  Ret (codepoint_to_utf8 (wrap32 unicode), next p).

(** The escapes with one letter, spvm_toke.c:1172-1216; those of a character
    literal, 909-940, lack the dollar. *)
Definition char_escape (c : Z) : option Z :=
  if c =? 97 then Some 7 else if c =? 116 then Some 9 else if c =? 110 then Some 10 else if c =? 102 then Some 12
  else if c =? 114 then Some 13 else if c =? 34 then Some 34 else if c =? 39 then Some 39 else if c =? 92 then Some 92
  else None.
Definition string_escape (c : Z) : option Z := if c =? 36 then Some 36 else char_escape c.

(** The raw escapes, spvm_toke.c:1285-1346. *)
Definition raw_escape (c : Z) : bool :=
  existsb (Z.eqb c) (bytes "!#%&()*+,-./123456789:;<=>?@ABDGHKNPRSVWXZ[]^_`bdghkpsvwz{|}~").

(** ** Character literals, spvm_toke.c:898-973. [p] points behind the quote. *)
Definition character_literal (p : list Z) : outcome (Z * list Z) :=
  let! c := deref p in
  check! negb (c =? 39) else "The character literal cannnot be empty." in
  let! (ch, p) :=
    if c =? 92 then
      let p := next p in
      let! e := deref p in
      match char_escape e with
      | Some v => Ret (v, next p)
      | None =>
          if is_octal_number e || (e =? 111) then parse_octal_escape p
          else if e =? 120 then parse_hex_escape p
          else Die "The invalid charater literal escape character."
      end
    else Ret (c, next p) in
  let! c := deref p in
  check! c =? 39 else "The character literal must ends with '." in
  Ret (wrap8 ch, next p).

(** ** String literals *)

(** Through the name of the variable, spvm_toke.c:1042-1059. A "}" without a
    brace does not move the pointer. *)
Fixpoint skip_name (fuel : nat) (have_brace : bool) (p : list Z) : outcome (list Z) :=
  match fuel with
  | O => Fuel
  | S fuel =>
      let! c := deref p in
      if isalnum_ascii c || (c =? 95) then skip_name fuel have_brace (next p)
      else
        let! c1 := if c =? 58 then deref (next p) else Ret 0 in
        if (c =? 58) && (c1 =? 58) then skip_name fuel have_brace (next (next p))
        else if c =? 125 then
          if have_brace then Ret (next p) else skip_name fuel have_brace p
        else Ret p
  end.

Definition is_arrow (p : list Z) : outcome bool :=
  let! c := deref p in
  if c =? 45 then let! c1 := deref (next p) in Ret (c1 =? 62) else Ret false.

(** Through "->{x}[0]", spvm_toke.c:1069-1133. *)
Fixpoint skip_access (fuel : nat) (has_arrow : bool) (p : list Z) : outcome (list Z) :=
  match fuel with
  | O => Fuel
  | S fuel =>
      let! a := if has_arrow then Ret true else is_arrow p in
      if a : bool then
        let p := if has_arrow then p else next (next p) in
        let! c := deref p in
        check! (c =? 123) || (c =? 91) else "The character after -> in a string literal must be [ or {." in
        let! (_, p) := while_ (fun c => isalnum_ascii c || (c =? 95)) (next p) in
        let! e := deref p in
        check! e =? (if c =? 123 then 125 else 93) else "The getting field or array element in a string literal must be closed." in
        let p := next p in
        let! a := is_arrow p in
        let p := if a : bool then next (next p) else p in
        let! c := deref p in
        if (c =? 123) || (c =? 91) then skip_access fuel true p else Ret p
      else Ret p
  end.

(** The position of the next string literal, spvm_toke.c:1013-1135. [p] points
    behind the dollar. *)
Definition skip_expansion (fuel : nat) (p : list Z) : outcome (list Z) :=
  let! c := deref p in
  let var_is_ref := c =? 36 in
  let p := if var_is_ref then next p else p in
  let! c := deref p in
  let var_have_brace := c =? 123 in
  let p := if var_have_brace then next p else p in
  let! c := deref p in
  if c =? 64 then
    let p := next p in
    if var_have_brace then
      let! c := deref p in Ret (if c =? 125 then next p else p)
    else Ret p
  else
    let! p := skip_name fuel var_have_brace p in
    if negb var_have_brace && negb var_is_ref then skip_access fuel false p else Ret p.

(** The first pass, spvm_toke.c:997-1159: the pointer at the end, and the
    position of the next string literal if a variable ends it. *)
Fixpoint find_end (fuel : nat) (p : list Z) : outcome (list Z * option (list Z)) :=
  match fuel with
  | O => Fuel
  | S fuel =>
      let! c := deref p in
      if c =? 34 then Ret (p, None)
      else
        let! last := if c =? 36 then let! c1 := deref (next p) in Ret (c1 =? 34) else Ret true in
        if negb last then
          let! n := skip_expansion fuel (next p) in Ret (p, Some n)
        else if c =? 0 then Die "The string literal must be end with a double quote."
        else if c =? 92 then find_end fuel (next (next p))
        else find_end fuel (next p)
  end.

(** Bytes stored in the temporary block of [size] bytes. *)
Definition store (size : Z) (buf bs : list Z) : outcome (list Z) :=
  if zlen buf + zlen bs <=? size then Ret (buf ++ bs) else UB.

(** One turn of the second pass, spvm_toke.c:1170-1376: the bytes of one escape
    or character. *)
Definition string_piece (p : list Z) : outcome (list Z * list Z) :=
  let! c := deref p in
  if c =? 92 then
    let p := next p in
    let! e := deref p in
    match string_escape e with
    | Some v => Ret ([v], next p)
    | None =>
        if is_octal_number e || (e =? 111) then let! (v, p) := parse_octal_escape p in Ret ([v], p)
        else if e =? 120 then let! (v, p) := parse_hex_escape p in Ret ([v], p)
        else
          let! c1 := if e =? 78 then deref (next p) else Ret 0 in
          if (e =? 78) && (c1 =? 123) then parse_unicode_escape (next p)
          else if raw_escape e then Ret ([92; e], next p)
          else Die "Invalid string literal escape character."
    end
  else Ret ([c], next p).

(** The second pass. *)
Fixpoint string_loop (fuel : nat) (size : Z) (p stop buf : list Z) : outcome (list Z) :=
  match fuel with
  | O => Fuel
  | S fuel =>
      if Nat.eqb (length p) (length stop) then Ret buf
      else
        let! (bs, p) := string_piece p in
        let! buf := store size buf bs in
        string_loop fuel size p stop buf
  end.

(** A double-quoted string literal, spvm_toke.c:975-1399: its bytes, the pointer
    where the tokenizer goes on, and the position of the next string literal
    if a variable follows. [p] points behind the quote (or at the rest of a
    literal after a variable). *)
Definition string_literal (fuel : nat) (p : list Z) : outcome (list Z * list Z * option (list Z)) :=
  let! c := deref p in
  if c =? 34 then Ret ([], next p, None)
  else
    let! (stop, expansion) := find_end fuel p in
    let! size := c_mul (zlen p - zlen stop) 4 in
    let! bs := string_loop fuel size p stop [] in
    Ret (bs, match expansion with Some _ => stop | None => next stop end, expansion).

(** Single-quoted, spvm_toke.c:1543-1646. [p] points behind q'. *)
Fixpoint find_quote (fuel : nat) (p : list Z) : outcome (list Z) :=
  match fuel with
  | O => Fuel
  | S fuel =>
      let! c := deref p in
      if c =? 39 then Ret p
      else if c =? 0 then Die "A single-quoted string literal must be end with '."
      else if c =? 92 then find_quote fuel (next (next p))
      else find_quote fuel (next p)
  end.
Fixpoint quote_loop (fuel : nat) (size : Z) (p stop buf : list Z) : outcome (list Z) :=
  match fuel with
  | O => Fuel
  | S fuel =>
      if Nat.eqb (length p) (length stop) then Ret buf
      else
        let! c := deref p in
        let! (b, p) :=
          if c =? 92 then
            let! e := deref (next p) in
            check! (e =? 92) || (e =? 39) else "The escape character in a single-quoted string literal is invalid." in
            Ret (e, next (next p))
          else Ret (c, next p) in
        let! buf := store size buf [b] in
        quote_loop fuel size p stop buf
  end.
Definition single_quoted (fuel : nat) (p : list Z) : outcome (list Z * list Z) :=
  let! c := deref p in
  if c =? 39 then Ret ([], next p)
  else
    let! stop := find_quote fuel p in
    let! bs := quote_loop fuel (zlen p - zlen stop) p stop [] in
    Ret (bs, next stop).

(** A source: its bytes and the NUL. *)
Definition source (s : string) : list Z := bytes s ++ [0].

Example number_ex :
  let lit := numeric_literal unit unit (fun _ => (tt, 0)) (fun _ => (tt, 0)) (fun x => x) (fun x => x) in
  lit false (source "123_456;") = Ret (CInt 123456, source ";") /\
  lit true (source "2147483648 ") = Ret (CInt (-2147483648), source " ") /\
  lit false (source "0xFFFF_FFFF;") = Ret (CInt (-1), source ";") /\
  lit false (source "0777L;") = Ret (CLong 511, source ";") /\
  lit false (source "0b101;") = Ret (CInt 5, source ";") /\
  lit false (source "2147483648;") = Die range_error.
Proof. repeat split; reflexivity. Qed.
Example string_ex :
  string_literal 100 (source "a\t\x41\x{4}\101\o{12}\N{U+3042}\d$"" . 5") =
    Ret ([97; 9; 65; 4; 65; 10; 227; 129; 130; 92; 100; 36], source " . 5", None) /\
  string_literal 100 (source "a $foo->{x}[3] b""") = Ret ([97; 32], source "$foo->{x}[3] b""", Some (source " b""")) /\
  character_literal (source "\xFF';") = Ret (-1, source ";") /\
  single_quoted 100 (source "a\\b\'c';") = Ret ([97; 92; 98; 39; 99], source ";").
Proof. repeat split; reflexivity. Qed.
