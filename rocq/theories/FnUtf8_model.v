(** * Code point functions of Fn (lib/SPVM/Fn.spvm)

    The IntList and StringList in which results are collected are Coq lists
    (C30, C31). *)
From Verif Require Import Base StM CLib Array_model Utf8_model FnMem_model FnStr_model StrBuf_model.

(** chr, Fn.spvm:96-105, with _chr_native, Fn.c:97-115. *)
Definition chr (code_point : Z) : option (list Z) :=
  if is_unicode_scalar_value code_point then Some (codepoint_to_utf8 code_point) else None.

(** ord, Fn.spvm:564-569. *)
Definition ord (string : option (list Z)) : outcome Z :=
  let! (_, code_point) := get_code_point string 0 in Ret code_point.

(** look_code_point, Fn.spvm:553-558: the offset afterwards and the code point. *)
Definition look_code_point (string : option (list Z)) (offset : Z) : outcome (Z * Z) :=
  let! (_, code_point) := get_code_point string offset in Ret (offset, code_point).

(** The loops "while ($offset < $string_length) { my $code_point =
    &get_code_point($string, \$offset); ... }" of the functions below.  [body]
    is the rest of the loop body; its flag says that the loop is left.  [fuel]
    bounds the number of iterations. *)
Fixpoint cp_loop {A} (fuel : nat) (s : list Z) (body : Z -> A -> outcome (A * bool)) (offset : Z) (a : A) : outcome A :=
  match fuel with
  | O => Fuel
  | S fuel =>
      if offset <? zlen s then
        let! (offset, code_point) := get_code_point (Some s) offset in
        let! (a, last) := body code_point a in
        if last : bool then Ret a else cp_loop fuel s body offset a
      else Ret a
  end.
Definition cp_while {A} (s : list Z) (body : Z -> A -> outcome (A * bool)) (a : A) : outcome A :=
  cp_loop (S (Z.to_nat (zlen s))) s body 0 a.

Definition e_undef : string := "The string $string must be defined.".

(** to_code_points, Fn.spvm:833-851. *)
Definition to_code_points (string : option (list Z)) : outcome (list Z) :=
  match string with
  | None => Die e_undef
  | Some s => cp_while s (fun cp l => Ret (l ++ [cp], false)) []
  end.

(** to_utf8_chars, Fn.spvm:884-904. *)
Definition to_utf8_chars (string : option (list Z)) : outcome (list (option (list Z))) :=
  match string with
  | None => Die e_undef
  | Some s => cp_while s (fun cp l => Ret (l ++ [chr cp], false)) []
  end.

(** utf8_length, Fn.spvm:1056-1071. *)
Definition utf8_length (string : option (list Z)) : outcome Z :=
  match string with
  | None => Die e_undef
  | Some s => cp_while s (fun _ n => Ret (wrap32 (n + 1), false)) 0
  end.

(** $buffer->push(&chr($code_point)) *)
Definition push_chr (cp : Z) (b : sbuf) : outcome sbuf :=
  match sb_push (chr cp) 0 (-1) b with
  | (b, Ret _) => Ret b
  | (_, Die e) => Die e
  | (_, UB) => UB
  | (_, Fuel) => Fuel
  end.

(** The loop body of utf8_substr, Fn.spvm:1090-1119: the buffer and
    $current_utf8_offset. *)
Definition utf8_substr_body (utf8_offset utf8_length : Z) (cp : Z) (st : sbuf * Z) : outcome (sbuf * Z * bool) :=
  let (b, current) := st in
  let range :=
    if current <? utf8_offset then -1
    else if utf8_length <? 0 then 0
    else if current <? wrap32 (utf8_offset + utf8_length) then 0 else 1 in
  if range =? 0 then let! b := push_chr cp b in Ret (b, wrap32 (current + 1), false)
  else if range =? 1 then Ret (b, current, true)
  else Ret (b, wrap32 (current + 1), false).

(** utf8_substr, Fn.spvm:1074-1131. *)
Definition utf8_substr (string : option (list Z)) (utf8_offset utf8_length : Z) : outcome (list Z) :=
  match string with
  | None => Die e_undef
  | Some s =>
      check! utf8_offset >=? 0 else "The offset $utf8_offset must be greater than or equal to 0." in
      let! b := sb_new None (-1) in
      let! (b, current) := cp_while s (utf8_substr_body utf8_offset utf8_length) (b, 0) in
      check! negb (utf8_length >=? 0) || (wrap32 (utf8_offset + utf8_length) <=? current)
        else "The offset $utf8_offset + the length $utf8_length must be less than or equal to the UTF-8 length of the string $string." in
      snd (sb_to_string b)
  end.

(** The loop body of _parse_range, Fn.spvm:1152-1168: $min_code_point,
    $max_code_point and $code_points_index. *)
Definition parse_range_body (cp : Z) (st : Z * Z * Z) : outcome (Z * Z * Z * bool) :=
  let '(mn, mx, i) := st in
  if i =? 0 then Ret (cp, mx, wrap32 (i + 1), false)
  else if i =? 1 then
    check! cp =? 45 else "The second character ot the range format of the argument name $arg_name must be ""-""." in
    Ret (mn, mx, wrap32 (i + 1), false)
  else if i =? 2 then Ret (mn, cp, wrap32 (i + 1), false)
  else Ret (mn, mx, wrap32 (i + 1), false).

(** _parse_range, Fn.spvm:1142-1184. *)
Definition parse_range (format : list Z) : outcome (Z * Z) :=
  let! st := cp_while format parse_range_body (-1, -1, 0) in
  let '(mn, mx, len) := st in
  let! mx :=
    if negb (len =? 3) then
      let mx := if len =? 1 then mn else mx in
      check! negb (mx <? 0) else "The range format of the argument name $arg_name must be 1 or 3 characters." in Ret mx
    else Ret mx in
  check! mn <=? mx
    else "The code point of the ending character in the argument name $arg_name must be greater than or equal to the code point of the begining caharater." in
  Ret (mn, mx).

(** The loop body of tr, Fn.spvm:929-955. *)
Definition tr_body (pattern_min pattern_max replace_min : Z) (cp : Z) (b : sbuf) : outcome (sbuf * bool) :=
  let! b :=
    if (cp >=? pattern_min) && (cp <=? pattern_max)
    then push_chr (wrap32 (replace_min + wrap32 (cp - pattern_min))) b
    else push_chr cp b in
  Ret (b, false).

(** tr, Fn.spvm:906-961. *)
Definition tr (string pattern replace : option (list Z)) : outcome (list Z) :=
  match string, pattern, replace with
  | None, _, _ => Die e_undef
  | _, None, _ => Die "The pattern $pattern must be defined."
  | _, _, None => Die "The replace $replace must be defined."
  | Some s, Some p, Some r =>
      let! (pmin, pmax) := parse_range p in
      let! (rmin, _) := parse_range r in
      let! b := sb_new None (-1) in
      let! b := cp_while s (tr_body pmin pmax rmin) b in
      snd (sb_to_string b)
  end.
