(** * String functions of Fn (lib/SPVM/Fn.spvm)

    Strings are lists of bytes (0..255); undef is [None].  Characters are read
    as signed bytes (type byte) and stored modulo 256.  A function that changes
    a mutable string in place gives the string afterwards. *)

From Verif Require Import Base CLib Array_model FnMem_model.

(** $string->[$i] as a number, spvm_implement.h:785-799. *)
Definition char_at (s : list Z) (i : Z) : outcome Z :=
  let! b := elem_get s i in Ret (wrap8 b).

(** new_string_len, spvm_implement.h:749-783 with spvm_api.c:3859-3878: the
    block has length + 1 bytes, an int. *)
Definition new_string_len (n : Z) : outcome (list Z) :=
  check! 0 <=? n else "The new_string_len operator failed. The length of the string must be a non-negative integer." in
  if n =? INT32_MAX then UB else Ret (zrep n 0).

(** a . b, spvm_api.c:3273-3292, for defined operands. *)
Definition concat (a b : list Z) : outcome (list Z) :=
  let! n := c_add (zlen a) (zlen b) in
  if n =? INT32_MAX then UB else Ret (a ++ b).

(** Fn->memcpy and Fn->memmove between two different strings, or within one
    string for memmove: Fn.c:346-462 after the checks of the types (see
    [fn_copy] and the lemma fn_copy_strings). *)
Definition bytes_copy (dest : list Z) (dest_offset : Z) (source : list Z) (source_offset length : Z)
  : outcome (list Z) :=
  check! length >=? 0 else e_length in
  if length =? 0 then Ret dest
  else
    let! dest_end := c_add dest_offset length in
    check! dest_end <=? zlen dest else e_dest_range in
    let! source_end := c_add source_offset length in
    check! source_end <=? zlen source else e_source_range in
    block_copy dest dest_offset source source_offset length.

(** substr without replacement, Fn.spvm:801-831. *)
Definition e_substr_range : string := "The offset $offset + the length $length must be less than or equal to the length of the string $string.".
Definition e_substr_offset : string := "The offset $offset must be greater than or equal to 0.".
Definition e_string_undef : string := "The string $string must be defined.".
Definition substr0 (string : option (list Z)) (offset length : Z) : outcome (list Z) :=
  match string with
  | None => Die e_string_undef
  | Some s =>
      check! offset >=? 0 else e_substr_offset in
      let string_length := zlen s in
      let length := if length <? 0 then wrap32 (string_length - offset) else length in
      check! wrap32 (offset + length) <=? string_length else e_substr_range in
      let! substring := new_string_len length in
      bytes_copy substring 0 s offset length
  end.

(** substr, Fn.spvm:801-831. *)
Definition substr (string : option (list Z)) (offset length : Z) (replacement : option (list Z)) : outcome (list Z) :=
  match replacement with
  | None => substr0 string offset length
  | Some r =>
      match string with
      | None => Die e_string_undef
      | Some s =>
          check! offset >=? 0 else e_substr_offset in
          let string_length := zlen s in
          let length := if length <? 0 then wrap32 (string_length - offset) else length in
          check! wrap32 (offset + length) <=? string_length else e_substr_range in
          let! before := substr0 string 0 offset in
          let! lr := concat before r in
          let! after := substr0 string (wrap32 (offset + length)) (-1) in
          concat lr after
      end
  end.

(** The inner loop of index and rindex, Fn.spvm:235-246 and 690-701: [n]
    further characters from [k]. *)
Fixpoint match_loop (n : nat) (s sub : list Z) (end_ i k : Z) : outcome bool :=
  match n with
  | O => Ret true
  | S n =>
      if wrap32 (i + k) >? end_ then Ret false
      else
        let! c := char_at s (wrap32 (i + k)) in
        let! d := char_at sub k in
        if c =? d then match_loop n s sub end_ i (k + 1) else Ret false
  end.

(** The search upwards, Fn.spvm:233-251: [n] further positions from [i]. *)
Fixpoint index_loop (n : nat) (s sub : list Z) (end_ i : Z) : outcome Z :=
  match n with
  | O => Ret (-1)
  | S n =>
      let! found := match_loop (Z.to_nat (zlen sub)) s sub end_ i 0 in
      if found then Ret i else index_loop n s sub end_ (i + 1)
  end.

(** The search downwards, Fn.spvm:688-706. *)
Fixpoint rindex_loop (n : nat) (s sub : list Z) (end_ i : Z) : outcome Z :=
  match n with
  | O => Ret (-1)
  | S n =>
      let! found := match_loop (Z.to_nat (zlen sub)) s sub end_ i 0 in
      if found then Ret i else rindex_loop n s sub end_ (i - 1)
  end.

(** The checks shared by index and rindex, Fn.spvm:199-223 and 655-679: the
    string, the substring and the corrected end. *)
Definition search_args (string substring : option (list Z)) (begin end_ : Z) : outcome (list Z * list Z * Z) :=
  match string with
  | None => Die e_string_undef
  | Some s =>
      match substring with
      | None => Die "The substring $substring must be defined."
      | Some sub =>
          check! (begin >=? 0) && (begin <=? zlen s)
            else "The begin $begin must be between 0 and the length of the string $string." in
          let end_ := if end_ <? 0 then zlen s else end_ in
          check! end_ <=? zlen s else "The end $end must be less than or equal to the length of the string $string." in
          check! end_ >=? begin else "The end $end must be greater than or equal to the begin $begin." in
          Ret (s, sub, end_)
      end
  end.

(** index, Fn.spvm:197-254. *)
Definition index (string substring : option (list Z)) (begin end_ : Z) : outcome Z :=
  let! (s, sub, end_) := search_args string substring begin end_ in
  if zlen sub =? 0 then Ret begin
  else
    let end_ := if end_ =? zlen s then end_ - 1 else end_ in
    index_loop (Z.to_nat (end_ - begin + 1)) s sub end_ begin.

(** rindex, Fn.spvm:653-712. *)
Definition rindex (string substring : option (list Z)) (end_ begin : Z) : outcome Z :=
  let! (s, sub, end_) := search_args string substring begin end_ in
  if zlen sub =? 0 then Ret end_
  else
    let end_ := if end_ =? zlen s then end_ - 1 else end_ in
    rindex_loop (Z.to_nat (end_ - begin + 1)) s sub end_ end_.

(** contains, Fn.spvm:107-109. *)
Definition contains (string substring : option (list Z)) (string_offset string_length : Z) : outcome Z :=
  let! r := index string substring string_offset string_length in
  Ret (if r >=? 0 then 1 else 0).

(** The character classes, Fn.spvm:278-468 (literals are ASCII codes).  The
    result is 1 or 0. *)
Definition flag01 (b : bool) : Z := if b then 1 else 0.
Definition is_alnum (c : Z) : Z :=
  flag01 (((c >=? 65) && (c <=? 90)) || ((c >=? 97) && (c <=? 122)) || ((c >=? 48) && (c <=? 57))).
Definition is_alpha (c : Z) : Z := flag01 (((c >=? 65) && (c <=? 90)) || ((c >=? 97) && (c <=? 122))).
Definition is_blank (c : Z) : Z := flag01 ((c >=? 32) || (c <=? 9)).
Definition is_cntrl (c : Z) : Z := flag01 (((c >=? 0) && (c <=? 31)) || (c =? 127)).
Definition is_digit (c : Z) : Z := flag01 ((c >=? 48) && (c <=? 57)).
Definition is_graph (c : Z) : Z := flag01 ((c >=? 33) && (c <=? 126)).
Definition is_hex_digit (c : Z) : Z :=
  flag01 (((c >=? 48) && (c <=? 57)) || ((c >=? 97) && (c <=? 102)) || ((c >=? 65) && (c <=? 70))).
Definition is_lower (c : Z) : Z := flag01 ((c >=? 97) && (c <=? 122)).
Definition is_perl_space (c : Z) : Z :=
  match c with 32 | 13 | 10 | 9 | 12 => 1 | _ => 0 end.
Definition is_perl_word (c : Z) : Z :=
  if (c >=? 97) && (c <=? 122) then 1
  else if (c >=? 65) && (c <=? 90) then 1
  else if c =? 95 then 1
  else if (c >=? 48) && (c <=? 57) then 1 else 0.
Definition is_print (c : Z) : Z := flag01 ((c >=? 32) && (c <=? 126)).
Definition is_punct (c : Z) : Z :=
  flag01 (((c >=? 33) && (c <=? 47)) || ((c >=? 58) && (c <=? 64)) || ((c >=? 91) && (c <=? 96)) || ((c >=? 123) && (c <=? 126))).
Definition is_space (c : Z) : Z := flag01 (((c >=? 9) && (c <=? 13)) || (c =? 32)).
Definition is_upper (c : Z) : Z := flag01 ((c >=? 65) && (c <=? 90)).
Definition is_xdigit (c : Z) : Z :=
  flag01 (((c >=? 65) && (c <=? 70)) || ((c >=? 97) && (c <=? 102)) || ((c >=? 48) && (c <=? 57))).

(** to_lower and to_upper, Fn.spvm:868-882. *)
Definition to_lower (c : Z) : Z := if (c >=? 65) && (c <=? 90) then wrap32 (c + 32) else c.
Definition to_upper (c : Z) : Z := if (c >=? 97) && (c <=? 122) then wrap32 (c - 32) else c.

(** The loops of lc (Fn.spvm:519-527) and uc (1022-1030): [n] further
    characters from [i]; [lo] .. [hi] are shifted by [delta]. *)
Fixpoint case_loop (n : nat) (s out : list Z) (lo hi delta i : Z) : outcome (list Z) :=
  match n with
  | O => Ret out
  | S n =>
      let! char := char_at s i in
      let! out :=
        if (char >=? lo) && (char <=? hi) then elem_set out i (to_byte (wrap32 (char + delta)))
        else elem_set out i (to_byte char) in
      case_loop n s out lo hi delta (i + 1)
  end.
Definition case_map (string : option (list Z)) (lo hi delta : Z) : outcome (list Z) :=
  match string with
  | None => Die e_string_undef
  | Some s =>
      let length := zlen s in
      let! out := new_string_len length in
      case_loop (Z.to_nat length) s out lo hi delta 0
  end.
(** lc, Fn.spvm:511-529; uc, Fn.spvm:1014-1032. *)
Definition lc (string : option (list Z)) : outcome (list Z) := case_map string 65 90 32.
Definition uc (string : option (list Z)) : outcome (list Z) := case_map string 97 122 (-32).

(** lcfirst, Fn.spvm:531-551; ucfirst, Fn.spvm:1034-1054. *)
Definition first_map (string : option (list Z)) (lo hi delta : Z) : outcome (list Z) :=
  match string with
  | None => Die e_string_undef
  | Some s =>
      let length := zlen s in
      let! out := new_string_len length in
      let! out :=
        if length >? 0 then
          let! char := char_at s 0 in
          if (char >=? lo) && (char <=? hi) then elem_set out 0 (to_byte (wrap32 (char + delta)))
          else elem_set out 0 (to_byte char)
        else Ret out in
      bytes_copy out 1 s 1 (wrap32 (length - 1))
  end.
Definition lcfirst (string : option (list Z)) : outcome (list Z) := first_map string 65 90 32.
Definition ucfirst (string : option (list Z)) : outcome (list Z) := first_map string 97 122 (-32).

(** The two searches of trim, Fn.spvm:973-995: the first position that is not
    a space, -1 if there is none; [n] further positions from [i] in direction
    [d]. *)
Fixpoint trim_loop (n : nat) (s : list Z) (i d : Z) : outcome Z :=
  match n with
  | O => Ret (-1)
  | S n =>
      let! c := char_at s i in
      if is_space c =? 1 then trim_loop n s (i + d) d else Ret i
  end.
(** trim, Fn.spvm:963-1012. *)
Definition trim (string : option (list Z)) : outcome (list Z) :=
  match string with
  | None => Die e_string_undef
  | Some s =>
      let length := zlen s in
      let! begin_index := trim_loop (Z.to_nat length) s 0 1 in
      let! end_index := trim_loop (Z.to_nat length) s (length - 1) (-1) in
      if (begin_index =? -1) && (end_index =? -1) then Ret []
      else if end_index =? -1 then substr string begin_index (wrap32 (length - begin_index)) None
      else substr string begin_index (wrap32 (wrap32 (end_index - begin_index) + 1)) None
  end.

(** shorten, Fn.c:480-496 with spvm_api.c:4477-4508, on the bytes. *)
Definition shorten (s : list Z) (length : Z) : outcome (list Z) :=
  check! length >=? 0 else e_length in
  if length >=? zlen s then Ret s else Ret (ztake length s).

(** chomp, Fn.spvm:69-82; chompr, Fn.spvm:84-94, which copies first. *)
Definition chomp (string : option (list Z)) : outcome (list Z) :=
  match string with
  | None => Die e_string_undef
  | Some s =>
      let length := zlen s in
      let! crlf :=
        if length >=? 2 then
          let! c := char_at s (wrap32 (length - 2)) in
          if c =? 13 then let! d := char_at s (wrap32 (length - 1)) in Ret (d =? 10) else Ret false
        else Ret false in
      if crlf then shorten s (wrap32 (length - 2))
      else
        let! lf :=
          if length >=? 1 then let! d := char_at s (wrap32 (length - 1)) in Ret (d =? 10) else Ret false in
        if lf then shorten s (wrap32 (length - 1)) else Ret s
  end.

(** shorten_null_char, Fn.spvm:720-738. *)
Fixpoint null_loop (n : nat) (s : list Z) (i : Z) : outcome Z :=
  match n with
  | O => Ret (-1)
  | S n => let! c := char_at s i in if c =? 0 then Ret i else null_loop n s (i + 1)
  end.
Definition shorten_null_char (string : option (list Z)) : outcome (list Z) :=
  match string with
  | None => Die e_string_undef
  | Some s =>
      let! off := null_loop (Z.to_nat (zlen s)) s 0 in
      if off >=? 0 then shorten s off else Ret s
  end.

(** replace_chars, Fn.spvm:639-651. *)
Fixpoint replace_chars_loop (n : nat) (s : list Z) (from_ch to_ch i : Z) : outcome (list Z) :=
  match n with
  | O => Ret s
  | S n =>
      let! c := char_at s i in
      let! s := if c =? from_ch then elem_set s i (to_byte to_ch) else Ret s in
      replace_chars_loop n s from_ch to_ch (i + 1)
  end.
Definition replace_chars (string : option (list Z)) (from_ch to_ch : Z) : outcome (list Z) :=
  match string with
  | None => Die e_string_undef
  | Some s => replace_chars_loop (Z.to_nat (zlen s)) s from_ch to_ch 0
  end.

(** equals_string_range, Fn.spvm:117-155: the comparison loop and the
    method. *)
Fixpoint range_eq_loop (n : nat) (s1 s2 : list Z) (o1 o2 i : Z) : outcome Z :=
  match n with
  | O => Ret 1
  | S n =>
      let! c := char_at s1 (wrap32 (o1 + i)) in
      let! d := char_at s2 (wrap32 (o2 + i)) in
      if c =? d then range_eq_loop n s1 s2 o1 o2 (i + 1) else Ret 0
  end.
Definition equals_string_range (string1 : option (list Z)) (o1 : Z) (string2 : option (list Z)) (o2 length : Z)
  : outcome Z :=
  match string1 with
  | None => Die "The string1 $string1 must be defined."
  | Some s1 =>
      match string2 with
      | None => Die "The string2 $string2 must be defined."
      | Some s2 =>
          check! o1 >=? 0 else "The string1 offset $string1_offset must be greater than or equal to 0." in
          check! o2 >=? 0 else "The string2 offset $string2_offset must be greater than or equal to 0." in
          if negb (wrap32 (o1 + length) <=? zlen s1) then Ret 0
          else if negb (wrap32 (o1 + length) <=? zlen s2) then Ret 0
          else range_eq_loop (Z.to_nat length) s1 s2 o1 o2 0
      end
  end.
