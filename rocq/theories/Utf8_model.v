(** * Model of the UTF-8 codec

    Models /repo/lib/SPVM/Builder/src/spvm_utf8.c (and its textual copy in
    /repo/lib/SPVM/Fn.c lines 70-193).  A C string is a memory block (list of
    bytes 0..255); reading outside the block is undefined behaviour. *)

From Verif Require Import Base.

(** One byte read [*p] of a memory block. *)
Definition rd (mem : list Z) (p : Z) : outcome Z :=
  match znth mem p with
  | Some b => Ret b
  | None => UB
  end.

(** spvm_utf8.c:6 [utf_cont]. *)
Definition utf_cont (ch : Z) : bool := Z.land ch 0xc0 =? 0x80.

(** spvm_utf8.c:7 [SPVM_UTF8PROC_ERROR_INVALIDUTF8]. *)
Definition INVALIDUTF8 : Z := -3.

(** spvm_utf8.c:9-53 [SPVM_UTF8_iterate] (same code: Fn.c:144-193).
    [str] is the position of the C pointer in [mem]; the result is the C
    return value together with [*dst].  Every [||] short-circuits as in C, so
    a byte is only read when the C code reads it. *)
Definition utf8_iterate (mem : list Z) (str strlen : Z) : outcome (Z * Z) :=
  if strlen =? 0 then Ret (0, -1)
  else
    let end_ := str + (if strlen <? 0 then 4 else strlen) in
    let! uc := rd mem str in
    let str := str + 1 in
    if uc <? 0x80 then Ret (1, uc)
    else if u32 (uc - 0xc2) >? 0xf4 - 0xc2 then Ret (INVALIDUTF8, -1)
    else if uc <? 0xe0 then
      if str >=? end_ then Ret (INVALIDUTF8, -1) else
      let! b1 := rd mem str in
      if negb (utf_cont b1) then Ret (INVALIDUTF8, -1) else
      Ret (2, Z.lor (Z.shiftl (Z.land uc 0x1f) 6) (Z.land b1 0x3f))
    else if uc <? 0xf0 then
      if str + 1 >=? end_ then Ret (INVALIDUTF8, -1) else
      let! b1 := rd mem str in
      if negb (utf_cont b1) then Ret (INVALIDUTF8, -1) else
      let! b2 := rd mem (str + 1) in
      if negb (utf_cont b2) then Ret (INVALIDUTF8, -1) else
      if (uc =? 0xed) && (b1 >? 0x9f) then Ret (INVALIDUTF8, -1) else
      let uc := Z.lor (Z.lor (Z.shiftl (Z.land uc 0xf) 12) (Z.shiftl (Z.land b1 0x3f) 6))
                      (Z.land b2 0x3f) in
      if uc <? 0x800 then Ret (INVALIDUTF8, -1) else
      Ret (3, uc)
    else
      if str + 2 >=? end_ then Ret (INVALIDUTF8, -1) else
      let! b1 := rd mem str in
      if negb (utf_cont b1) then Ret (INVALIDUTF8, -1) else
      let! b2 := rd mem (str + 1) in
      if negb (utf_cont b2) then Ret (INVALIDUTF8, -1) else
      let! b3 := rd mem (str + 2) in
      if negb (utf_cont b3) then Ret (INVALIDUTF8, -1) else
      if (if uc =? 0xf0 then b1 <? 0x90
          else if uc =? 0xf4 then b1 >? 0x8f else false)
      then Ret (INVALIDUTF8, -1) else
      Ret (4, Z.lor (Z.lor (Z.lor (Z.shiftl (Z.land uc 7) 18) (Z.shiftl (Z.land b1 0x3f) 12))
                           (Z.shiftl (Z.land b2 0x3f) 6)) (Z.land b3 0x3f)).

(** spvm_utf8.c:59-68 [SPVM_UTF8_is_unicode_scalar_value]. *)
Definition is_unicode_scalar_value (cp : Z) : bool :=
  if (cp >=? 0) && (cp <=? 0x10FFFF) then
    if negb ((cp >=? 0xD800) && (cp <=? 0xDFFF)) then true else false
  else false.

(** spvm_utf8.c:70-97 [SPVM_UTF8_convert_unicode_codepoint_to_utf8_character]
    (same code: Fn.c:70-95).  The bytes stored to [dst]; the C return value is
    their number. *)
Definition codepoint_to_utf8 (uc : Z) : list Z :=
  if uc <? 0 then []
  else if uc <? 0x80 then [u8 uc]
  else if uc <? 0x800 then
    [u8 (0xC0 + Z.shiftr uc 6); u8 (0x80 + Z.land uc 0x3F)]
  else if uc <? 0x10000 then
    [u8 (0xE0 + Z.shiftr uc 12); u8 (0x80 + Z.land (Z.shiftr uc 6) 0x3F);
     u8 (0x80 + Z.land uc 0x3F)]
  else if uc <? 0x110000 then
    [u8 (0xF0 + Z.shiftr uc 18); u8 (0x80 + Z.land (Z.shiftr uc 12) 0x3F);
     u8 (0x80 + Z.land (Z.shiftr uc 6) 0x3F); u8 (0x80 + Z.land uc 0x3F)]
  else [].

(** Fn.c:195-243 [SPVM__Fn__get_code_point]: new offset and code point.
    The string object is its characters [s]; its memory block is [s] followed
    by the terminating NUL (spvm_api.c, new_string: length + 1 bytes, zeroed).
    Note the C code passes the total length, not the remaining one. *)
Definition get_code_point (s : option (list Z)) (offset : Z) : outcome (Z * Z) :=
  match s with
  | None => Die "The string $string must be defined."
  | Some s =>
    if negb (offset >=? 0) then
      Die "The offset $offset must be greater than or equal to 0."
    else if negb (offset <? zlen s) then
      Die "The value of the offset $offset must be less than the length of the string $string."
    else
      let! (n, dst) := utf8_iterate (s ++ [0]) offset (zlen s) in
      if n >? 0 then Ret (offset + n, dst)
      else if n =? INVALIDUTF8 then Die "An invalid UTF-8 is gotten."
      else UB
  end.
