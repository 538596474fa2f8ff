(** * Format.sprintf (lib/SPVM/Format.spvm, lib/SPVM/Format.c)

    The texts that the C library's snprintf gives for "%f" and "%g" are
    parameters, as are the floating point types. *)
From Verif Require Import Base StM CLib Dec Array_model FnMem_model FnStr_model StrBuf_model FnUtf8_model.

(** The hexadecimal digits of [n >= 0], as the conversion "%x" of the C library
    gives them. *)
Definition hex_char (d : Z) : Z := if d <? 10 then 48 + d else 87 + d.
Fixpoint uhex_loop (fuel : nat) (n : Z) (acc : list Z) : list Z :=
  match fuel with
  | O => acc
  | S f =>
      let acc := hex_char (n mod 16) :: acc in
      if n / 16 =? 0 then acc else uhex_loop f (n / 16) acc
  end.
Definition uhex (n : Z) : list Z := uhex_loop (S (Z.to_nat (Z.log2 n))) n [].

(** snprintf into a block of [n] bytes, then new_string with the returned
    length, Format.c:12-22 and the like: snprintf stores at most n - 1
    characters and a NUL, but returns the length of the whole text; new_string
    copies that many bytes. *)
Definition snprintf_new (n : Z) (text : list Z) : outcome (list Z) :=
  let length := zlen text in
  if length <? n then Ret text
  else if length =? n then Ret (ztake (n - 1) text ++ [0])
  else UB.

(** _native_snprintf_d, _ld, _lu, _u, _x, _lx, _p, Format.c:12-24, 80-92, 94-106,
    138-150, 152-164, 108-120, 121-136. *)
Definition snprintf_d (v : Z) : outcome (list Z) := snprintf_new 12 (print_dec v).
Definition snprintf_ld (v : Z) : outcome (list Z) := snprintf_new 21 (print_dec v).
Definition snprintf_lu (v : Z) : outcome (list Z) := snprintf_new 21 (udec (u64 v)).
Definition snprintf_u (v : Z) : outcome (list Z) := snprintf_new 11 (udec (u32 v)).
Definition snprintf_x (v : Z) : outcome (list Z) := snprintf_new 9 (uhex (u32 v)).
Definition snprintf_lx (v : Z) : outcome (list Z) := snprintf_new 17 (uhex (u64 v)).
Definition snprintf_p (addr : Z) : outcome (list Z) := snprintf_new 33 ([48; 120] ++ uhex addr).

(** _native_snprintf_f, _g, Format.c:26-51, 53-78: [text] is what "%f" or "%g"
    gives, [precision] negative for no precision. *)
Definition snprintf_float {D} (text : D -> option Z -> list Z) (value : D) (precision : Z) : outcome (list Z) :=
  let p := if precision >=? 0 then Some precision else None in
  let! max_length := c_add 21 precision in
  if max_length <? 0 then UB
  else if max_length =? INT32_MAX then UB
  else snprintf_new (max_length + 1) (text value p).

(** $buffer->push, $buffer->push_char *)
Definition run_buf (m : M sbuf unit) (b : sbuf) : outcome sbuf :=
  match m b with
  | (b, Ret _) => Ret b
  | (_, Die e) => Die e
  | (_, UB) => UB
  | (_, Fuel) => Fuel
  end.
Definition push_str (s : list Z) (b : sbuf) : outcome sbuf := run_buf (sb_push (Some s) 0 (-1)) b.
Definition push_ch (c : Z) (b : sbuf) : outcome sbuf := run_buf (sb_push_char c) b.

(** The loops that push the padding, Format.spvm:353-355, 360-362. *)
Fixpoint push_pad (n : nat) (c : Z) (b : sbuf) : outcome sbuf :=
  match n with
  | O => Ret b
  | S n => let! b := push_ch c b in push_pad n c b
  end.

(** _push_formatted_string_signed, Format.spvm:334-371; the value may be undef. *)
Definition push_signed (value : option (list Z)) (width pad_char : Z) (left_justified plus_sign : bool) (b : sbuf) : outcome sbuf :=
  match value with
  | None => Die "The string must be defined."
  | Some v =>
      let! c := char_at v 0 in
      let is_minus := c =? 45 in
      let space_count := wrap32 (width - zlen v) in
      let space_count := if negb is_minus && plus_sign then wrap32 (space_count - 1) else space_count in
      let pad := push_pad (Z.to_nat space_count) pad_char in
      let sign (b : sbuf) := if negb is_minus && plus_sign then push_ch 43 b else Ret b in
      if left_justified then
        let! b := sign b in
        let! b := push_str v b in
        pad b
      else
        let! b := pad b in
        let! b := sign b in
        push_str v b
  end.
(** _push_formatted_string_unsigned, Format.spvm:326-332. *)
Definition push_unsigned (value : option (list Z)) (width pad_char : Z) (left_justified : bool) (b : sbuf) : outcome sbuf :=
  push_signed value width pad_char left_justified false b.

(** The values of $specifier. *)
Inductive conv := Cx | CX | Cc | Cd | Cf | Cg | ClX | Cld | Clu | Clx | Cp | Cs | Cu.

(** Reading the flags, Format.spvm:59-91: the index, $pad_char, $plus_sign and
    $left_justified. *)
Fixpoint read_flags (fuel : nat) (s : list Z) (index pad : Z) (plus left : bool) : outcome (Z * Z * bool * bool) :=
  match fuel with
  | O => Fuel
  | S fuel =>
      if index <? zlen s then
        let! c := char_at s index in
        if c =? 48 then read_flags fuel s (wrap32 (index + 1)) 48 plus left
        else if c =? 43 then read_flags fuel s (wrap32 (index + 1)) pad true left
        else if c =? 45 then read_flags fuel s (wrap32 (index + 1)) pad plus true
        else Ret (index, pad, plus, left)
      else Ret (index, pad, plus, left)
  end.

(** Reading a number, Format.spvm:93-102, 109-117: the index, the number and
    whether there was a digit. *)
Fixpoint read_number (fuel : nat) (s : list Z) (index value : Z) (seen : bool) : outcome (Z * Z * bool) :=
  match fuel with
  | O => Fuel
  | S fuel =>
      if index <? zlen s then
        let! c := char_at s index in
        if (c <? 48) || (57 <? c) then Ret (index, value, seen)
        else read_number fuel s (wrap32 (index + 1)) (wrap32 (wrap32 (wrap32 (value * 10) + c) - 48)) true
      else Ret (index, value, seen)
  end.

(** The specifier character, Format.spvm:128-190: the index and $specifier
    ([None]: the empty string). *)
Definition read_conv (s : list Z) (index : Z) : outcome (Z * option conv) :=
  let! c := char_at s index in
  let index := wrap32 (index + 1) in
  if c =? 88 then Ret (index, Some CX)
  else if c =? 99 then Ret (index, Some Cc)
  else if c =? 100 then Ret (index, Some Cd)
  else if c =? 102 then Ret (index, Some Cf)
  else if c =? 103 then Ret (index, Some Cg)
  else if c =? 108 then
    if index <? zlen s then
      let! d := char_at s index in
      if d =? 88 then Ret (wrap32 (index + 1), Some ClX)
      else if d =? 100 then Ret (wrap32 (index + 1), Some Cld)
      else if d =? 117 then Ret (wrap32 (index + 1), Some Clu)
      else if d =? 120 then Ret (wrap32 (index + 1), Some Clx)
      else Ret (index, None)
    else Ret (index, None)
  else if c =? 112 then Ret (index, Some Cp)
  else if c =? 115 then Ret (index, Some Cs)
  else if c =? 117 then Ret (index, Some Cu)
  else if c =? 120 then Ret (index, Some Cx)
  else Ret (index, None).

Record spec := mk_spec {
  sp_pad : Z;
  sp_plus : bool;
  sp_left : bool;
  sp_width : Z;
  sp_precision : Z;
  sp_has_precision : bool;
  sp_conv : option conv
}.

(** Reading a specifier, Format.spvm:55-190: the index afterwards. *)
Definition read_spec (s : list Z) (index : Z) : outcome (Z * spec) :=
  let fuel := S (length s) in
  let index := wrap32 (index + 1) in
  let! (x, left_justified) := read_flags fuel s index 32 false false in
  let '(index, pad, plus) := x in
  let pad := if left_justified : bool then 32 else pad in
  let! x := read_number fuel s index 0 false in
  let '(index, width, _) := x in
  let! x :=
    if index <? zlen s then
      let! c := char_at s index in
      if c =? 46 then read_number fuel s (wrap32 (index + 1)) 0 false else Ret (index, 0, false)
    else Ret (index, 0, false) in
  let '(index, precision, has_precision) := x in
  let precision := if has_precision : bool then precision else -1 in
  check! index <? zlen s else "Invalid conversion in sprintf: ""..."".": string in
  let! (index, c) := read_conv s index in
  Ret (index, mk_spec pad plus left_justified width precision has_precision c).

Section Args.
  Context {F D : Type}.
  Variable widen : F -> D.
  Variable text_f text_g : D -> option Z -> list Z.

  (** The objects in $args: the address and the value. *)
  Inductive aval := VByte (z : Z) | VInt (z : Z) | VLong (z : Z) | VFloat (f : F) | VDouble (d : D) | VStr (s : list Z) | VOther.
  Record arg := mk_arg { a_addr : Z; a_val : aval }.

  Definition e_cast : string := "The source type must be assigned to the destination type.".
  Definition e_unbox : string := "The unboxing conversion failed.".
  (** (Int)$args->[$arg_count], unboxed, and (Long) likewise. *)
  Definition int_arg (a : option arg) : outcome Z :=
    match a with
    | None => Die e_unbox
    | Some a => match a_val a with VInt z => Ret z | _ => Die e_cast end
    end.
  Definition long_arg (a : option arg) : outcome Z :=
    match a with
    | None => Die e_unbox
    | Some a => match a_val a with VLong z => Ret z | _ => Die e_cast end
    end.
  (** Format.spvm:201-208. *)
  Definition char_arg (a : option arg) : outcome Z :=
    match a with
    | None => Die e_unbox
    | Some a => match a_val a with VByte z => Ret z | VInt z => Ret z | _ => Die e_cast end
    end.
  (** Format.spvm:221-228, 233-240. *)
  Definition double_arg (a : option arg) : outcome D :=
    match a with
    | None => Die e_unbox
    | Some a => match a_val a with VFloat f => Ret (widen f) | VDouble d => Ret d | _ => Die e_cast end
    end.
  (** (string)$args->[$arg_count] *)
  Definition string_arg (a : option arg) : outcome (option (list Z)) :=
    match a with
    | None => Ret None
    | Some a => match a_val a with VStr s => Ret (Some s) | _ => Die e_cast end
    end.

  (** Formatting one argument, Format.spvm:192-298. *)
  Definition push_arg (sp : spec) (a : option arg) (b : sbuf) : outcome sbuf :=
    let unsigned (v : list Z) := push_unsigned (Some v) (sp_width sp) (sp_pad sp) (sp_left sp) b in
    let signed (v : list Z) := push_signed (Some v) (sp_width sp) (sp_pad sp) (sp_left sp) (sp_plus sp) b in
    match sp_conv sp with
    | Some CX => let! z := int_arg a in let! v := snprintf_x z in let! v := uc (Some v) in unsigned v
    | Some Cc =>
        let! z := char_arg a in
        unsigned (match chr z with Some v => v | None => [63] end)
    | Some Cd => let! z := int_arg a in let! v := snprintf_d z in signed v
    | Some Cf => let! d := double_arg a in let! v := snprintf_float text_f d (sp_precision sp) in signed v
    | Some Cg => let! d := double_arg a in let! v := snprintf_float text_g d (sp_precision sp) in signed v
    | Some ClX => let! z := long_arg a in let! v := snprintf_lx z in let! v := uc (Some v) in unsigned v
    | Some Cld => let! z := long_arg a in let! v := snprintf_ld z in signed v
    | Some Clu => let! z := long_arg a in let! v := snprintf_lu z in unsigned v
    | Some Clx => let! z := long_arg a in let! v := snprintf_lx z in unsigned v
    | Some Cp => let! v := snprintf_p (match a with Some a => a_addr a | None => 0 end) in signed v
    | Some Cs =>
        let! s := string_arg a in
        let len := match s with Some s => zlen s | None => 0 end in
        if sp_has_precision sp && (sp_precision sp <? len) then
          let! s := substr s 0 (sp_precision sp) None in
          push_unsigned (Some s) (sp_precision sp) (sp_pad sp) (sp_left sp) b
        else push_unsigned s (sp_width sp) (sp_pad sp) (sp_left sp) b
    | Some Cu => let! z := int_arg a in let! v := snprintf_u z in unsigned v
    | Some Cx => let! z := int_arg a in let! v := snprintf_x z in unsigned v
    | None => Die "Invalid specifier ""%$specifier""."
    end.

  (** Adding the constant string, Format.spvm:26-33, 42-48, 304-310. *)
  Definition flush (s : list Z) (index n : Z) (b : sbuf) : outcome (Z * sbuf) :=
    if n >? 0 then
      let! part := substr (Some s) index n None in
      let! b := push_str part b in
      Ret (wrap32 (index + n), b)
    else Ret (index, b).

  (** The main loop, Format.spvm:16-303: $index, $constant_string_length,
      $arg_count and the buffer. *)
  Fixpoint main_loop (fuel : nat) (s : list Z) (args : option (list (option arg))) (index n count : Z) (b : sbuf) : outcome (Z * Z * sbuf) :=
    match fuel with
    | O => Fuel
    | S fuel =>
        let at_ := wrap32 (index + n) in
        if at_ <? zlen s then
          let! c := char_at s at_ in
          if negb (c =? 37) then main_loop fuel s args index (wrap32 (n + 1)) count b
          else
            let next := wrap32 (at_ + 1) in
            let! percent := if next <? zlen s then let! d := char_at s next in Ret (d =? 37) else Ret false in
            if percent : bool then
              let! (index, b) := flush s index (wrap32 (n + 1)) b in
              main_loop fuel s args (wrap32 (index + 1)) 0 count b
            else if next >=? zlen s then Die "Invalid conversion in sprintf: end of string."
            else
              let! (index, b) := flush s index n b in
              match args with
              | None => Die "The array must be defined."
              | Some l =>
                  check! count <? zlen l else "Missing argument in sprintf." in
                  let! (index, sp) := read_spec s index in
                  let! a := elem_get l count in
                  let! b := push_arg sp a b in
                  main_loop fuel s args index 0 (wrap32 (count + 1)) b
              end
        else Ret (index, n, b)
    end.

  (** sprintf, Format.spvm:8-314. *)
  Definition sprintf (format : option (list Z)) (args : option (list (option arg))) : outcome (list Z) :=
    let! b := sb_new None (-1) in
    let s := match format with Some s => s | None => [] end in
    let! x := main_loop (S (length s)) s args 0 0 0 b in
    let '(index, n, b) := x in
    let! (_, b) := flush s index n b in
    snd (sb_to_string b).
End Args.
Arguments aval : clear implicits.
Arguments arg : clear implicits.
