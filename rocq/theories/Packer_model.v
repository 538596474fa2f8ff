(** * Packer: pack and unpack (lib/SPVM/Packer.spvm)

    On a little-endian machine.  Numbers are seen as in Bytes.v (float and
    double by their bit patterns), strings are lists of bytes 0..255.  The List
    in which specifiers and objects are collected is a Coq list (C31). *)
From Coq Require Import String.
From Verif Require Import Base StM CLib Dec Array_model Bytes FnMem_model FnStr_model FnNum_model FnUtf8_model
  FnSplit_model StrBuf_model Format_model.

(** The constants of Packer/Specifier.spvm:7-24. *)
Inductive ptype := PNum (k : nkind) | PStr | PHexLow | PHexHigh.
Inductive endian := ENone | ELittle | EBig.
(** Packer::Specifier, Packer/Specifier.spvm:26-35. *)
Record pspec := mk_pspec {
  p_type : ptype;
  p_numeric : bool;
  p_endian : endian;
  p_length : Z;
  p_star : bool
}.

(** The objects that matter: boxed numbers, arrays of numbers, strings. *)
Inductive pobj := Boxed (k : nkind) (v : Z) | Nums (k : nkind) (l : list Z) | Str (s : list Z) | Other.

Definition nkind_eqb (a b : nkind) : bool :=
  match a, b with
  | KByte, KByte | KShort, KShort | KInt, KInt | KLong, KLong | KFloat, KFloat | KDouble, KDouble => true
  | _, _ => false
  end.

(** The specifier characters, Packer.spvm:499-556. *)
Definition type_of_char (c : Z) : option ptype :=
  if c =? 97 then Some PStr else if c =? 104 then Some PHexLow else if c =? 72 then Some PHexHigh
  else if (c =? 99) || (c =? 67) then Some (PNum KByte)
  else if (c =? 115) || (c =? 83) then Some (PNum KShort)
  else if (c =? 108) || (c =? 76) then Some (PNum KInt)
  else if (c =? 113) || (c =? 81) then Some (PNum KLong)
  else if c =? 102 then Some (PNum KFloat)
  else if c =? 100 then Some (PNum KDouble)
  else None.

(** $length_string .= Fn->chr($ch), Packer.spvm:585-598: the digits. *)
Fixpoint digits_loop (fuel : nat) (t : list Z) (index : Z) (acc : list Z) : outcome (Z * list Z) :=
  match fuel with
  | O => Fuel
  | S fuel =>
      if index <? zlen t then
        let! c := char_at t index in
        if negb (is_digit c =? 0) then
          match chr c with
          | None => Die "The right operand of the string concatenation must be defined."
          | Some d => let! acc := concat acc d in digits_loop fuel t (wrap32 (index + 1)) acc
          end
        else Ret (index, acc)
      else Ret (index, acc)
  end.

Section Parse.
  Variable long64 : bool.

  (** The endian, Packer.spvm:560-573. *)
  Definition parse_endian (t : list Z) (index : Z) : outcome (Z * endian) :=
    if index <? zlen t then
      let! c := char_at t index in
      if c =? 62 then Ret (wrap32 (index + 1), EBig)
      else if c =? 60 then Ret (wrap32 (index + 1), ELittle)
      else Ret (index, ENone)
    else Ret (index, ENone).

  (** The length, Packer.spvm:575-611: $template_index, $length,
      $is_numeric_object and $has_wildcard_length. *)
  Definition parse_count (t : list Z) (index : Z) : outcome (Z * Z * bool * bool) :=
    let! star := if index <? zlen t then let! c := char_at t index in Ret (c =? 42) else Ret false in
    if star : bool then Ret (wrap32 (index + 1), 0, false, true)
    else
      let! (index, ds) := digits_loop (S (length t)) t index [] in
      if zlen ds =? 0 then Ret (index, 1, true, false)
      else
        let! n := to_int long64 (Some ds) in
        check! n >? 0 else "The data length $length in the template must be a positive value." in
        Ret (index, n, false, false).

  (** One turn of the loop of _parse_template, Packer.spvm:495-627. *)
  Definition parse_one (t : list Z) (index : Z) : outcome (Z * pspec) :=
    let! c := char_at t index in
    match type_of_char c with
    | None => Die "Invalid specifier in the template."
    | Some ty =>
        let! (index, e) := parse_endian t (wrap32 (index + 1)) in
        let! x := parse_count t index in
        let '(index, n, numeric, star) := x in
        check! negb (match ty with PStr => numeric | _ => false end)
          else "The data length $length for ""a"" in the template must be specified." in
        Ret (index, mk_pspec ty numeric e n star)
    end.

  (** _parse_template, Packer.spvm:481-633. *)
  Fixpoint parse_loop (fuel : nat) (t : list Z) (index : Z) (acc : list pspec) : outcome (list pspec) :=
    match fuel with
    | O => Fuel
    | S fuel =>
        if index <? zlen t then
          let! (index, sp) := parse_one t index in
          parse_loop fuel t index (acc ++ [sp])
        else Ret acc
    end.
  Definition parse_template (t : list Z) : outcome (list pspec) := parse_loop (S (length t)) t 0 [].

  (** ** pack *)

  Definition num_blob (k : nkind) (l : list Z) : blob :=
    mk_blob KNumArray false (ksize k) (zlen l) (flat_map (encode k) l).

  Definition e_cast : string := "The source type must be assigned to the destination type.".
  Definition e_elem : string := "The type of the element in the objects $objects at index $i is wrong.".

  (** (string)$object *)
  Definition to_string_obj (o : option pobj) : outcome (option (list Z)) :=
    match o with
    | None => Ret None
    | Some (Str s) => Ret (Some s)
    | Some _ => Die e_cast
    end.

  (** . of two strings, of which one may be undef. *)
  Definition concat_opt (a b : option (list Z)) : outcome (list Z) :=
    match a, b with
    | Some a, Some b => concat a b
    | _, _ => Die "The operand of the string concatenation must be defined."
    end.

  (** The loop of the hex strings, Packer.spvm:76-106; [n] more turns. *)
  Fixpoint hex_pack_loop (n : nat) (high : bool) (s : list Z) (i : Z) (b : sbuf) : outcome sbuf :=
    match n with
    | O => Ret b
    | S n =>
        let! hi := char_at s i in
        check! negb (is_hex_digit hi =? 0) else "Input contains non hex character." in
        let! lo :=
          if wrap32 (i + 1) <? zlen s then
            let! lo := char_at s (wrap32 (i + 1)) in
            check! negb (is_hex_digit hi =? 0) else "Input contains non hex character." in
            Ret lo
          else Ret 48 in
        let! two := if high then concat_opt (chr hi) (chr lo) else concat_opt (chr lo) (chr hi) in
        let! v := hex (Some two) in
        let! b := push_ch v b in
        hex_pack_loop n high s (wrap32 (i + 2)) b
    end.

  (** $size and $values, Packer.spvm:59-227. *)
  Definition values_of (sp : pspec) (o : option pobj) : outcome (Z * option blob) :=
    match p_type sp with
    | PStr =>
        let! s := to_string_obj o in
        Ret (1, option_map string_blob s)
    | PHexLow | PHexHigh =>
        let high := match p_type sp with PHexHigh => true | _ => false end in
        let! s := to_string_obj o in
        let s := match s with Some s => s | None => [] end in
        let! b := sb_new None (-1) in
        let! b := hex_pack_loop (Z.to_nat ((zlen s + 1) / 2)) high s 0 b in
        let! v := snd (sb_to_string b) in
        Ret (1, Some (string_blob v))
    | PNum k =>
        if p_numeric sp then
          match o with
          | Some (Boxed k' v) => if nkind_eqb k k' then Ret (ksize k, Some (num_blob k [v])) else Die e_elem
          | _ => Die e_elem
          end
        else
          match o with
          | Some (Nums k' l) => if nkind_eqb k k' then Ret (ksize k, Some (num_blob k l)) else Die e_elem
          | _ => Die e_elem
          end
    end.

  Definition is_hex (ty : ptype) : bool := match ty with PHexLow | PHexHigh => true | _ => false end.

  (** The endian loop, Packer.spvm:256-264: [n] times. *)
  Fixpoint pack_endian_loop (n : nat) (e : endian) (size : Z) (h : heap) : outcome heap :=
    match n with
    | O => Ret h
    | S n =>
        let! h :=
          match e with
          | EBig => system_endian_to_big_endian true h (Some 0) size 0
          | ELittle => system_endian_to_little_endian true h (Some 0) size 0
          | ENone => Ret h
          end in
        pack_endian_loop n e size h
    end.

  Definition data_at (h : heap) (a : Z) : outcome (list Z) :=
    match znth h a with Some b => Ret (b_data b) | None => UB end.

  (** One object, Packer.spvm:41-265: $binary_part. *)
  Definition pack_one (sp : pspec) (o : option pobj) : outcome (list Z) :=
    let! (size, values) := values_of sp o in
    match values with
    | None => Die "$array_or_string must be defined."
    | Some values =>
        let process_length := if p_star sp then b_length values else p_length sp in
        let process_length := if is_hex (p_type sp) then wrap32 (process_length + 1) ÷ 2 else process_length in
        let binary_part_size := wrap32 (size * process_length) in
        let copy_size :=
          if b_length values <? process_length then wrap32 (size * b_length values)
          else wrap32 (size * process_length) in
        let! part := new_string_len binary_part_size in
        let! h := fn_memcpy [string_blob part; values] (Some 0) 0 (Some 1) 0 copy_size in
        let! h :=
          match p_endian sp with
          | ENone => Ret h
          | e => pack_endian_loop (Z.to_nat process_length) e size h
          end in
        data_at h 0
    end.

  (** The loop of pack, Packer.spvm:39-268. *)
  Fixpoint pack_loop (specs : list pspec) (objects : list (option pobj)) (i : Z) (b : sbuf) : outcome sbuf :=
    match specs with
    | [] => Ret b
    | sp :: specs =>
        let! o := elem_get objects i in
        let! part := pack_one sp o in
        let! b := push_str part b in
        pack_loop specs objects (wrap32 (i + 1)) b
    end.

  (** pack, Packer.spvm:18-273. *)
  Definition pack (template : option (list Z)) (objects : option (list (option pobj))) : outcome (list Z) :=
    match template, objects with
    | None, _ => Die "The template $template must be defined."
    | _, None => Die "The objects $objects must be defined."
    | Some t, Some objects =>
        let! specs := parse_template t in
        check! zlen specs <=? zlen objects else "The length of the specifiers in the template must be less than or equal to the lenght of the objects $objects." in
        let! b := sb_new None (-1) in
        let! b := pack_loop specs objects 0 b in
        snd (sb_to_string b)
    end.

  (** ** unpack *)

  (** The loop of Packer.spvm:364-372. *)
  Fixpoint unpack_endian_loop (n : nat) (e : endian) (size : Z) (h : heap) : outcome heap :=
    match n with
    | O => Ret h
    | S n =>
        let! h :=
          match e with
          | EBig => big_endian_to_system_endian true h (Some 0) size 0
          | ELittle => little_endian_to_system_endian true h (Some 0) size 0
          | ENone => Ret h
          end in
        unpack_endian_loop n e size h
    end.

  Definition size_of (ty : ptype) : Z := match ty with PNum k => ksize k | _ => 1 end.

  (** new_type_array of length [n], filled with zeros. *)
  Definition new_num_array (k : nkind) (n : Z) : outcome blob :=
    check! 0 <=? n else "The length must be greater than or equal to 0." in
    Ret (mk_blob KNumArray false (ksize k) n (zrep (ksize k * n) 0)).

  (** The elements of an array of numbers. *)
  Definition elems (k : nkind) (b : blob) : list Z :=
    map (fun i => decode k (zsub (b_data b) (ksize k * Z.of_nat i) (ksize k))) (seq 0 (Z.to_nat (b_length b))).

  (** The swapping loop of Packer.spvm:399-403, [n] more turns. *)
  Fixpoint nybble_swap_loop (n : nat) (s : list Z) (i : Z) : outcome (list Z) :=
    match n with
    | O => Ret s
    | S n =>
        let! tmp := elem_get s (wrap32 (i * 2)) in
        let! x := elem_get s (wrap32 (wrap32 (i * 2) + 1)) in
        let! s := elem_set s (wrap32 (i * 2)) x in
        let! s := elem_set s (wrap32 (wrap32 (i * 2) + 1)) tmp in
        nybble_swap_loop n s (wrap32 (i + 1))
    end.

  (** The object for the bytes, Packer.spvm:375-469. *)
  Definition object_of (sp : pspec) (process_length : Z) (part : list Z) : outcome pobj :=
    match p_type sp with
    | PStr => Ret (Str part)
    | PHexLow | PHexHigh =>
        check! 0 <=? process_length else "The length must be greater than or equal to 0." in
        let ints := map (fun b => Some (mk_arg 0 (VInt (Z.land (wrap8 b) 255)))) part in
        let! format := repeat_string (Some [37; 120]) process_length in
        let! s := sprintf (F := unit) (D := unit) (fun u => u) (fun _ _ => []) (fun _ _ => []) (Some format) (Some ints) in
        let! s := match p_type sp with PHexLow => nybble_swap_loop (Z.to_nat process_length) s 0 | _ => Ret s end in
        let! s := if p_star sp then Ret s else shorten s (p_length sp) in
        Ret (Str s)
    | PNum k =>
        let! array := new_num_array k process_length in
        let! h := fn_memcpy [array; string_blob part] (Some 0) 0 (Some 1) 0 (zlen part) in
        match znth h 0 with
        | None => UB
        | Some array =>
            if p_numeric sp then let! v := elem_get (elems k array) 0 in Ret (Boxed k v)
            else Ret (Nums k (elems k array))
        end
    end.

  (** One specifier, Packer.spvm:297-473: the object and the offset. *)
  Definition unpack_one (sp : pspec) (binary : list Z) (offset : Z) : outcome (pobj * Z) :=
    let size := size_of (p_type sp) in
    let process_length := if p_star sp then wrap32 (zlen binary - offset) ÷ size else p_length sp in
    let process_length := if is_hex (p_type sp) then wrap32 (process_length + 1) ÷ 2 else process_length in
    check! wrap32 (offset + wrap32 (size * process_length)) <=? zlen binary
      else "The current offset $binary_offset plus (the size $size * the process length) must be less than the length of the binary data $binary." in
    let binary_part_size := wrap32 (size * process_length) in
    let! part := new_string_len binary_part_size in
    let! h := fn_memcpy [string_blob part; string_blob binary] (Some 0) 0 (Some 1) offset binary_part_size in
    let! h :=
      match p_endian sp with
      | ENone => Ret h
      | e => unpack_endian_loop (Z.to_nat process_length) e size h
      end in
    let! part := data_at h 0 in
    let! o := object_of sp process_length part in
    Ret (o, wrap32 (offset + binary_part_size)).

  (** The loop of unpack, Packer.spvm:295-474. *)
  Fixpoint unpack_loop (specs : list pspec) (binary : list Z) (offset : Z) (acc : list (option pobj)) : outcome (list (option pobj)) :=
    match specs with
    | [] => Ret acc
    | sp :: specs =>
        let! (o, offset) := unpack_one sp binary offset in
        unpack_loop specs binary offset (acc ++ [Some o])
    end.

  (** unpack, Packer.spvm:275-479. *)
  Definition unpack (template binary : option (list Z)) : outcome (list (option pobj)) :=
    match template, binary with
    | None, _ => Die "The template $template must be defined."
    | _, None => Die "The binary data $binary must be defined."
    | Some t, Some binary =>
        let! specs := parse_template t in
        unpack_loop specs binary 0 []
    end.
End Parse.

(** "c2s>H3" with [1, -1], 258, "abc" *)
Example pack_ex :
  let t := [99; 50; 115; 62; 72; 51] in
  pack true (Some t) (Some [Some (Nums KByte [1; -1]); Some (Boxed KShort 258); Some (Str [97; 98; 99])])
    = Ret [1; 255; 1; 2; 171; 192] /\
  unpack true (Some t) (Some [1; 255; 1; 2; 171; 192])
    = Ret [Some (Nums KByte [1; -1]); Some (Boxed KShort 258); Some (Str [97; 98; 99])].
Proof. split; reflexivity. Qed.
