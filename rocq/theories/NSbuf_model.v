(** * Model of Builder/src/spvm_string_buffer.c, the text buffer used by the
    code generator, the dumper and the compiler messages.

    Simplifications: the block is the list of its bytes (zero-filled on
    allocation); an allocation of a positive size succeeds, one of a
    non-positive (overflowed) size is [UB]; accesses outside a block are [UB].
    The C strings given by the caller are byte lists. *)

From Verif Require Import Base CLib Dec.

Record nsbuf : Type := {
  nb_length : Z;
  nb_capacity : Z;
  nb_string : list Z
}.

(** SPVM_STRING_BUFFER_new, spvm_string_buffer.c:15-48 (length is 0 because
    the structure itself is zero-filled). *)
Definition nb_new (capacity : Z) : outcome nsbuf :=
  let capacity := if capacity =? 0 then 16 else capacity in
  if capacity <? 0 then UB else
  Ret {| nb_length := 0; nb_capacity := capacity; nb_string := zrep capacity 0 |}.

(** SPVM_STRING_BUFFER_maybe_extend, spvm_string_buffer.c:60-93. The loop gets
    fuel 32; [new_length + 1] is computed in 32 bits. *)
Fixpoint nb_extend_loop (fuel : nat) (b : nsbuf) (new_length : Z) : outcome nsbuf :=
  if wrap32 (new_length + 1) >? nb_capacity b then
    match fuel with
    | O => Fuel
    | S f =>
        let new_capacity := wrap32 (nb_capacity b * 2) in
        if new_capacity <=? 0 then UB else
        let! new_buffer := block_copy (zrep new_capacity 0) 0 (nb_string b) 0 (nb_length b) in
        nb_extend_loop f
          {| nb_length := nb_length b; nb_capacity := new_capacity; nb_string := new_buffer |}
          new_length
    end
  else Ret b.
Definition nb_maybe_extend (b : nsbuf) (new_length : Z) : outcome nsbuf :=
  nb_extend_loop 32 b new_length.

(** SPVM_STRING_BUFFER_add_len, spvm_string_buffer.c:113-127. *)
Definition nb_add_len (b : nsbuf) (str : list Z) (string_length : Z) : outcome (nsbuf * Z) :=
  let id := nb_length b in
  let new_length := wrap32 (nb_length b + string_length) in
  let! b := nb_maybe_extend b new_length in
  let! s := block_copy (nb_string b) (nb_length b) str 0 string_length in
  Ret ({| nb_length := new_length; nb_capacity := nb_capacity b; nb_string := s |}, id).

(** SPVM_STRING_BUFFER_add, spvm_string_buffer.c:95-111: the same with
    strlen. *)
Definition nb_add (b : nsbuf) (str : list Z) : outcome (nsbuf * Z) :=
  nb_add_len b (c_str str) (zlen (c_str str)).

(** SPVM_STRING_BUFFER_add_len_nullstr, spvm_string_buffer.c:129-144. *)
Definition nb_add_len_nullstr (b : nsbuf) (str : list Z) (string_length : Z)
  : outcome (nsbuf * Z) :=
  let id := nb_length b in
  let new_length := wrap32 (wrap32 (nb_length b + string_length) + 1) in
  let! b := nb_maybe_extend b new_length in
  let! s := block_copy (nb_string b) (nb_length b) str 0 string_length in
  let! s := block_copy s (nb_length b + string_length) [0] 0 1 in
  Ret ({| nb_length := new_length; nb_capacity := nb_capacity b; nb_string := s |}, id).

(** sprintf into the buffer at its current end: the text and a NUL. *)
Definition nb_sprintf (b : nsbuf) (text : list Z) : outcome (list Z) :=
  block_copy (nb_string b) (nb_length b) (text ++ [0]) 0 (zlen text + 1).

(** Upper-case hexadecimal digit, "%X". *)
Definition hex_digit (n : Z) : Z := if n <? 10 then 48 + n else 55 + n.
(** The text of "\\x%02X" for an unsigned byte. *)
Definition hex_escape (n : Z) : list Z := [92; 120; hex_digit (n / 16); hex_digit (n mod 16)].

(** SPVM_STRING_BUFFER_add_hex_char, spvm_string_buffer.c:146-160. *)
Definition nb_add_hex_char (b : nsbuf) (ch : Z) : outcome (nsbuf * Z) :=
  let id := nb_length b in
  let new_length := wrap32 (nb_length b + 4) in
  let! b := nb_maybe_extend b new_length in
  let! s := nb_sprintf b (hex_escape (u8 ch)) in
  Ret ({| nb_length := new_length; nb_capacity := nb_capacity b; nb_string := s |}, id).

(** The common shape of add_byte (162-178), add_short (180-196), add_int
    (198-220) and add_long (222-244): reserve [max_length], print [text]. *)
Definition nb_add_text (b : nsbuf) (max_length : Z) (text : list Z) : outcome (nsbuf * Z) :=
  let id := nb_length b in
  let! b := nb_maybe_extend b (wrap32 (nb_length b + max_length)) in
  let! s := nb_sprintf b text in
  Ret ({| nb_length := wrap32 (nb_length b + zlen text); nb_capacity := nb_capacity b;
          nb_string := s |}, id).

Definition nb_add_byte (b : nsbuf) (value : Z) := nb_add_text b 20 (print_dec value).
Definition nb_add_short (b : nsbuf) (value : Z) := nb_add_text b 20 (print_dec value).
Definition nb_add_int (b : nsbuf) (value : Z) :=
  nb_add_text b 20 (if value =? INT32_MIN then bytes "INT32_MIN" else print_dec value).
Definition nb_add_long (b : nsbuf) (value : Z) :=
  nb_add_text b 22
    (if value =? -9223372036854775808 then bytes "INT64_MIN" else print_dec value ++ bytes "LL").

(** SPVM_STRING_BUFFER_contains, spvm_string_buffer.c:262-271. *)
Definition nb_contains (b : nsbuf) (offset : Z) (str : list Z) : outcome Z :=
  let! h := c_str_at (nb_string b) offset in
  Ret (if strstr h (c_str str) then 1 else 0).

(** Histories. [BText] reads the buffer through get_buffer (55-58) and the
    length field, as spvm_precompile.c and spvm_dumper.c do, and checks the
    terminating NUL. *)
Inductive nb_op : Type :=
| BAdd (s : list Z) | BAddLen (s : list Z) (n : Z) | BAddLenNul (s : list Z) (n : Z)
| BHex (ch : Z) | BByte (v : Z) | BShort (v : Z) | BInt (v : Z) | BLong (v : Z)
| BContains (offset : Z) (s : list Z) | BText.

Inductive nb_out : Type := OInt (n : Z) | OText (s : list Z).

Definition nb_text (b : nsbuf) : outcome (list Z) :=
  match znth (nb_string b) (nb_length b) with
  | Some c => if c =? 0 then Ret (ztake (nb_length b) (nb_string b)) else UB
  | None => UB
  end.

Definition nb_step (b : nsbuf) (op : nb_op) : outcome (nsbuf * nb_out) :=
  match op with
  | BAdd s => let! (b, id) := nb_add b s in Ret (b, OInt id)
  | BAddLen s n => let! (b, id) := nb_add_len b s n in Ret (b, OInt id)
  | BAddLenNul s n => let! (b, id) := nb_add_len_nullstr b s n in Ret (b, OInt id)
  | BHex ch => let! (b, id) := nb_add_hex_char b ch in Ret (b, OInt id)
  | BByte v => let! (b, id) := nb_add_byte b v in Ret (b, OInt id)
  | BShort v => let! (b, id) := nb_add_short b v in Ret (b, OInt id)
  | BInt v => let! (b, id) := nb_add_int b v in Ret (b, OInt id)
  | BLong v => let! (b, id) := nb_add_long b v in Ret (b, OInt id)
  | BContains off s => let! r := nb_contains b off s in Ret (b, OInt r)
  | BText => let! s := nb_text b in Ret (b, OText s)
  end.

Fixpoint nb_run (b : nsbuf) (ops : list nb_op) : outcome (list nb_out) :=
  match ops with
  | [] => Ret []
  | op :: ops' =>
      let! (b, out) := nb_step b op in
      let! outs := nb_run b ops' in
      Ret (out :: outs)
  end.

Definition nb_history (capacity : Z) (ops : list nb_op) : outcome (list nb_out) :=
  let! b := nb_new capacity in nb_run b ops.
