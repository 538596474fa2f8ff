(** * What the text buffer is: the concatenation of what was added. *)

From Verif Require Import Base CLib Dec NSbuf_model.

(** The hexadecimal digit of a number from 0 to 15. *)
Definition hex_char (n : Z) : Z :=
  match znth (bytes "0123456789ABCDEF") n with Some c => c | None => 0 end.

(** The text added by an operation; [None] if the operation adds nothing or
    its arguments break the C type or the stated length. *)
Definition added_text (op : nb_op) : option (list Z) :=
  match op with
  | BAdd s => Some (c_str s)
  | BAddLen s n => if (0 <=? n) && (n <=? zlen s) then Some (ztake n s) else None
  | BAddLenNul s n => if (0 <=? n) && (n <=? zlen s) then Some (ztake n s ++ [0]) else None
  | BHex ch => Some (bytes "\x" ++ [hex_char (ch mod 256 / 16); hex_char (ch mod 16)])
  | BByte v => if (-128 <=? v) && (v <=? 127) then Some (print_dec v) else None
  | BShort v => if (-32768 <=? v) && (v <=? 32767) then Some (print_dec v) else None
  | BInt v =>
      if v =? -2147483648 then Some (bytes "INT32_MIN")
      else if (-2147483648 <? v) && (v <=? 2147483647) then Some (print_dec v) else None
  | BLong v =>
      if v =? -9223372036854775808 then Some (bytes "INT64_MIN")
      else if (-9223372036854775808 <? v) && (v <=? 9223372036854775807)
      then Some (print_dec v ++ bytes "LL") else None
  | BContains _ _ | BText => None
  end.

(** [n] occurs in [h]. *)
Definition occurs (n h : list Z) : Prop := exists pre post, h = pre ++ n ++ post.

(** One call, as a relation: text before, call, text after, answer. Additions
    answer the length before; the total may not exceed about 1 GB. *)
Inductive text_step (t : list Z) : nb_op -> list Z -> nb_out -> Prop :=
| ts_add op x :
    added_text op = Some x -> zlen t + zlen x <= 1073741800 ->
    text_step t op (t ++ x) (OInt (zlen t))
| ts_contains_yes off s :
    0 <= off <= zlen t -> occurs (c_str s) (c_str (zdrop off t)) ->
    text_step t (BContains off s) t (OInt 1)
| ts_contains_no off s :
    0 <= off <= zlen t -> ~ occurs (c_str s) (c_str (zdrop off t)) ->
    text_step t (BContains off s) t (OInt 0)
| ts_text : text_step t BText t (OText t).

Inductive text_run : list Z -> list nb_op -> list nb_out -> Prop :=
| tr_nil t : text_run t [] []
| tr_cons t op t' out ops outs :
    text_step t op t' out -> text_run t' ops outs -> text_run t (op :: ops) (out :: outs).
