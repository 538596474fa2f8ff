(** * What pack and unpack are documented to do (lib/SPVM/Packer.pm:46-139) *)
From Verif Require Import Base Dec Bytes VmConv_props FnNum_spec FnMem_spec Packer_model.

(** ** Templates *)

Inductive count := Single | Count (n : Z) | Star.
Record item := mk_item { i_type : ptype; i_endian : endian; i_count : count }.

Inductive letter : Z -> ptype -> Prop :=
| L_a : letter 97 PStr | L_h : letter 104 PHexLow | L_H : letter 72 PHexHigh
| L_c : letter 99 (PNum KByte) | L_C : letter 67 (PNum KByte)
| L_s : letter 115 (PNum KShort) | L_S : letter 83 (PNum KShort)
| L_l : letter 108 (PNum KInt) | L_L : letter 76 (PNum KInt)
| L_q : letter 113 (PNum KLong) | L_Q : letter 81 (PNum KLong)
| L_f : letter 102 (PNum KFloat) | L_d : letter 100 (PNum KDouble).

Inductive endian_text : list Z -> endian -> Prop :=
| E_none : endian_text [] ENone | E_big : endian_text [62] EBig | E_little : endian_text [60] ELittle.

Inductive count_text : list Z -> count -> Prop :=
| C_one : count_text [] Single
| C_star : count_text [42] Star
| C_count : forall ds, ds <> [] -> Forall is_digit ds -> 0 < digits_value ds <= INT32_MAX -> count_text ds (Count (digits_value ds)).

(** A specifier, an endian, a length; a string needs a length. *)
Inductive item_text : list Z -> item -> Prop :=
| Item : forall c ty te e tc n, letter c ty -> endian_text te e -> count_text tc n -> (ty = PStr -> n <> Single) ->
    item_text (c :: te ++ tc) (mk_item ty e n).

Inductive template_text : list Z -> list item -> Prop :=
| T_nil : template_text [] []
| T_cons : forall t it t' its, item_text t it -> template_text t' its -> template_text (t ++ t') (it :: its).

(** ** The bytes *)

(** The number in the requested order of bytes; the system is little-endian. *)
Definition number_bytes (e : endian) (k : nkind) (v : Z) (bs : list Z) : Prop :=
  zlen bs = ksize k /\ Forall is_byte bs /\
  match e with EBig => big_endian bs | _ => little_endian bs end = v mod 256 ^ ksize k.

Definition elements_bytes (e : endian) (k : nkind) (l : list Z) (out : list Z) : Prop :=
  exists bss, Forall2 (number_bytes e k) l bss /\ out = List.concat bss.

(** Two hexadecimal digits make a byte; a missing one counts as 0. *)
Inductive hex_bytes (high : bool) : list Z -> list Z -> Prop :=
| H_nil : hex_bytes high [] []
| H_odd : forall c d, digit 16 c d -> hex_bytes high [c] [if high then 16 * d else d]
| H_two : forall c c' d d' s out, digit 16 c d -> digit 16 c' d' -> hex_bytes high s out ->
    hex_bytes high (c :: c' :: s) ((if high then 16 * d + d' else 16 * d' + d) :: out).

(** [bs] cut or filled with NULs to [n] bytes. *)
Definition filled (n : Z) (bs : list Z) : list Z := ztake n bs ++ zrep (n - zlen bs) 0.

(** The text of a hex string of which [n] digits are used. *)
Definition digits_used (c : count) (s : list Z) : Z := match c with Single => 1 | Count n => n | Star => zlen s end.

(** The bytes for the object; objects of a wrong type have none. *)
Definition packed (it : item) (o : option pobj) (out : list Z) : Prop :=
  match i_type it with
  | PNum k =>
      match i_count it with
      | Single => exists v, o = Some (Boxed k v) /\ number_bytes (i_endian it) k v out
      | Count n => exists l bs, o = Some (Nums k l) /\ elements_bytes (i_endian it) k (ztake n l) bs /\ out = filled (ksize k * n) bs
      | Star => exists l, o = Some (Nums k l) /\ elements_bytes (i_endian it) k l out
      end
  | PStr =>
      exists s, o = Some (Str s) /\
        match i_count it with Count n => out = filled n s | Star => out = s | Single => False end
  | PHexLow | PHexHigh =>
      exists s bs, (o = Some (Str s) \/ (o = None /\ s = [])) /\ let n := digits_used (i_count it) s in
        hex_bytes (match i_type it with PHexHigh => true | _ => false end) (ztake n s) bs /\ out = filled ((n + 1) / 2) bs
  end.

Inductive all_packed : list item -> list (option pobj) -> list Z -> Prop :=
| AP_nil : forall os, all_packed [] os []
| AP_cons : forall it its o os out out', packed it o out -> all_packed its os out' -> all_packed (it :: its) (o :: os) (out ++ out').

(** ** What is excluded *)

(** Objects as SPVM has them, of at most 2^31 - 1 bytes. *)
Definition obj_ok (o : option pobj) : Prop :=
  match o with
  | Some (Boxed k v) => kvalue k v
  | Some (Nums k l) => Forall (kvalue k) l /\ ksize k * zlen l <= INT32_MAX
  | Some (Str s) => Forall is_byte s /\ zlen s < INT32_MAX
  | _ => True
  end.

(** The number of bytes for the object. *)
Definition part_size (it : item) (o : option pobj) : Z :=
  let n := match i_count it with
           | Single => 1 | Count n => n
           | Star => match o with Some (Nums _ l) => zlen l | Some (Str s) => zlen s | _ => 0 end
           end in
  match i_type it with PNum k => ksize k * n | _ => n end.
Fixpoint total_size (its : list item) (os : list (option pobj)) : Z :=
  match its, os with
  | it :: its, o :: os => part_size it o + total_size its os
  | _, _ => 0
  end.

(** The cases pack gets right: big-endian for one element only; a hex string
    with a length that does not cut a pair in two. *)
Definition handled (it : item) (o : option pobj) : Prop :=
  match i_type it with
  | PNum k => i_endian it = EBig -> k = KByte \/
      match i_count it, o with Count n, _ => n = 1 | Star, Some (Nums _ l) => zlen l <= 1 | _, _ => True end
  | PStr => True
  | PHexLow | PHexHigh =>
      match o with
      | Some (Str s) => Forall (fun c => exists d, digit 16 c d) (zdrop (digits_used (i_count it) s) s) /\
          match i_count it with
          | Single => zlen s <= 1
          | Count n => zlen s <= n \/ n mod 2 = 0
          | Star => zlen s <= 2
          end
      | _ => True
      end
  end.

(** ** Round trip *)

(** The object is exactly what the item describes. *)
Definition fits (it : item) (o : option pobj) : Prop :=
  match i_type it, i_count it, o with
  | PNum k, Single, Some (Boxed k' _) => k' = k
  | PNum k, Count n, Some (Nums k' l) => k' = k /\ zlen l = n
  | PNum k, Star, Some (Nums k' l) => k' = k
  | PStr, Count n, Some (Str s) => zlen s = n
  | PStr, Star, Some (Str s) => True
  | _, _, _ => False
  end.
Fixpoint star_last (its : list item) : Prop :=
  match its with
  | [] => True
  | it :: its => (its <> [] -> i_count it <> Star) /\ star_last its
  end.
