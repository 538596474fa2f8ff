(** * Specification of UTF-8, independent of the code

    The Unicode Standard, table 3-7 "Well-Formed UTF-8 Byte Sequences", and
    the arithmetic meaning of such a sequence. *)

From Verif Require Import Base.

Definition byte_in (lo hi b : Z) : Prop := lo <= b <= hi.
Definition tail_byte (b : Z) : Prop := byte_in 0x80 0xBF b.

(** [wf_char bytes cp]: [bytes] is the well-formed UTF-8 form of [cp]. *)
Inductive wf_char : list Z -> Z -> Prop :=
| wf_1 b0 : byte_in 0x00 0x7F b0 -> wf_char [b0] b0
| wf_2 b0 b1 : byte_in 0xC2 0xDF b0 -> tail_byte b1 ->
    wf_char [b0; b1] ((b0 - 0xC0) * 64 + (b1 - 0x80))
| wf_3 b0 b1 b2 :
    (b0 = 0xE0 /\ byte_in 0xA0 0xBF b1 \/
     byte_in 0xE1 0xEC b0 /\ tail_byte b1 \/
     b0 = 0xED /\ byte_in 0x80 0x9F b1 \/
     byte_in 0xEE 0xEF b0 /\ tail_byte b1) ->
    tail_byte b2 ->
    wf_char [b0; b1; b2] ((b0 - 0xE0) * 4096 + (b1 - 0x80) * 64 + (b2 - 0x80))
| wf_4 b0 b1 b2 b3 :
    (b0 = 0xF0 /\ byte_in 0x90 0xBF b1 \/
     byte_in 0xF1 0xF3 b0 /\ tail_byte b1 \/
     b0 = 0xF4 /\ byte_in 0x80 0x8F b1) ->
    tail_byte b2 -> tail_byte b3 ->
    wf_char [b0; b1; b2; b3]
      ((b0 - 0xF0) * 262144 + (b1 - 0x80) * 4096 + (b2 - 0x80) * 64 + (b3 - 0x80)).

(** Unicode scalar values: code points that are not surrogates. *)
Definition scalar (cp : Z) : Prop :=
  0 <= cp <= 0xD7FF \/ 0xE000 <= cp <= 0x10FFFF.

(** A byte string is valid UTF-8 with code points [cps]. *)
Inductive wf_utf8 : list Z -> list Z -> Prop :=
| wf_utf8_nil : wf_utf8 [] []
| wf_utf8_cons c cp s cps : wf_char c cp -> wf_utf8 s cps -> wf_utf8 (c ++ s) (cp :: cps).
