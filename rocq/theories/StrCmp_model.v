(** * String comparison

    lib/SPVM/Builder/include/spvm_implement.h:488-552
    SPVM_IMPLEMENT_STRING_COMPARISON. A string object is its bytes (0..255, as
    memcmp reads them); undef is [None]. *)

From Verif Require Import Base CLib.

Inductive cmp_op := EQ | NE | GT | GE | LT | LE | CMP.

(** spvm_implement.h:492-519, the value of the variable cmp. *)
Definition string_cmp (s1 s2 : option (list Z)) : Z :=
  match s1, s2 with
  | None, None => 0
  | Some _, None => 1
  | None, Some _ => -1
  | Some b1, Some b2 =>
      let length1 := zlen b1 in
      let length2 := zlen b2 in
      let short_string_length := if length1 <? length2 then length1 else length2 in
      let retval := memcmp b1 b2 short_string_length in
      if negb (retval =? 0) then (if retval <? 0 then -1 else 1)
      else if length1 =? length2 then 0
      else if length1 <? length2 then -1 else 1
  end.

Definition b2z (b : bool) : Z := if b then 1 else 0.

(** spvm_implement.h:521-551, the switch on the operator. *)
Definition string_comparison (op : cmp_op) (s1 s2 : option (list Z)) : Z :=
  let cmp := string_cmp s1 s2 in
  match op with
  | EQ => b2z (cmp =? 0)
  | NE => b2z (negb (cmp =? 0))
  | GT => b2z (0 <? cmp)
  | GE => b2z (0 <=? cmp)
  | LT => b2z (cmp <? 0)
  | LE => b2z (cmp <=? 0)
  | CMP => cmp
  end.
