(** * Values of SPVM programs as seen by the class library models.

    A value of an object type is undef, a boxed number (the classes Byte,
    Short, Int, Long, Float, Double of spvm_compiler.c:526-660), a string, or
    some other object, known only by an identity and the identity of its
    class. Floats and doubles are their bit patterns: the class library code
    modelled here only moves them. *)

From Verif Require Import Base.

Inductive val : Type :=
| VUndef
| VByte (n : Z) | VShort (n : Z) | VInt (n : Z) | VLong (n : Z)
| VFloat (bits : Z) | VDouble (bits : Z)
| VString (s : list Z)
| VObject (class_id id : Z).

Definition is_defined (v : val) : bool := match v with VUndef => false | _ => true end.

Definition val_eq_dec (a b : val) : {a = b} + {a <> b}.
Proof. decide equality; try apply Z.eq_dec. apply (list_eq_dec Z.eq_dec). Defined.
