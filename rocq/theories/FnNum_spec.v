(** * Numbers written in strings *)
From Verif Require Import Base.

(** The character [c] is the digit [v] of the base. *)
Definition digit (base c v : Z) : Prop :=
  v < base /\ ((48 <= c <= 57 /\ v = c - 48) \/ (97 <= c <= 122 /\ v = c - 97 + 10) \/ (65 <= c <= 90 /\ v = c - 65 + 10)).

(** The digits [ds] write the number [n] in the base. *)
Inductive number (base : Z) : list Z -> Z -> Prop :=
| One : forall c v, digit base c v -> number base [c] v
| More : forall ds n c v, number base ds n -> digit base c v -> number base (ds ++ [c]) (n * base + v).

(** The text is: white space, a sign or none, 0x or 0X in base 16 or not, and
    digits. *)
Definition white (c : Z) : Prop := 9 <= c <= 13 \/ c = 32.
Definition denotes (base : Z) (text : list Z) (v : Z) : Prop :=
  exists ws sign pre ds m, text = ws ++ sign ++ pre ++ ds /\ Forall white ws /\
    (pre = [] \/ base = 16 /\ (pre = [48; 120] \/ pre = [48; 88])) /\ number base ds m /\
    ((sign = [45] /\ v = - m) \/ ((sign = [] \/ sign = [43]) /\ v = m)).
Definition bases : list Z := [2; 8; 10; 16].
