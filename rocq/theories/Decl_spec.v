(** * What enumerations and version strings mean (C69, C70)

    Language/Class.pm, Enumeration Definition and Version String. *)
From Verif Require Import Base Decl_model.
Local Open Scope Z_scope.

(** The value of each item: the one that is written; otherwise 0 for the first item, the
    value of the previous item plus 1 for the others. *)
Definition written (i : item) : option Z := match snd i with Some (Int v) => Some v | _ => None end.
Definition is_value (l : list item) (n : nat) (v : Z) : Prop :=
  exists k i, (k <= n)%nat /\ nth_error l k = Some i /\ (n < length l)%nat /\
    (forall j i', (k < j <= n)%nat -> nth_error l j = Some i' -> written i' = None) /\
    match written i with
    | Some w => v = w + Z.of_nat (n - k)
    | None => k = O /\ v = Z.of_nat n
    end.
(** Every written value is an int. *)
Definition all_int (l : list item) : Prop := forall x c, In (x, Some c) l -> exists v, c = Int v /\ in_i32 v.

(** A version string: digits, or digits, a dot and groups of three digits, one at least. *)
Definition digit (c : Z) : Prop := 48 <= c <= 57.
Definition version_string (s : str) : Prop :=
  exists a, a <> [] /\ Forall digit a /\
    (s = a \/ exists b, s = a ++ 46 :: b /\ b <> [] /\ Forall digit b /\ exists k, length b = (3 * k)%nat).
