(** * What split, join and repeat are documented to do *)
From Verif Require Import Base FnStr_spec.

(** The strings with the separator between each two. *)
Fixpoint joined (sep : list Z) (parts : list (list Z)) : list Z :=
  match parts with
  | [] => []
  | [p] => p
  | p :: ps => p ++ sep ++ joined sep ps
  end.

(** The pieces of [s]: cut at the leftmost separator, and again in the rest.
    [limit] is the largest number of pieces; none if it is not positive. *)
Inductive pieces (sep : list Z) : Z -> list Z -> list (list Z) -> Prop :=
| Whole : forall limit s, limit = 1 \/ (forall i, ~ occurs s sep i) -> pieces sep limit s [s]
| Cut : forall limit s p r ps,
    limit <> 1 -> s = p ++ sep ++ r -> (forall i, occurs s sep i -> zlen p <= i) ->
    pieces sep (if 0 <? limit then limit - 1 else limit) r ps -> pieces sep limit s (p :: ps).

(** An undefined string counts as the empty one. *)
Definition text (o : option (list Z)) : list Z := match o with Some s => s | None => [] end.

(** [n] copies. *)
Fixpoint copies (n : nat) (s : list Z) : list Z := match n with O => [] | S n => s ++ copies n s end.

(** [ps] without the empty strings at its end. *)
Definition without_empty_end (ps qs : list (list Z)) : Prop :=
  (exists k, ps = qs ++ repeat [] k) /\ forall rs, qs <> rs ++ [[]].
