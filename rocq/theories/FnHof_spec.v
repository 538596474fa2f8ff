(** * What the callback methods are for

    The calls of a callback on the elements of an array, as a small relation:
    in the order of the indices, once for each index, on the element that the
    array holds at the time of the call; the first exception ends it. *)

From Verif Require Import Base.

Section Spec.
  Context {S A R : Type}.
  Variable arr : S -> list A.

  (** [calls cb i k s l s' o]: calling [cb] for the indices from [i] to [k - 1]
      starting in state [s] gives the pairs [l] of element and answer, state
      [s'] and, in [o], an exception or none. *)
  Inductive calls (cb : S -> A -> S * outcome R) : Z -> Z -> S -> list (A * R) -> S -> option string -> Prop :=
  | calls_end k s : calls cb k k s [] s None
  | calls_next i k s x s1 r l s2 o :
      i < k -> znth (arr s) i = Some x -> cb s x = (s1, Ret r) ->
      calls cb (i + 1) k s1 l s2 o -> calls cb i k s ((x, r) :: l) s2 o
  | calls_throw i k s x s1 e :
      i < k -> znth (arr s) i = Some x -> cb s x = (s1, Die e) -> calls cb i k s [] s1 (Some e).

  (** A callback is an SPVM method: it returns or throws, and it cannot change
      the length of an array or put elements into it that its type rejects. *)
  Definition proper (cb : S -> A -> S * outcome R) : Prop :=
    forall s x,
      (exists r, snd (cb s x) = Ret r) \/ (exists e, snd (cb s x) = Die e).
  Definition keeps_array (accepts : A -> bool) (cb : S -> A -> S * outcome R) : Prop :=
    forall s x,
      zlen (arr (fst (cb s x))) = zlen (arr s) /\
      (Forall (fun y => accepts y = true) (arr s) -> Forall (fun y => accepts y = true) (arr (fst (cb s x)))).

  (** A callback that also throws when its answer is not [ok]: this is what the
      type of the result array adds. *)
  Definition only (ok : R -> bool) (msg : R -> string) (cb : S -> A -> S * outcome R) : S -> A -> S * outcome R :=
    fun s x =>
      match cb s x with
      | (s', Ret r) => if ok r then (s', Ret r) else (s', Die (msg r))
      | other => other
      end.
End Spec.

(** The elements for which the answer was true (not 0). *)
Definition chosen {A} (l : list (A * Z)) : list A :=
  map fst (filter (fun p => negb (snd p =? 0)) l).

(** The answers. *)
Definition answers {A R} (l : list (A * R)) : list R := map snd l.

(** All elements of all answers, in order. *)
Definition expanded {A B} (l : list (A * option (list B))) : list B :=
  List.concat (map (fun p => match snd p with Some ys => ys | None => [] end) l).

(** Names and values alternate; these are the names. *)
Fixpoint names_of {V} (options : list V) : list V :=
  match options with
  | [] => []
  | [n] => [n]
  | n :: _ :: rest => n :: names_of rest
  end.
