(** * Who holds an object *)
From Verif Require Import Base Threads_model.
Local Open Scope Z_scope.

(** The number of places that hold the object. *)
Fixpoint places_of (o : nat) (l : list (place * nat)) : Z :=
  match l with
  | [] => 0
  | (_, o') :: l => (if Nat.eqb o' o then 1 else 0) + places_of o l
  end.
(** The number of threads that are releasing the object, counted once for each release. *)
Fixpoint releases_of (o : nat) (l : list (nat * task)) : Z :=
  match l with
  | [] => 0
  | (_, k) :: l =>
      (if Nat.eqb (match k with TRelease o' => o' | TDestroy o' => o' | TFields o' _ => o' end) o then 1 else 0) + releases_of o l
  end.
