(** * Model of lib/SPVM/Sort.spvm

    The methods sort_byte, sort_short, sort_int, sort_long, sort_float,
    sort_double, sort_string and sort_object, and their private helpers, are
    textual copies of each other with another element type (Sort.spvm:14-295
    and 297-681); the model is generic in the element type [A].

    The comparator is an arbitrary callback with its own state [S]; it may
    throw. Simplification: the callback does not itself write to the array
    being sorted. *)

From Verif Require Import Base.

Definition sort_die_index : string :=
  "The index must be greater than or equal to 0 and less than the length of the array.".

Section Sort.
  Context {A S : Type}.
  Variable cmp : S -> A -> A -> S * outcome Z.
  Variable zero : A.    (* initial element of a new array *)

  (** The state: the comparator's, the array [a] and the work array [b]. *)
  Record st : Type := { ss : S; sa : list A; sb : list A }.

  Definition M (X : Type) : Type := st -> st * outcome X.
  Definition ret {X} (x : X) : M X := fun s => (s, Ret x).
  Definition bind {X Y} (m : M X) (f : X -> M Y) : M Y :=
    fun s => match m s with
             | (s', Ret x) => f x s'
             | (s', Die e) => (s', Die e)
             | (s', UB) => (s', UB)
             | (s', Fuel) => (s', Fuel)
             end.

  Notation "'do' x <- m ; k" := (bind m (fun x => k)) (at level 200, x pattern, m at level 100, k at level 200).

  Definition get_a (i : Z) : M A :=
    fun s => (s, match znth (sa s) i with Some x => Ret x | None => Die sort_die_index end).
  Definition get_b (i : Z) : M A :=
    fun s => (s, match znth (sb s) i with Some x => Ret x | None => Die sort_die_index end).
  Definition put_a (i : Z) (x : A) : M unit :=
    fun s => if (0 <=? i) && (i <? zlen (sa s))
             then ({| ss := ss s; sa := zupd (sa s) i x; sb := sb s |}, Ret tt)
             else (s, Die sort_die_index).
  Definition put_b (i : Z) (x : A) : M unit :=
    fun s => if (0 <=? i) && (i <? zlen (sb s))
             then ({| ss := ss s; sa := sa s; sb := zupd (sb s) i x |}, Ret tt)
             else (s, Die sort_die_index).
  Definition compare (x y : A) : M Z :=
    fun s => let (s', o) := cmp (ss s) x y in ({| ss := s'; sa := sa s; sb := sb s |}, o).

  (** The inner while loop of _sort_*_merge, Sort.spvm:449-458 (int). *)
  Fixpoint merge_loop (fuel : nat) (mid right i j k : Z) : M (Z * Z * Z) :=
    match fuel with
    | O => fun s => (s, Fuel)
    | Datatypes.S fuel =>
        if (i <=? mid) && (j <=? right) then
          do x <- get_a i;
          do y <- get_a j;
          do c <- compare x y;
          if c <=? 0 then
            do _ <- put_b k x;
            merge_loop fuel mid right (wrap32 (i + 1)) j (wrap32 (k + 1))
          else
            do _ <- put_b k y;
            merge_loop fuel mid right i (wrap32 (j + 1)) (wrap32 (k + 1))
        else ret (i, j, k)
    end.

  (** The two tail loops, Sort.spvm:460-471. *)
  Fixpoint tail_loop (fuel : nat) (last p k : Z) : M (Z * Z) :=
    match fuel with
    | O => fun s => (s, Fuel)
    | Datatypes.S fuel =>
        if p <=? last then
          do x <- get_a p;
          do _ <- put_b k x;
          tail_loop fuel last (wrap32 (p + 1)) (wrap32 (k + 1))
        else ret (p, k)
    end.

  (** The copy back, Sort.spvm:473-475. *)
  Fixpoint back_loop (fuel : nat) (left k i : Z) : M unit :=
    match fuel with
    | O => fun s => (s, Fuel)
    | Datatypes.S fuel =>
        if i <? k then
          do x <- get_b i;
          do _ <- put_a (wrap32 (i + left)) x;
          back_loop fuel left k (wrap32 (i + 1))
        else ret tt
    end.

  (** The body of the outer while loop, Sort.spvm:446-471. *)
  Definition merge_body (left mid right : Z) : M (Z * Z * Z) :=
    do (i, j, k) <- merge_loop (Z.to_nat (right - left + 2)) mid right left (wrap32 (mid + 1)) 0;
    if i =? wrap32 (mid + 1) then
      do (j, k) <- tail_loop (Z.to_nat (right - left + 2)) right j k;
      ret (i, j, k)
    else
      do (i, k) <- tail_loop (Z.to_nat (right - left + 2)) mid i k;
      ret (i, j, k).

  (** The outer while loop, Sort.spvm:445-472. *)
  Fixpoint merge_outer (fuel : nat) (left mid right i j k : Z) : M Z :=
    match fuel with
    | O => fun s => (s, Fuel)
    | Datatypes.S fuel =>
        if (i <=? mid) && (j <=? right) then
          do (i, j, k) <- merge_body left mid right;
          merge_outer fuel left mid right i j k
        else ret k
    end.

  (** _sort_*_merge, Sort.spvm:441-476 (int). *)
  Definition merge (left mid right : Z) : M unit :=
    do k <- merge_outer 2 left mid right left (wrap32 (mid + 1)) 0;
    back_loop (Z.to_nat (right - left + 2)) left k 0.

  (** _sort_*_merge_sort, Sort.spvm:477-487 (int). The fuel bounds the
      recursion depth. *)
  Fixpoint merge_sort (fuel : nat) (left right : Z) : M unit :=
    match fuel with
    | O => fun s => (s, Fuel)
    | Datatypes.S fuel =>
        if left >=? right then ret tt
        else
          let mid := Z.quot (wrap32 (left + right)) 2 in
          do _ <- merge_sort fuel left mid;
          do _ <- merge_sort fuel (wrap32 (mid + 1)) right;
          merge left mid right
    end.

  (** sort_int and its copies, Sort.spvm:122-150. *)
  Definition sort (fuel : nat) (s : S) (array : option (list A)) (has_comparator : bool)
      (offset length : Z) : S * option (list A) * outcome unit :=
    match array with
    | None => (s, None, Die "The array $array must be defined.")
    | Some a =>
        if negb has_comparator then (s, array, Die "The comparator $comparator must be defined.")
        else if negb (offset >=? 0)
        then (s, array, Die "The offset $offset must be greater than or equal to 0.")
        else
          let array_length := zlen a in
          let length := if length <? 0 then wrap32 (array_length - offset) else length in
          if negb (wrap32 (offset + length) <=? array_length)
          then (s, array, Die "The offset $offset + the length $length must be less than or equal to the length of the array $array.")
          else if length =? 0 then (s, array, Ret tt)
          else if length <? 0
          then (s, array, Die "The length of the array must be greater than or equal to 0.")
          else
            let (s', o) := merge_sort fuel offset (wrap32 (wrap32 (offset + length) - 1))
                             {| ss := s; sa := a; sb := zrep length zero |} in
            (ss s', Some (sa s'), o)
    end.
End Sort.
Arguments st : clear implicits.

(** The comparators of sort_*_asc and sort_*_desc for the integer types
    (Sort.spvm:44-49 and its copies): [<=>], spvm_implement.h:
    SPVM_IMPLEMENT_NUMERIC_COMPARISON_INT. *)
Definition int_cmp (x y : Z) : Z := if x >? y then 1 else if x <? y then -1 else 0.
Definition asc_cmp (s : unit) (x y : Z) : unit * outcome Z := (s, Ret (int_cmp x y)).
Definition desc_cmp (s : unit) (x y : Z) : unit * outcome Z := (s, Ret (int_cmp y x)).
