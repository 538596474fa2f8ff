(** * Fn->copy of arrays of objects, and copies of points

    lib/SPVM/Fn.spvm: copy (1534-1568), the branch for arrays of objects (1549-1556), on top of
    Array->copy_object (FnHof_model) and Cloner->default_cloner (Equal_model). *)
From Verif Require Import Base FnHof_model Equal_model.
Local Open Scope Z_scope.

(** Fn.spvm 1549-1556. [arr] gives the elements of the array in a state. *)
Definition fn_copy_objects {S R} (arr : S -> list (option R)) (implements : R -> bool)
    (clone : S -> R -> S * outcome (option R)) (accepts : option R -> bool) (shallow : Z) (s : S)
  : S * outcome (list (option R)) :=
  if negb (shallow =? 0) then copy_object_address arr None accepts true 0 (-1) s
  else copy_object arr None accepts true (Some (default_cloner S R implements clone)) 0 (-1) s.

(** A state with the array and the address of the next new object, and the method clone of points:
    a new object (Point.spvm 34-38, Point3D.spvm 30-34). Simplified: addresses are not used again. *)
Definition points_state : Type := list (option (Z * point)) * Z.
Definition points_clone (s : points_state) (r : Z * point) : points_state * outcome (option (Z * point)) :=
  ((fst s, snd s + 1), Ret (Some (snd s, clone (snd r)))).
