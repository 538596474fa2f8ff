(** * What sorting a range means *)
From Coq Require Import Permutation.
From Verif Require Import Base.

(** [a'] differs from [a] only inside the [len] elements from [off], and there
    it is a permutation. *)
Definition permutes_range {A} (a a' : list A) (off len : Z) : Prop :=
  exists pre seg seg' post,
    a = pre ++ seg ++ post /\ a' = pre ++ seg' ++ post /\
    zlen pre = off /\ zlen seg = len /\ Permutation seg seg'.

(** The range addressed by the arguments of a sort call. *)
Definition sort_range (array_length offset length : Z) : Z * Z :=
  (offset, if length <? 0 then array_length - offset else length).

(** A comparison function that is a total preorder ("at most 0" is read as
    "not after"). *)
Record total_preorder {A} (c : A -> A -> Z) : Prop := {
  tp_total : forall x y, c x y <= 0 \/ c y x <= 0;
  tp_trans : forall x y z, c x y <= 0 -> c y z <= 0 -> c x z <= 0
}.

(** Every element is not after each later one. *)
Definition in_order {A} (c : A -> A -> Z) (l : list A) : Prop :=
  forall i j x y, i < j -> znth l i = Some x -> znth l j = Some y -> c x y <= 0.

(** Elements that compare equal to [x], in their order. *)
Definition equals_of {A} (c : A -> A -> Z) (x : A) (l : list A) : list A :=
  filter (fun y => (c x y <=? 0) && (c y x <=? 0)) l.

(** Elements that compare equal keep their relative order. *)
Definition stable {A} (c : A -> A -> Z) (l l' : list A) : Prop :=
  forall x, equals_of c x l' = equals_of c x l.
