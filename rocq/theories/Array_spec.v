(** * What the Array methods are for, independently of the code *)
From Coq Require Import Permutation.
From Verif Require Import Base.

(** [d'] is [d] with the [len] elements from [doff] replaced by the [len]
    elements of [s] from [soff]. *)
Definition copied {A} (d : list A) (doff : Z) (s : list A) (soff len : Z) (d' : list A) : Prop :=
  zlen d' = zlen d /\
  forall i, znth d' i =
    if (doff <=? i) && (i <? doff + len) then znth s (soff + (i - doff)) else znth d i.

(** The arguments a copy may reject. *)
Definition bad_copy {A} (d : list A) (doff : Z) (s : list A) (soff len : Z) : Prop :=
  len < 0 \/ doff < 0 \/ soff < 0 \/ zlen d < doff + len \/ zlen s < soff + len.

(** The range meant by (offset, length): a negative length means "to the end". *)
Definition range_length (alen offset length : Z) : Z :=
  if length <? 0 then alen - offset else length.
