(** * What a symbol table is: each lookup answers the value of the last
    preceding store with exactly the same key bytes, or NULL. *)

From Verif Require Import Base NHash_model.

(** [past] is the history before the lookup, most recent call first. *)
Fixpoint last_stored (k : list Z) (past : list nh_op) : Z :=
  match past with
  | [] => 0
  | NSet k' v :: past' => if list_eq_dec Z.eq_dec k' k then v else last_stored k past'
  | NGet _ :: past' => last_stored k past'
  end.

(** The answers of the lookups in [ops] after [past]. *)
Fixpoint expected_answers (past ops : list nh_op) : list Z :=
  match ops with
  | [] => []
  | NSet k v :: ops' => expected_answers (NSet k v :: past) ops'
  | NGet k :: ops' => last_stored k past :: expected_answers (NGet k :: past) ops'
  end.
