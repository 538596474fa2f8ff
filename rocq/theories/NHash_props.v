(** * C01: the symbol table is a map from byte strings to pointers. *)

From Verif Require Import Base NHash_model NHash_spec NHash_proofs.

(** For every initial capacity and every history of at most 2^29 calls, each
    lookup answers the last value stored under exactly the same bytes (NULL
    when there is none) and no call touches memory outside the table.
    Rehashes, collisions, empty keys and keys containing NUL are covered. *)
Theorem C01_symbol_table_is_a_map :
  forall (capacity : Z) (ops : list nh_op),
    0 <= capacity <= INT32_MAX ->
    zlen ops <= 536870912 ->
    nh_history capacity ops = Ret (expected_answers [] ops).
Proof. exact history_spec. Qed.

(** The hypotheses are met by histories that collide and rehash:
    five keys in a table created with capacity 0, one of them overwritten. *)
Example C01_example :
  let ops := [NSet [] 1; NSet [97] 2; NSet [97; 0] 3; NSet [97; 0; 98] 4; NSet [98] 5;
              NGet [97; 0]; NSet [97; 0] 6; NGet [97; 0]; NGet []; NGet [99]; NGet [97]] in
  nh_history 0 ops = Ret [3; 6; 1; 0; 2].
Proof. vm_compute. reflexivity. Qed.

Print Assumptions C01_symbol_table_is_a_map.
