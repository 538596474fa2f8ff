(** * C02: the native pointer array is a sequence. *)

From Verif Require Import Base NList_model NList_spec NList_proofs.

(** For every initial capacity and every history of fewer than 2^30 calls
    that respects the index preconditions, the array answers exactly as the
    mathematical sequence does, and no call leaves the block. *)
Theorem C02_native_list_is_a_sequence :
  forall (capacity : Z) (ops : list nl_op) (outs : list Z),
    0 <= capacity <= INT32_MAX ->
    zlen ops <= 1073741823 ->
    seq_run [] ops = Some outs ->
    nl_history capacity ops = Ret outs.
Proof. exact history_spec. Qed.

Example C02_example :
  let ops := [LPush 1; LPush 2; LUnshift 7; LPush 3; LLength; LGet 0; LSet 1 9; LShift; LShift;
              LPop; LPop; LPop; LShift; LPush 5; LClear; LLength] in
  seq_run [] ops = Some [4; 7; 7; 9; 3; 2; 0; 0; 0] /\
  nl_history 0 ops = Ret [4; 7; 7; 9; 3; 2; 0; 0; 0].
Proof. vm_compute. auto. Qed.

(** A call with an index outside the sequence is stopped by the assertion, at
    every point of every history. *)
Theorem C02_out_of_range_is_caught :
  forall (capacity : Z) (ops : list nl_op),
    0 <= capacity <= INT32_MAX ->
    zlen ops <= 1073741823 ->
    seq_run [] ops = None ->
    nl_history capacity ops = UB.
Proof. exact history_bad. Qed.

Example C02_out_of_range_example :
  seq_run [] [LPush 1; LPush 2; LPop; LGet 1] = None /\
  nl_history 0 [LPush 1; LPush 2; LPop; LGet 1] = UB.
Proof. vm_compute. auto. Qed.

Print Assumptions C02_out_of_range_is_caught.
Print Assumptions C02_native_list_is_a_sequence.
