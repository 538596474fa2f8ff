(** * C30: the numeric lists are sequences *)
From Verif Require Import Base Array_model IntList_model IntList_spec IntList_proofs.

(** C30. For every element type, zero and conversion (so for ByteList,
    ShortList, IntList, LongList, FloatList and DoubleList), every initial
    array and capacity, and every history of operations with int arguments in
    which the caller catches exceptions and goes on: each outcome is the one of
    the sequence operation; documented argument errors throw and change
    nothing; no other exception occurs, except for results longer than 2^30-1
    elements, where an exception that changes nothing is also allowed. *)
Theorem C30_numeric_list_is_a_sequence :
  forall (A X : Type) (zero : A) (conv : X -> A) (init : option (list A)) (capacity : Z)
         (ops : list (iop A X)),
    match init with Some a => zlen a <= INT32_MAX | None => True end ->
    capacity <= INT32_MAX -> Forall op_args_ok ops ->
    exists s, new zero init capacity = Ret s /\
      allowed_run zero conv (match init with Some a => a | None => [] end) ops (il_run zero conv s ops).
Proof.
  intros A X zero conv init capacity ops Hi Hc F.
  destruct (new_ok zero init capacity Hi Hc) as (s & E & R).
  exists s. split; auto. apply run_ok; auto.
Qed.

(** new_len gives [n] zeros, and throws exactly for a negative length. *)
Theorem C30_new_len :
  forall (A X : Type) (zero : A) (conv : X -> A) (n capacity : Z) (ops : list (iop A X)),
    in_i32 n -> in_i32 capacity -> Forall op_args_ok ops ->
    (0 <= n -> exists s, new_len zero n capacity = Ret s /\
                 allowed_run zero conv (zrep n zero) ops (il_run zero conv s ops)) /\
    (n < 0 -> exists e, new_len zero n capacity = Die e).
Proof.
  unfold in_i32. intros A X zero conv n capacity ops Hn Hc F. split; intros H.
  - destruct (new_len_ok zero n capacity) as (s & E & R & _); try lia.
    exists s. split; auto. apply run_ok; auto.
  - unfold new_len. destruct (Z.geb_spec n 0); [lia | eauto].
Qed.

(** The restriction to results an int can count is needed: inserting into a
    list of INT32_MAX elements overflows in the native move. *)
Theorem C30_full_list_refuted :
  forall (A X : Type) (zero : A) (conv : X -> A) (l : list A) (x : X),
    zlen l = INT32_MAX ->
    snd (il_step zero conv (mk_ilist INT32_MAX INT32_MAX l) (IInsert 0 x)) = UB.
Proof. intros. apply full_insert_ub; auto. Qed.

(** A concrete history on a byte list: growth, wrap-around of the stored
    element, errors in the middle, replace at both ends. *)
Example byte_list_history :
  exists s e1 e2 e3, new 0 (Some [1; 2]) 2 = Ret s /\
    il_run 0 wrap8 s
      [IPush 200; IUnshift 7; IInsert 2 5; IGet 9; IReplace 1 2 (Some [8; 8; 8]); IToArray;
       IResize 2; IPop; IShift; IPop; IRemove (-1); ILength; IReserve 100; IResize 3; IToArray]
    = [Ret RUnit; Ret RUnit; Ret RUnit; Die e1; Ret RUnit; Ret (RArray [7; 8; 8; 8; 2; -56]);
       Ret RUnit; Ret (RElem 8); Ret (RElem 7); Die e2; Die e3; Ret (RInt 0); Ret RUnit; Ret RUnit;
       Ret (RArray [0; 0; 0])].
Proof.
  exists (mk_ilist 2 2 [1; 2]). do 3 eexists. split; [reflexivity |]. lazy. reflexivity.
Qed.

(** The spec on the same kind of history is not trivially permissive. *)
Example seq_op_insert :
  seq_op 0 wrap8 [1; 2; 3] (IInsert 1 300) = Some ([1; 44; 2; 3], RUnit).
Proof. reflexivity. Qed.

Print Assumptions C30_numeric_list_is_a_sequence.
Print Assumptions C30_new_len.
Print Assumptions C30_full_list_refuted.
