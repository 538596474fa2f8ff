(** * C31: List behaves as a sequence *)
From Verif Require Import Base List_model List_spec List_proofs.

(** Every history of operations on a new list gives the outcomes of the same
    history on a sequence. *)
Theorem C31_list_is_a_sequence :
  forall (A : Type) (undef : A) (defined accepts : A -> bool) (array : list A) (capacity : Z)
         (ops : list (lop A)),
    accepts undef = true ->
    zlen array <= max_capacity -> capacity <= max_capacity ->
    Forall (fun x => accepts x = true) array ->
    Forall op_args_ok ops ->
    exists s, ls_new undef accepts (Some array) capacity = Ret s /\
      allowed_run undef defined accepts (mk_seq array false false) ops
        (ls_run undef defined accepts s ops).
Proof.
  intros A undef defined accepts array capacity ops Hu Hl Hc Ha Ho.
  destruct (new_ok undef defined accepts Hu array capacity Hl Hc Ha) as (s & E & I).
  exists s. split; auto. apply run_ok; auto.
Qed.

(** new_len makes a list of undefined elements, for which the same holds. *)
Theorem C31_new_len :
  forall (A : Type) (undef : A) (defined accepts : A -> bool) (length capacity : Z) (ops : list (lop A)),
    accepts undef = true ->
    length <= max_capacity -> capacity <= max_capacity -> Forall op_args_ok ops ->
    match ls_new_len undef length capacity with
    | Ret s => 0 <= length /\
        allowed_run undef defined accepts (mk_seq (zrep length undef) false false) ops
          (ls_run undef defined accepts s ops)
    | Die _ => length < 0
    | _ => False
    end.
Proof.
  intros A undef defined accepts length capacity ops Hu Hl Hc Ho.
  destruct (Z.ltb_spec length 0) as [H | H].
  - unfold ls_new_len. destruct (Z.geb_spec length 0); [lia |]. auto.
  - destruct (new_len_ok undef accepts Hu length capacity) as (s & -> & I); [lia | auto |].
    split; auto. apply run_ok; auto.
Qed.

(** Elements for the examples: [None] is undef, the list stores elements of
    one type, and the wrong elements are the negative ones. *)
Definition ex_defined (x : option Z) : bool := match x with Some _ => true | None => false end.
Definition ex_accepts (x : option Z) : bool := match x with Some n => 0 <=? n | None => true end.
Definition ex_run (a : list (option Z)) (ops : list (lop (option Z))) : list (outcome (lres (option Z))) :=
  match ls_new None ex_accepts (Some a) (-1) with
  | Ret s => ls_run None ex_defined ex_accepts s ops
  | _ => []
  end.

(** The hypotheses hold and the operations do something: a history that wraps
    around the end of the ring, grows it and throws. *)
Example C31_history :
  ex_run [Some 1; Some 2; Some 3]
    [LShift; LShift; LPush (Some 4); LPush (Some 5); LPush (Some 6); LUnshift (Some 0);
     LToArray; LReplace 1 2 (Some [Some 7; None; Some 8]); LToArray; LGet 6; LSet 0 (Some (-1));
     LRemove 0; LToArray; LPop; LLength] =
  [Ret (LRElem (Some 1)); Ret (LRElem (Some 2)); Ret LRUnit; Ret LRUnit; Ret LRUnit; Ret LRUnit;
   Ret (LRArray [Some 0; Some 3; Some 4; Some 5; Some 6]); Ret LRUnit;
   Ret (LRArray [Some 0; Some 7; None; Some 8; Some 5; Some 6]);
   Die "The index $index must be less than the length of $list.";
   Die "The element must be assigned to the element type of the array.";
   Ret (LRElem (Some 0)); Ret (LRArray [Some 7; None; Some 8; Some 5; Some 6]);
   Ret (LRElem (Some 6)); Ret (LRInt 4)].
Proof. vm_compute. reflexivity. Qed.

Example C31_hypotheses_met :
  ex_accepts None = true /\
  Forall (fun x => ex_accepts x = true) [Some 1; Some 2; Some 3] /\
  Forall op_args_ok [LShift; LPush (Some 4); LReplace 0 2 (Some [Some 7; None]); LGet 6] /\
  fits None ex_defined ex_accepts (mk_seq [Some 1; Some 2; Some 3] false false)
    (LReplace 0 2 (Some [Some 7; None])).
Proof.
  split; [reflexivity |]. split; [repeat constructor |]. split.
  - repeat apply Forall_cons; try apply Forall_nil; cbn; unfold in_i32; repeat split; first [lia | vm_compute; discriminate].
  - split; [| cbn; split; [lia | repeat constructor]].
    intros l1 r E. vm_compute in E. injection E as <- <-. left. vm_compute. discriminate.
Qed.

(** ** Where the code departs from the sequence operations *)

(** push, unshift, insert and replace of an element of a wrong type throw, but
    the list has changed. *)
Theorem C31_throwing_push_refuted :
  exists (a : list (option Z)) (x : option Z) e,
    ex_run a [LPush x; LLength] = [Die e; Ret (LRInt (zlen a + 1))] /\
    ex_run a [LUnshift x; LLength] = [Die e; Ret (LRInt (zlen a + 1))] /\
    ex_run a [LInsert 0 x; LLength] = [Die e; Ret (LRInt (zlen a + 1))] /\
    ex_run a [LReplace 0 0 (Some [Some 9; x]); LToArray] = [Die e; Ret (LRArray [Some 9; None; Some 1])].
Proof.
  exists [Some 1], (Some (-1)), "The element must be assigned to the element type of the array."%string.
  vm_compute. auto.
Qed.

(** insert of undef inserts nothing. *)
Theorem C31_insert_undef_refuted :
  exists (a : list (option Z)) (i : Z), 0 <= i <= zlen a /\
    ex_run a [LInsert i None; LToArray] = [Ret LRUnit; Ret (LRArray a)].
Proof. exists [Some 1], 0. vm_compute. repeat split; congruence. Qed.

(** Elements removed at the end come back when the list grows. *)
Theorem C31_removed_element_reappears_refuted :
  exists (a : list (option Z)) (x : option Z),
    ex_run a [LRemove (zlen a - 1); LResize (zlen a); LGet (zlen a - 1)] =
      [Ret (LRElem x); Ret LRUnit; Ret (LRElem x)] /\ x <> None.
Proof. exists [Some 1; Some 2], (Some 2). vm_compute. split; congruence. Qed.

(** reserve may throw for a capacity it does not throw for on a list with the
    same elements. *)
Theorem C31_reserve_refuted :
  exists (a : list (option Z)) (n : Z) e,
    ex_run a [LUnshift (Some 0); LReserve n] = [Ret LRUnit; Die e] /\
    ex_run (Some 0 :: a) [LReserve n] = [Ret LRUnit].
Proof.
  exists [Some 1], 5. vm_compute. eexists. auto.
Qed.

(** replace with arguments whose sum overflows is not rejected and leaves a
    list of negative length. *)
Theorem C31_overflowing_replace_refuted :
  exists (a : list (option Z)) (index rem : Z),
    in_i32 index /\ in_i32 rem /\ 0 <= index /\ 0 <= rem /\ zlen a < index + rem /\
    exists n, ex_run a [LReplace index rem None; LLength] = [Ret LRUnit; Ret (LRInt n)] /\ n < 0.
Proof.
  exists [Some 1], 2, 2147483647. unfold in_i32.
  split; [lia |]. split; [lia |]. split; [lia |]. split; [lia |].
  split; [vm_compute; reflexivity |]. exists (-2147483646). vm_compute. auto.
Qed.

Print Assumptions C31_list_is_a_sequence.
Print Assumptions C31_new_len.
Print Assumptions C31_throwing_push_refuted.
Print Assumptions C31_insert_undef_refuted.
Print Assumptions C31_removed_element_reappears_refuted.
Print Assumptions C31_reserve_refuted.
Print Assumptions C31_overflowing_replace_refuted.
