(** * Model of Builder/src/spvm_list.c, the growable pointer array.

    Simplifications: a stored pointer is an integer, 0 being NULL; the block
    [values] is the Coq list of its slots (zero-filled on allocation, calloc);
    allocation of a positive size succeeds; failed asserts and accesses outside
    the block are [UB]. *)

From Verif Require Import Base.

Record nlist : Type := {
  nl_length : Z;
  nl_capacity : Z;
  nl_values : list Z
}.

(** Reading and writing one slot of a block. *)
Definition slot_get (vals : list Z) (i : Z) : outcome Z :=
  match znth vals i with Some v => Ret v | None => UB end.
Definition slot_set (vals : list Z) (i v : Z) : outcome (list Z) :=
  if (0 <=? i) && (i <? zlen vals) then Ret (zupd vals i v) else UB.

(** memcpy/memmove of [n] slots between offsets of two blocks. *)
Definition slots_copy (dst : list Z) (doff : Z) (src : list Z) (soff n : Z) : outcome (list Z) :=
  if (0 <=? n) && (0 <=? doff) && (doff + n <=? zlen dst) && (0 <=? soff) && (soff + n <=? zlen src)
  then Ret (zblit dst doff (zsub src soff n)) else UB.

(** SPVM_LIST_new, spvm_list.c:11-53. *)
Definition nl_new (capacity : Z) : outcome nlist :=
  if capacity <? 0 then UB else
  let capacity := if capacity =? 0 then 1 else capacity in
  Ret {| nl_length := 0; nl_capacity := capacity; nl_values := zrep capacity 0 |}.

(** SPVM_LIST_maybe_extend, spvm_list.c:64-101. *)
Definition nl_maybe_extend (l : nlist) : outcome nlist :=
  if nl_length l >=? nl_capacity l then
    let new_capacity := wrap32 (nl_capacity l * 2) in
    if new_capacity <=? 0 then UB else
    let! new_values := slots_copy (zrep new_capacity 0) 0 (nl_values l) 0 (nl_capacity l) in
    Ret {| nl_length := nl_length l; nl_capacity := new_capacity; nl_values := new_values |}
  else Ret l.

(** SPVM_LIST_push, spvm_list.c:119-127. *)
Definition nl_push (l : nlist) (value : Z) : outcome nlist :=
  let! l := nl_maybe_extend l in
  let length := nl_length l in
  let! values := slot_set (nl_values l) length value in
  Ret {| nl_length := wrap32 (length + 1); nl_capacity := nl_capacity l; nl_values := values |}.

(** SPVM_LIST_unshift, spvm_list.c:129-139. *)
Definition nl_unshift (l : nlist) (value : Z) : outcome nlist :=
  let! l := nl_maybe_extend l in
  let length := nl_length l in
  let! values := slots_copy (nl_values l) 1 (nl_values l) 0 length in
  let! values := slot_set values 0 value in
  Ret {| nl_length := wrap32 (length + 1); nl_capacity := nl_capacity l; nl_values := values |}.

(** SPVM_LIST_get, spvm_list.c:141-148. *)
Definition nl_get (l : nlist) (index : Z) : outcome Z :=
  if (index >=? 0) && (index <? nl_length l) then slot_get (nl_values l) index else UB.

(** SPVM_LIST_set, spvm_list.c:150-157. *)
Definition nl_set (l : nlist) (index value : Z) : outcome nlist :=
  if (index >=? 0) && (index <? nl_length l) then
    let! values := slot_set (nl_values l) index value in
    Ret {| nl_length := nl_length l; nl_capacity := nl_capacity l; nl_values := values |}
  else UB.

(** SPVM_LIST_pop, spvm_list.c:159-170. *)
Definition nl_pop (l : nlist) : outcome (nlist * Z) :=
  if nl_length l <? 0 then UB else
  if nl_length l =? 0 then Ret (l, 0) else
  let length := nl_length l - 1 in
  let! v := slot_get (nl_values l) length in
  Ret ({| nl_length := length; nl_capacity := nl_capacity l; nl_values := nl_values l |}, v).

(** SPVM_LIST_clear, spvm_list.c:172-177: the loop decrements to 0. *)
Fixpoint nl_clear_loop (fuel : nat) (length : Z) : outcome Z :=
  if length >? 0 then
    match fuel with O => Fuel | S f => nl_clear_loop f (length - 1) end
  else Ret length.
Definition nl_clear (l : nlist) : outcome nlist :=
  let! length := nl_clear_loop (Z.to_nat (nl_length l)) (nl_length l) in
  Ret {| nl_length := length; nl_capacity := nl_capacity l; nl_values := nl_values l |}.

(** The loop of SPVM_LIST_shift, spvm_list.c:188-190; [n] iterations left. *)
Fixpoint nl_shift_loop (n : nat) (i : Z) (vals : list Z) : outcome (list Z) :=
  match n with
  | O => Ret vals
  | S n' =>
      let! v := slot_get vals (i + 1) in
      let! vals := slot_set vals i v in
      nl_shift_loop n' (i + 1) vals
  end.

(** SPVM_LIST_shift, spvm_list.c:179-195. *)
Definition nl_shift (l : nlist) : outcome (nlist * Z) :=
  if nl_length l <? 0 then UB else
  if nl_length l =? 0 then Ret (l, 0) else
  let! v := slot_get (nl_values l) 0 in
  let! values := nl_shift_loop (Z.to_nat (nl_length l - 1)) 0 (nl_values l) in
  Ret ({| nl_length := nl_length l - 1; nl_capacity := nl_capacity l; nl_values := values |}, v).

(** Histories of calls on one list. *)
Inductive nl_op : Type :=
| LPush (v : Z) | LUnshift (v : Z) | LGet (i : Z) | LSet (i v : Z)
| LPop | LShift | LClear | LLength.

Definition nl_step (l : nlist) (op : nl_op) : outcome (nlist * list Z) :=
  match op with
  | LPush v => let! l := nl_push l v in Ret (l, [])
  | LUnshift v => let! l := nl_unshift l v in Ret (l, [])
  | LGet i => let! v := nl_get l i in Ret (l, [v])
  | LSet i v => let! l := nl_set l i v in Ret (l, [])
  | LPop => let! (l, v) := nl_pop l in Ret (l, [v])
  | LShift => let! (l, v) := nl_shift l in Ret (l, [v])
  | LClear => let! l := nl_clear l in Ret (l, [])
  | LLength => Ret (l, [nl_length l])
  end.

Fixpoint nl_run (l : nlist) (ops : list nl_op) : outcome (list Z) :=
  match ops with
  | [] => Ret []
  | op :: ops' =>
      let! (l, out) := nl_step l op in
      let! outs := nl_run l ops' in
      Ret (out ++ outs)
  end.

Definition nl_history (capacity : Z) (ops : list nl_op) : outcome (list Z) :=
  let! l := nl_new capacity in nl_run l ops.
