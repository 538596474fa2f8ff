(** * Register allocation and the layout of a method's call frame *)

From Verif Require Import Base.

(** ** Register allocation at compile time *)

(** The eight kinds of registers; one list per kind
    (lib/SPVM/Builder/src/spvm_check.c:3730-3737). *)
Inductive bank := BByte | BShort | BInt | BLong | BFloat | BDouble | BObject | BRef.

Definition bank_eqb (a b : bank) : bool :=
  match a, b with
  | BByte, BByte | BShort, BShort | BInt, BInt | BLong, BLong
  | BFloat, BFloat | BDouble, BDouble | BObject, BObject | BRef, BRef => true
  | _, _ => false
  end.

(** spvm_check.c:4282-4288: is one of the [width] slots from [k] on taken?
    A slot holds the index of its variable; a negative entry is free. *)
Fixpoint range_used (n : nat) (vars : list Z) (k : Z) : outcome bool :=
  match n with
  | O => Ret false
  | S n' =>
      match znth vars k with
      | None => UB
      | Some id => if 0 <=? id then Ret true else range_used n' vars (k + 1)
      end
  end.

(** spvm_check.c:4291-4293: take the slots. *)
Fixpoint range_take (n : nat) (vars : list Z) (k id : Z) : list Z :=
  match n with
  | O => vars
  | S n' => range_take n' (zupd vars k id) (k + 1) id
  end.

(** spvm_check.c:4276-4301, the search for free slots. *)
Fixpoint search_free (fuel : nat) (vars : list Z) (width k : Z) : outcome (option Z) :=
  match fuel with
  | O => Fuel
  | S f =>
      if k <? zlen vars then
        if k + width <=? zlen vars then
          let! used := range_used (Z.to_nat width) vars k in
          if used then search_free f vars width (k + 1) else Ret (Some k)
        else search_free f vars width (k + 1)
      else Ret None
  end.

(** spvm_check.c:4268-4312 SPVM_CHECK_get_typed_var_index: the index and the
    new list; [id] is var_decl->index and [width] the width of its type. *)
Definition get_typed_var_index (vars : list Z) (width id : Z) : outcome (Z * list Z) :=
  let! found := search_free (S (length vars)) vars width 0 in
  match found with
  | Some k => Ret (k, range_take (Z.to_nat width) vars k id)
  | None => Ret (zlen vars, vars ++ zrep width id)
  end.

(** A declared variable: its register kind and width (the number of fields for
    a multi-numeric type, otherwise 1; lib/SPVM/Builder/src/spvm_type.c
    SPVM_TYPE_get_type_width). *)
Record var := { v_bank : bank; v_width : Z }.

(** spvm_check.c:3726-3900 SPVM_CHECK_check_ast_typed_var_indexs: the
    declarations of the method in traversal order; the variable's index is its
    position. Gives every variable its typed_var_index and each kind its
    width. *)
Fixpoint assign_indexes (vs : list var) (id : Z) (banks : bank -> list Z) : outcome (list Z * (bank -> list Z)) :=
  match vs with
  | [] => Ret ([], banks)
  | v :: r =>
      let! (k, l) := get_typed_var_index (banks (v_bank v)) (v_width v) id in
      let! (ks, banks) := assign_indexes r (id + 1)
                            (fun b => if bank_eqb b (v_bank v) then l else banks b) in
      Ret (k :: ks, banks)
  end.

(** spvm_check.c:3893-3900. *)
Definition allocate (vs : list var) : outcome (list Z * (bank -> Z)) :=
  let! (ks, banks) := assign_indexes vs 0 (fun _ => []) in
  Ret (ks, fun b => zlen (banks b)).

(** ** The call frame at run time *)

(** Register counts of a method (SPVM_RUNTIME_METHOD). *)
Record widths := {
  w_of : bank -> Z;
  w_mortal : Z (* mortal_stack_length *)
}.

(** sizeof(void* ) on a 64-bit machine. *)
Definition PTR : Z := 8.

(** Addition and multiplication in int32_t; overflow is undefined. *)
Definition c32 (x : Z) : outcome Z :=
  if (INT32_MIN <=? x) && (x <=? INT32_MAX) then Ret x else UB.

(** lib/SPVM/Builder/src/spvm_vm.c:103-115: the size of the numeric area. *)
Definition numeric_size (w : widths) : outcome Z :=
  let! n := c32 (w_of w BLong * 8) in
  let! m := c32 (w_of w BDouble * 8) in let! n := c32 (n + m) in
  let! m := c32 (w_of w BInt * 4) in let! n := c32 (n + m) in
  let! m := c32 (w_of w BFloat * 4) in let! n := c32 (n + m) in
  let! m := c32 (w_mortal w * 4) in let! n := c32 (n + m) in
  let! m := c32 (w_of w BShort * 2) in let! n := c32 (n + m) in
  let! m := c32 (w_of w BByte * 1) in let! n := c32 (n + m) in
  if negb (Z.rem n 8 =? 0) then c32 (n + (8 - Z.rem n 8)) else Ret n.

(** Region kinds of a frame. *)
Inductive region := RBank (b : bank) | RMortal.

(** spvm_vm.c:102-167: the allocated size and the offset of each region.
    (The address area is computed in size_t and stored in int32_t.) *)
Definition layout (w : widths) : outcome (Z * (region -> Z)) :=
  let! numeric := numeric_size w in
  let address := wrap32 (w_of w BObject * PTR) in
  let address := wrap32 (address + w_of w BRef * PTR) in
  let! total := c32 (numeric + address) in
  let! size := c32 (total + 1) in
  let o_double := 0 in
  let o_long := o_double + w_of w BDouble * 8 in
  let o_float := o_long + w_of w BLong * 8 in
  let o_int := o_float + w_of w BFloat * 4 in
  let o_mortal := o_int + w_of w BInt * 4 in
  let o_short := o_mortal + w_mortal w * 4 in
  let o_byte := o_short + w_of w BShort * 2 in
  let o_object := numeric in
  let o_ref := o_object + w_of w BObject * PTR in
  Ret (size, fun r =>
    match r with
    | RBank BDouble => o_double
    | RBank BLong => o_long
    | RBank BFloat => o_float
    | RBank BInt => o_int
    | RMortal => o_mortal
    | RBank BShort => o_short
    | RBank BByte => o_byte
    | RBank BObject => o_object
    | RBank BRef => o_ref
    end).
