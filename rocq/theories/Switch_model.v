(** * The switch statement: compile-time sorting and run-time lookup *)

From Verif Require Import Base.

(** A case: its constant and the opcode index of its block
    (SPVM_CASE_INFO.case_value, .goto_opcode_index). *)
Notation case := (Z * Z)%type.

(** lib/SPVM/Builder/src/spvm_check.c:1527-1538, the inner loop of the sort,
    for a fixed [i], from [j] on. *)
Fixpoint sort_inner (fuel : nat) (l : list case) (i j : Z) : outcome (list case) :=
  match fuel with
  | O => Fuel
  | S f =>
      if j <? zlen l then
        match znth l i, znth l j with
        | Some ci, Some cj =>
            let l := if fst cj <? fst ci then zupd (zupd l i cj) j ci else l in
            sort_inner f l i (j + 1)
        | _, _ => UB
        end
      else Ret l
  end.

(** spvm_check.c:1526-1539, the outer loop. *)
Fixpoint sort_outer (fuel : nat) (l : list case) (i : Z) : outcome (list case) :=
  match fuel with
  | O => Fuel
  | S f =>
      if i <? zlen l then
        let! l := sort_inner (S (length l)) l i (i + 1) in
        sort_outer f l (i + 1)
      else Ret l
  end.

(** spvm_check.c:1541-1547: is there a pair of equal neighbours? (The compiler
    then reports an error and the program is rejected.) *)
Fixpoint dup_loop (fuel : nat) (l : list case) (i : Z) : outcome bool :=
  match fuel with
  | O => Fuel
  | S f =>
      if i <? zlen l - 1 then
        match znth l i, znth l (i + 1) with
        | Some c, Some c' =>
            let! d := dup_loop f l (i + 1) in Ret ((fst c =? fst c') || d)
        | _, _ => UB
        end
      else Ret false
  end.

Definition DUPLICATED : string := "The value of the case statement cannnot be duplicated.".

(** spvm_check.c:1524-1547. *)
Definition check_switch (cases : list case) : outcome (list case) :=
  let! l := sort_outer (S (length cases)) cases 0 in
  let! d := dup_loop (S (length l)) l 0 in
  if d then Die DUPLICATED else Ret l.

(** spvm_opcode.h:507-513, the fields used here; operands are uint32_t. *)
Record opcode := { op_id : Z; op0 : Z; op1 : Z; op2 : Z }.
Definition ID_LOOKUP_SWITCH : Z := 1.
Definition ID_CASE_INFO : Z := 2.

(** lib/SPVM/Builder/src/spvm_opcode_builder.c:562-615: the switch opcode and
    the case-info opcodes that follow it, after the final operands were
    filled in (570-581). [dflt] is switch_info->default_opcode_index. *)
Definition emit_switch (var dflt : Z) (sorted : list case) : list opcode :=
  {| op_id := ID_LOOKUP_SWITCH; op0 := u32 var; op1 := u32 dflt; op2 := u32 (zlen sorted) |}
  :: map (fun c => {| op_id := ID_CASE_INFO; op0 := 0; op1 := u32 (fst c); op2 := u32 (snd c) |}) sorted.

(** lib/SPVM/Builder/src/spvm_vm.c:244-266, the binary search; [pc] is
    opcode_rel_index. *)
Fixpoint search (fuel : nat) (ops : list opcode) (pc v dflt lo hi : Z) : outcome Z :=
  match fuel with
  | O => Fuel
  | S f =>
      if hi <? lo then Ret dflt
      else
        let half := lo + Z.quot (hi - lo) 2 in
        match znth ops (pc + 1 + half) with
        | None => UB
        | Some o =>
            let cur := wrap32 (op1 o) in
            if cur <? v then search f ops pc v dflt (half + 1) hi
            else if v <? cur then search f ops pc v dflt lo (half - 1)
            else Ret (wrap32 (op2 o))
        end
  end.

(** spvm_vm.c:222-273 LOOKUP_SWITCH: the next opcode index, for the value [v]
    of the condition variable. *)
Definition lookup_switch (ops : list opcode) (pc v : Z) : outcome Z :=
  match znth ops pc with
  | None => UB
  | Some o =>
      let dflt := wrap32 (op1 o) in
      let n := wrap32 (op2 o) in
      if 0 <? n then
        match znth ops (pc + 1 + 0), znth ops (pc + 1 + n - 1) with
        | Some omin, Some omax =>
            if (wrap32 (op1 omin) <=? v) && (v <=? wrap32 (op1 omax))
            then search (S (Z.to_nat n)) ops pc v dflt 0 (n - 1)
            else Ret dflt
        | _, _ => UB
        end
      else Ret dflt
  end.
