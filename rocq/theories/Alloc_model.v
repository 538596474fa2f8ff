(** * Model of Builder/src/spvm_allocator.c

    The C heap is the list of live block addresses; address 0 is NULL.
    calloc is any function [pick] from the live blocks to a fresh non-NULL
    address (memory is never exhausted). Freeing a block that is not live, or
    writing outside the array of permanent blocks, is [UB].
    [size > SIZE_MAX] (spvm_allocator.c:36) is never true. *)

From Verif Require Import Base.

Fixpoint hmem (a : Z) (h : list Z) : bool :=
  match h with [] => false | b :: h' => (a =? b) || hmem a h' end.
Fixpoint hremove (a : Z) (h : list Z) : list Z :=
  match h with [] => [] | b :: h' => if a =? b then h' else b :: hremove a h' end.

(** free(): NULL is allowed, a dangling pointer is not. *)
Definition c_free (h : list Z) (a : Z) : outcome (list Z) :=
  if a =? 0 then Ret h else if hmem a h then Ret (hremove a h) else UB.

Record alloc : Type := {
  al_self : Z;                  (* the SPVM_ALLOCATOR block itself *)
  al_count_tmp : Z;             (* memory_blocks_count_tmp *)
  al_count_permanent : Z;       (* memory_blocks_count_permanent *)
  al_list : Z;                  (* permanent_memory_blocks: its address... *)
  al_slots : list Z;            (* ... and its content *)
  al_list_length : Z;           (* permanent_memory_blocks_length *)
  al_list_capacity : Z;         (* permanent_memory_blocks_capacity *)
  al_heap : list Z              (* live C blocks *)
}.

Section Alloc.
  Variable pick : list Z -> Z.

  (** SPVM_ALLOCATOR_alloc_memory_block_unmanaged, spvm_allocator.c:30-43. *)
  Definition alloc_unmanaged (h : list Z) (size : Z) : list Z * Z :=
    if size <? 1 then (h, 0) else (pick h :: h, pick h).

  (** SPVM_ALLOCATOR_new, spvm_allocator.c:11-22. *)
  Definition alloc_new (h : list Z) : alloc :=
    let (h, self) := alloc_unmanaged h 64 in
    let (h, blk) := alloc_unmanaged h (8 * 1024) in
    {| al_self := self; al_count_tmp := 0; al_count_permanent := 0; al_list := blk;
       al_slots := zrep 1024 0; al_list_length := 0; al_list_capacity := 1024; al_heap := h |}.

  (** SPVM_ALLOCATOR_get_memory_blocks_count, spvm_allocator.c:24-28. *)
  Definition alloc_count (al : alloc) : Z := wrap32 (al_count_tmp al + al_count_permanent al).

  (** SPVM_ALLOCATOR_alloc_memory_block_tmp, spvm_allocator.c:49-59. *)
  Definition alloc_tmp (al : alloc) (size : Z) : alloc * Z :=
    let (h, block) := alloc_unmanaged (al_heap al) size in
    ({| al_self := al_self al;
        al_count_tmp := if block =? 0 then al_count_tmp al else wrap32 (al_count_tmp al + 1);
        al_count_permanent := al_count_permanent al; al_list := al_list al;
        al_slots := al_slots al; al_list_length := al_list_length al;
        al_list_capacity := al_list_capacity al; al_heap := h |}, block).

  (** SPVM_ALLOCATOR_free_memory_block_tmp, spvm_allocator.c:61-68. *)
  Definition free_tmp (al : alloc) (block : Z) : outcome alloc :=
    if block =? 0 then Ret al else
    let! h := c_free (al_heap al) block in
    Ret {| al_self := al_self al; al_count_tmp := wrap32 (al_count_tmp al - 1);
           al_count_permanent := al_count_permanent al; al_list := al_list al;
           al_slots := al_slots al; al_list_length := al_list_length al;
           al_list_capacity := al_list_capacity al; al_heap := h |}.

  (** SPVM_ALLOCATOR_alloc_memory_block_permanent, spvm_allocator.c:70-95. *)
  Definition alloc_permanent (al : alloc) (size : Z) : outcome (alloc * Z) :=
    let (h, block) := alloc_unmanaged (al_heap al) size in
    let count := wrap32 (al_count_permanent al + 1) in
    let! (h, blk, slots, capacity) :=
      if al_list_length al >=? al_list_capacity al then
        let new_capacity := wrap32 (al_list_capacity al * 2) in
        if new_capacity <=? 0 then UB else
        let (h, blk) := alloc_unmanaged h (8 * new_capacity) in
        if zlen (al_slots al) <? al_list_capacity al then UB else
        if new_capacity <? al_list_capacity al then UB else
        let slots := zblit (zrep new_capacity 0) 0 (ztake (al_list_capacity al) (al_slots al)) in
        let! h := c_free h (al_list al) in
        Ret (h, blk, slots, new_capacity)
      else Ret (h, al_list al, al_slots al, al_list_capacity al) in
    let index := al_list_length al in
    if negb ((0 <=? index) && (index <? zlen slots)) then UB else
    Ret ({| al_self := al_self al; al_count_tmp := al_count_tmp al;
            al_count_permanent := count; al_list := blk; al_slots := zupd slots index block;
            al_list_length := wrap32 (index + 1); al_list_capacity := capacity; al_heap := h |},
         block).

  (** SPVM_ALLOCATOR_free_memory_block_permanent in the loop of
      SPVM_ALLOCATOR_free, spvm_allocator.c:97-103 and 108-114. *)
  Fixpoint free_permanent_loop (n : nat) (i : Z) (slots h : list Z) (count : Z)
    : outcome (list Z * Z) :=
    match n with
    | O => Ret (h, count)
    | S n' =>
        match znth slots i with
        | None => UB
        | Some b =>
            if b =? 0 then UB (* assert, line 110 *) else
            let! h := c_free h b in
            free_permanent_loop n' (i + 1) slots h (wrap32 (count - 1))
        end
    end.

  (** SPVM_ALLOCATOR_free, spvm_allocator.c:105-122: the live blocks that
      remain afterwards. *)
  Definition alloc_free (al : alloc) : outcome (list Z) :=
    let! (h, count) := free_permanent_loop (Z.to_nat (al_list_length al)) 0 (al_slots al)
                         (al_heap al) (al_count_permanent al) in
    let! h := c_free h (al_list al) in
    if negb (al_count_tmp al =? 0) then UB (* assert, line 117 *) else
    if negb (count =? 0) then UB (* assert, line 119 *) else
    c_free h (al_self al).

  (** Histories of calls. *)
  Inductive al_op : Type :=
  | AAllocTmp (size : Z) | AFreeTmp (block : Z) | AAllocPermanent (size : Z) | ACount.

  Definition al_step (al : alloc) (op : al_op) : outcome (alloc * Z) :=
    match op with
    | AAllocTmp size => Ret (alloc_tmp al size)
    | AFreeTmp b => let! al := free_tmp al b in Ret (al, 0)
    | AAllocPermanent size => alloc_permanent al size
    | ACount => Ret (al, alloc_count al)
    end.

  (** The state after a history, together with the trace of calls and
      answers. *)
  Fixpoint al_run (al : alloc) (ops : list al_op) : outcome (alloc * list (al_op * Z)) :=
    match ops with
    | [] => Ret (al, [])
    | op :: ops' =>
        let! (al, out) := al_step al op in
        let! (al, tr) := al_run al ops' in
        Ret (al, (op, out) :: tr)
    end.
End Alloc.
