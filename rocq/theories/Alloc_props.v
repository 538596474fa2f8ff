(** * C07: the allocator accounts for every block and frees each exactly once. *)

From Coq Require Import Permutation.
From Verif Require Import Base Alloc_model Alloc_spec Alloc_proofs.

(** [pick] is an arbitrary behaviour of calloc: the address it returns is not
    NULL and not the address of a live block. [base] are the blocks already
    live before the allocator is created. *)
Definition calloc_ok (pick : list Z -> Z) : Prop := forall h, pick h <> 0 /\ ~ In (pick h) h.

(** In any history of a correct client, every block handed out is new and not
    NULL, and every count is the number of blocks the client then holds. *)
Theorem C07_counts_exact :
  forall pick base ops al tr,
    calloc_ok pick -> NoDup base -> ~ In 0 base -> zlen ops < 1073741822 ->
    al_run pick (alloc_new pick base) ops = Ret (al, tr) ->
    trace_ok ([], []) tr ->
    answers_ok ([], []) tr.
Proof. intros pick base ops al tr P N Z B R T. exact (proj1 (held_inv pick P base ops al tr N Z B R T)). Qed.

(** No call of a correct client fails. *)
Theorem C07_no_failure :
  forall pick base ops al tr op,
    calloc_ok pick -> NoDup base -> ~ In 0 base -> zlen ops < 1073741822 ->
    al_run pick (alloc_new pick base) ops = Ret (al, tr) ->
    trace_ok ([], []) tr ->
    client_ok (held tr) op ->
    exists al' out, al_step pick al op = Ret (al', out).
Proof. intros pick base ops al tr op P. exact (progress pick P base ops al tr op). Qed.

(** Destroying the allocator when no temporary block is held succeeds (no
    double free, no failed assertion) and leaves exactly the blocks that
    existed before it was created: nothing leaks. *)
Theorem C07_destroy_frees_everything_once :
  forall pick base ops al tr,
    calloc_ok pick -> NoDup base -> ~ In 0 base -> zlen ops < 1073741822 ->
    al_run pick (alloc_new pick base) ops = Ret (al, tr) ->
    trace_ok ([], []) tr ->
    fst (held tr) = [] ->
    exists h, alloc_free al = Ret h /\ Permutation h base.
Proof. intros pick base ops al tr P. exact (destroy pick P base ops al tr). Qed.

(** A permanent block of size 0 breaks the accounting: it is counted although
    no block exists, and destruction fails an assertion. *)
Theorem C07_permanent_size_zero_refuted :
  exists pick al tr,
    calloc_ok pick /\
    al_run pick (alloc_new pick []) [AAllocPermanent 0; ACount] = Ret (al, tr) /\
    tr = [(AAllocPermanent 0, 0); (ACount, 1)] /\ alloc_free al = UB.
Proof.
  exists (fun h => fold_right (fun a b => Z.max (a + 1) b) 1 h). eexists _, _.
  split.
  - intros h.
    assert (G : 1 <= fold_right (fun a b => Z.max (a + 1) b) 1 h /\
                forall x, In x h -> x < fold_right (fun a b => Z.max (a + 1) b) 1 h).
    { induction h as [| y h [IH1 IH2]]; cbn.
      - split; [lia | tauto].
      - split; [lia |]. intros x [-> | I]; [lia |]. specialize (IH2 x I). lia. }
    destruct G as [G1 G2]. split; [lia |]. intros I. specialize (G2 _ I). lia.
  - split; [vm_compute; reflexivity |]. split; vm_compute; reflexivity.
Qed.

(** A concrete history that meets the hypotheses, ending with a destruction. *)
Definition first_free (h : list Z) : Z := fold_right (fun a b => Z.max (a + 1) b) 1 h.
Example C07_example :
  let ops := [AAllocTmp 8; AAllocPermanent 4; AAllocTmp 0; ACount; AFreeTmp 12; AFreeTmp 0; ACount;
              AAllocTmp 1; AFreeTmp 14] in
  exists al tr, al_run first_free (alloc_new first_free [9]) ops = Ret (al, tr) /\
    map snd tr = [12; 13; 0; 2; 0; 0; 1; 14; 0] /\
    trace_ok ([], []) tr /\ fst (held tr) = [] /\ alloc_free al = Ret [9].
Proof.
  eexists _, _. split; [vm_compute; reflexivity |]. split; [reflexivity |].
  split; [| split; vm_compute; reflexivity].
  cbn. intuition lia.
Qed.

Print Assumptions C07_counts_exact.
Print Assumptions C07_no_failure.
Print Assumptions C07_destroy_frees_everything_once.
Print Assumptions C07_permanent_size_zero_refuted.
