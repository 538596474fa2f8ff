(** * C75: reference counting with threads

    A schedule says which thread does what, in any order: new objects, assignments of variables,
    fields and class variables, and the blocks of the releases that follow. *)
From Verif Require Import Base Threads_model Threads_spec Threads_proofs.
Local Open Scope Z_scope.

(** No schedule uses a freed object. *)
Theorem C75_no_use_after_free : forall fields l, exists s, run fields l init = Ret s.
Proof. intros. destruct (run_ok fields l init inv_init) as (s & E & _). eauto. Qed.

(** In every state that is reached, the count of an object is the number of the places that hold it
    and of the releases of it that are still open. *)
Theorem C75_counts_exact : forall fields l s o, run fields l init = Ret s -> alive s o = true ->
  counts s o = places_of o (refs s) + releases_of o (tasks s).
Proof.
  intros fields l s o E A. destruct (run_ok fields l init inv_init) as (s' & E' & H). rewrite E in E'. injection E' as <-.
  apply (inv_alive s H o A).
Qed.

(** An object was freed exactly if it was made and nothing holds it any more, and it is freed once. *)
Theorem C75_freed : forall fields l s, run fields l init = Ret s ->
  NoDup (freed s) /\
  forall o, In o (freed s) <-> (o < next s)%nat /\ places_of o (refs s) = 0 /\ releases_of o (tasks s) = 0.
Proof.
  intros fields l s E. destruct (run_ok fields l init inv_init) as (s' & E' & H). rewrite E in E'. injection E' as <-.
  split; [apply (inv_once s H) |]. intros o. split.
  - intros I. destruct (inv_freed s H o I) as (D & L). split; auto. apply (inv_dead s H o D).
  - intros (L & P & R). apply (inv_all s H); auto. destruct (alive s o) eqn:A; auto.
    destruct (inv_alive s H o A). lia.
Qed.

(** DESTROY was called for every object that was freed. *)
Theorem C75_destroy_before_free : forall fields l s o, run fields l init = Ret s -> In o (freed s) -> In o (destroyed s).
Proof.
  intros fields l s o E. destruct (run_ok fields l init inv_init) as (s' & E' & H). rewrite E in E'. injection E' as <-.
  apply (inv_destroyed s H).
Qed.

(** DESTROY is called once for every object, if no object survives its DESTROY: if at the end of
    every release in which DESTROY ran nothing else holds the object. *)
Theorem C75_destroy_once : forall fields l s, run fields l init = Ret s ->
  (forall l1 l2 t s1 o, l = l1 ++ (t, AOn) :: l2 -> run fields l1 init = Ret s1 ->
     find_task t (tasks s1) = Some (TFields o []) -> counts s1 o = 1) ->
  NoDup (destroyed s).
Proof. intros fields l s E D. exact (inv2_once s (run_inv2 fields l init s inv_init inv2_init D E)). Qed.

(** Every release ends: a thread that goes on with its open releases has none after some steps,
    however many objects are freed by them. *)
Theorem C75_releases_end : forall fields l s t, run fields l init = Ret s ->
  exists n s', run fields (repeat (t, AOn) n) s = Ret s' /\ find_task t (tasks s') = None.
Proof.
  intros fields l s t E. destruct (run_ok fields l init inv_init) as (s' & E' & H). rewrite E in E'. injection E' as <-.
  destruct (releases_end fields t (S (weight fields s)) s) as (n & s' & R & N & _); [lia | auto |]. eauto.
Qed.

(** When all releases have ended, the objects that are not freed are those that a place holds. *)
Theorem C75_no_leak : forall fields l s o, run fields l init = Ret s -> tasks s = [] -> (o < next s)%nat ->
  (~ In o (freed s) <-> exists p, In (p, o) (refs s)).
Proof.
  intros fields l s o E T L. destruct (C75_freed fields l s E) as (_ & F). rewrite (F o), T. cbn [releases_of]. split.
  - intros N. assert (P : places_of o (refs s) <> 0) by (intros P; apply N; auto). clear -P.
    induction (refs s) as [| [p o'] r IH]; cbn [places_of] in P; [lia |]. destruct (Nat.eqb_spec o' o) as [-> |].
    + exists p. left. auto.
    + destruct IH as (q & I); [lia |]. exists q. right. auto.
  - intros (p & I) (_ & P & _). clear -I P. induction (refs s) as [| [q o'] r IH]; [contradiction |]. cbn [places_of] in P.
    pose proof (places_nonneg o r). destruct I as [I | I].
    + injection I as -> ->. rewrite Nat.eqb_refl in P. lia.
    + apply IH; auto. destruct (Nat.eqb o' o); lia.
Qed.

(** Two threads share an object through a class variable, release it at the same time, and the
    second release destroys and frees it, with the object in its field. *)
Definition two_fields (o : nat) : list nat := match o with O => [0%nat] | _ => [] end.
Definition shared : list (nat * action) :=
  [(0, ANew 0); (0, ANew 1); (0, ACopy (Fld 0 0) (Var 0 1)); (0, AUndef (Var 0 1)); (0, AOn);
   (0, ACopy (Glob 0) (Var 0 0)); (1, ACopy (Var 1 0) (Glob 0)); (0, AUndef (Glob 0)); (1, AUndef (Var 1 0));
   (0, AOn); (0, AUndef (Var 0 0)); (1, AOn)]%nat.
Example shared_counts : exists s, run two_fields shared init = Ret s /\ freed s = [] /\ counts s 0%nat = 1 /\ counts s 1%nat = 1
  /\ refs s = [(Fld 0 0, 1%nat)] /\ releases_of 0 (tasks s) = 1.
Proof. eexists. split; [vm_compute; reflexivity |]. repeat split. Qed.
Example shared_freed : exists s, run two_fields (shared ++ repeat (0%nat, AOn) 8) init = Ret s
  /\ freed s = [0; 1]%nat /\ destroyed s = [1; 0]%nat /\ refs s = [] /\ tasks s = [].
Proof. eexists. split; [vm_compute; reflexivity |]. repeat split. Qed.

(** DESTROY with its own variable for the object, which it leaves before it returns. *)
Definition ordinary : list (nat * action) :=
  [(0, ANew 0); (0, AUndef (Var 0 0)); (0, AOn); (0, AOn); (0, ASelf 1); (0, AUndef (Var 0 1)); (0, AOn); (0, AOn)]%nat.
Example ordinary_dies : forall l1 l2 t s1 o, ordinary = l1 ++ (t, AOn) :: l2 -> run (fun _ => []) l1 init = Ret s1 ->
  find_task t (tasks s1) = Some (TFields o []) -> counts s1 o = 1.
Proof.
  intros l1 l2 t s1 o E R F. unfold ordinary in E.
  do 8 (destruct l1 as [| x l1]; [cbn in E; try discriminate E; injection E as <- _; cbn in R; injection R as <-; cbn in F;
    try discriminate F; injection F as <-; reflexivity | cbn in E; injection E as <- E]).
  destruct l1; discriminate E.
Qed.
Example ordinary_freed : exists s, run (fun _ => []) ordinary init = Ret s /\ destroyed s = [0%nat] /\ freed s = [0%nat] /\ refs s = [].
Proof. eexists. split; [vm_compute; reflexivity |]. repeat split. Qed.

(** The source of an assignment is read before the lock is taken. If other threads release the object
    in between, the assignment uses a freed object. *)
Theorem C75_late_store_refuted : exists l l' s s' o,
  run two_fields l init = Ret s /\ get (Glob 0) (refs s) = Some o /\
  Forall (fun x => fst x <> 1%nat) l' /\ run two_fields l' s = Ret s' /\
  store_late 1 (Var 1 0) (Some o) s' = UB.
Proof.
  exists [(0, ANew 0); (0, ACopy (Glob 0) (Var 0 0)); (0, AUndef (Var 0 0)); (0, AOn)]%nat,
    [(0, AUndef (Glob 0)); (0, AOn); (0, AOn); (0, AOn); (0, AOn)]%nat.
  eexists. eexists. exists 0%nat. split; [vm_compute; reflexivity |]. split; [reflexivity |].
  split; [repeat constructor; discriminate |]. split; [vm_compute; reflexivity |]. reflexivity.
Qed.

(** An object that stores itself in DESTROY is destroyed a second time. *)
Theorem C75_destroy_once_refuted : exists l s, run (fun _ => []) l init = Ret s /\ ~ NoDup (destroyed s).
Proof.
  exists [(0, ANew 0); (0, AUndef (Var 0 0)); (0, AOn); (0, AOn); (0, ASelf 0); (0, AOn); (0, AUndef (Var 0 0));
          (0, AOn); (0, AOn)]%nat.
  eexists. split; [vm_compute; reflexivity |]. cbn. intros N. inversion N as [| ? ? X]. apply X. left. reflexivity.
Qed.

Print Assumptions C75_no_use_after_free.
Print Assumptions C75_counts_exact.
Print Assumptions C75_freed.
Print Assumptions C75_destroy_before_free.
Print Assumptions C75_destroy_once.
Print Assumptions C75_releases_end.
Print Assumptions C75_no_leak.
Print Assumptions C75_late_store_refuted.
Print Assumptions C75_destroy_once_refuted.
