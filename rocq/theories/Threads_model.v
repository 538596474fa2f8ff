(** * Reference counting with threads

    lib/SPVM/Builder/src/spvm_api.c: SPVM_API_assign_object (5136-5271), with SPVM_API_inc_ref_count
    (5273-5289) and SPVM_API_dec_ref_count (5291-5310), cut at the boundaries of the lock of the
    runtime (spvm_mutex.c 44-66, a lock with one owner).

    Threads are numbers. Every step below is one block of the code under the lock, or code of the
    user between such blocks. What a thread has still to do is a list of tasks, innermost first.

    Simplifications. Weak references are left out (they are in Mem_model, with one thread). The
    elements of arrays and the fields of objects are one thing. User code may run at any time in any
    thread, also while tasks are open, as in DESTROY. Reading the source of an assignment is one
    step with counting; [store_late] is the code of the user in which it is not. *)
From Verif Require Import Base.
Local Open Scope Z_scope.

(** A variable of a thread, a field of an object, or a class variable, which every thread may use. *)
Inductive place := Var (t x : nat) | Fld (o f : nat) | Glob (x : nat).
Definition place_eqb (p q : place) : bool :=
  match p, q with
  | Var t x, Var t' x' => Nat.eqb t t' && Nat.eqb x x'
  | Fld o f, Fld o' f' => Nat.eqb o o' && Nat.eqb f f'
  | Glob x, Glob x' => Nat.eqb x x'
  | _, _ => false
  end.

(** Open calls of assign_object. *)
Inductive task :=
| TRelease (o : nat)                    (* before 5164 *)
| TDestroy (o : nat)                    (* before 5180: the count was 1 *)
| TFields (o : nat) (l : list nat).     (* 5181-5186, 5227-5242: fields that are still to be cleared *)

Record state := mk_state {
  next : nat;                           (* addresses of new objects *)
  counts : nat -> Z;
  alive : nat -> bool;
  refs : list (place * nat);            (* places that are not undef *)
  tasks : list (nat * task);
  destroyed : list nat;                 (* calls of DESTROY, the latest first *)
  freed : list nat                      (* memory blocks that were freed, the latest first *)
}.
Definition init : state := mk_state 0 (fun _ => 0) (fun _ => false) [] [] [] [].

Fixpoint get (p : place) (l : list (place * nat)) : option nat :=
  match l with
  | [] => None
  | (q, o) :: l => if place_eqb p q then Some o else get p l
  end.
Fixpoint remove (p : place) (l : list (place * nat)) : list (place * nat) :=
  match l with
  | [] => []
  | (q, o) :: l => if place_eqb p q then l else (q, o) :: remove p l
  end.
Definition upd {A} (f : nat -> A) (i : nat) (x : A) : nat -> A := fun j => if Nat.eqb j i then x else f j.
(** The innermost task of a thread, and the list with other tasks for it. *)
Fixpoint find_task (t : nat) (l : list (nat * task)) : option task :=
  match l with
  | [] => None
  | (u, k) :: l => if Nat.eqb t u then Some k else find_task t l
  end.
Fixpoint replace (t : nat) (ks : list task) (l : list (nat * task)) : list (nat * task) :=
  match l with
  | [] => []
  | (u, k) :: l => if Nat.eqb t u then map (pair t) ks ++ l else (u, k) :: replace t ks l
  end.

Definition release (t : nat) (old : option nat) (l : list (nat * task)) : list (nat * task) :=
  match old with Some o => (t, TRelease o) :: l | None => l end.

(** 5143-5159 under the lock: remember the old value, count the new one, write. *)
Definition assign (t : nat) (dest : place) (object : option nat) (s : state) : outcome state :=
  let old := get dest (refs s) in
  match object with
  | None => Ret (mk_state (next s) (counts s) (alive s) (remove dest (refs s)) (release t old (tasks s)) (destroyed s) (freed s))
  | Some o =>
      if negb (alive s o) then UB
      else Ret (mk_state (next s) (upd (counts s) o (counts s o + 1)) (alive s) ((dest, o) :: remove dest (refs s))
                  (release t old (tasks s)) (destroyed s) (freed s))
  end.

(** May the thread use the object? It is in one of its variables, or its DESTROY runs. *)
Definition has (t o : nat) (s : state) : bool :=
  existsb (fun r => match fst r with Var u _ => Nat.eqb u t && Nat.eqb (snd r) o | _ => false end) (refs s)
  || match find_task t (tasks s) with Some (TFields o' _) => Nat.eqb o' o | _ => false end.
Definition may_use (t : nat) (p : place) (s : state) : bool :=
  match p with Var u _ => Nat.eqb u t | Fld o _ => has t o s | Glob _ => true end.
(** Using a field of a freed object is undefined. *)
Definition place_ok (p : place) (s : state) : bool :=
  match p with Fld o _ => alive s o | _ => true end.

(** What a thread does next. *)
Inductive action :=
| ANew (x : nat)                            (* my $x = new C *)
| ACopy (dest src : place)                  (* DEST = SRC *)
| ASelf (x : nat)                           (* $x = $self in DESTROY *)
| AUndef (dest : place)                     (* DEST = undef *)
| AOn.                                      (* the next block of the innermost open assign_object *)

Section Step.
  (** The indexes of the object fields of an object. *)
  Variable fields : nat -> list nat.

  Definition blocked : string := "not possible now".

  (** 5161-5269. *)
  Definition on (t : nat) (s : state) : outcome state :=
    match find_task t (tasks s) with
    | None => Die blocked
    | Some (TRelease o) =>
        if negb (alive s o) then UB
        else if 1 <? counts s o then                                                 (* 5171-5174 *)
          Ret (mk_state (next s) (upd (counts s) o (counts s o - 1)) (alive s) (refs s) (replace t [] (tasks s)) (destroyed s) (freed s))
        else Ret (mk_state (next s) (counts s) (alive s) (refs s) (replace t [TDestroy o] (tasks s)) (destroyed s) (freed s))
    | Some (TDestroy o) =>                                                           (* 5195-5224 *)
        if negb (alive s o) then UB
        else Ret (mk_state (next s) (counts s) (alive s) (refs s) (replace t [TFields o (fields o)] (tasks s)) (o :: destroyed s) (freed s))
    | Some (TFields o (f :: l)) =>                                                   (* 5185, 5240 *)
        if negb (alive s o) then UB
        else
          Ret (mk_state (next s) (counts s) (alive s) (remove (Fld o f) (refs s))
                 (release t (get (Fld o f) (refs s)) (replace t [TFields o l] (tasks s))) (destroyed s) (freed s))
    | Some (TFields o []) =>                                                         (* 5247-5268 *)
        if negb (alive s o) then UB
        else
          let c := counts s o - 1 in
          Ret (mk_state (next s) (upd (counts s) o c) (if c =? 0 then upd (alive s) o false else alive s) (refs s)
                 (replace t [] (tasks s)) (destroyed s) (if c =? 0 then o :: freed s else freed s))
    end.

  Definition step (t : nat) (a : action) (s : state) : outcome state :=
    match a with
    | ANew x =>
        let o := next s in
        let old := get (Var t x) (refs s) in
        Ret (mk_state (S o) (upd (counts s) o 1) (upd (alive s) o true) ((Var t x, o) :: remove (Var t x) (refs s))
               (release t old (tasks s)) (destroyed s) (freed s))
    | ACopy dest src =>
        if negb (may_use t dest s && may_use t src s) then Die blocked
        else if negb (place_ok dest s && place_ok src s) then UB
        else assign t dest (get src (refs s)) s
    | ASelf x =>
        match find_task t (tasks s) with
        | Some (TFields o _) => assign t (Var t x) (Some o) s
        | _ => Die blocked
        end
    | AUndef dest =>
        if negb (may_use t dest s) then Die blocked
        else if negb (place_ok dest s) then UB
        else assign t dest None s
    | AOn => on t s
    end.

  (** A schedule: which thread does what; what is not possible is skipped. *)
  Fixpoint run (l : list (nat * action)) (s : state) : outcome state :=
    match l with
    | [] => Ret s
    | (t, a) :: l =>
        match step t a s with
        | Ret s => run l s
        | Die _ => run l s
        | UB => UB
        | Fuel => Fuel
        end
    end.

  (** DEST = SRC where the object was read from SRC before other threads went on: the interpreter
      reads the source and takes the lock in assign_object afterwards. *)
  Definition store_late (t : nat) (dest : place) (object : option nat) (s : state) : outcome state := assign t dest object s.
End Step.
