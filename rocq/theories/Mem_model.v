(** * Model of the object memory: reference counts, weak references,
    destructors and the mortal stack (spvm_api.c)

    Memory is a list of cells.  A cell is a place that holds an object
    reference (a variable, a field, an array element, a mortal stack entry):
    undef, a reference, or a weak reference (spvm_api.c tags the low bit of the
    pointer).  [None] is a cell in freed memory.  Addresses are positions in
    the list and are never used again.

    Objects are numbered in the order of their creation.  An object has a
    reference count, its reference fields or elements (the cells [o_base] to
    [o_base + o_len - 1]), its list of back references (the addresses of the
    weak references to it) and whether its class has a DESTROY method.
    [None] is an object whose memory has been freed.

    Simplified: one thread; memory never runs out; counts do not overflow an
    int; fields and elements that are not references are left out, so a string
    is an object without cells. *)

From Verif Require Import Base.

Inductive ref := Null | Strong (o : Z) | Weak (o : Z).

(** struct spvm_object, spvm_object.h:11-19, and the class data used when it
    is released. *)
Record obj := mk_obj {
  o_rc : Z;
  o_base : Z;
  o_len : Z;
  o_back : list Z;
  o_dtor : bool
}.

(** What happened so far, for stating properties; the code has no such log.
    [ENew]: the object was made, with the fields [c] to [c + n - 1].
    [EDestroy]: DESTROY is called, and [held] strong references to the object
    are left.  [EField]: its field is released.  [EFree]: its memory is freed.
    [ESurvive]: it is not freed, because DESTROY stored it somewhere.
    [EStoreDying]: the program stored an object into a field of an object
    whose fields are being released. *)
Inductive event :=
| ENew (o c n : Z) (dtor : bool)
| EDestroy (o : Z) (held : Z)
| EField (o : Z) (c : Z)
| EFree (o : Z)
| ESurvive (o : Z)
| EStoreDying (o : Z).

Record mem := mk_mem {
  cells : list (option ref);
  objs : list (option obj);
  (** memory_blocks_count of the runtime *)
  blocks : Z;
  (** the mortal stack: its block, its top and its capacity *)
  m_base : Z;
  m_top : Z;
  m_cap : Z;
  (** for stating properties only *)
  dying : list Z;
  log : list event
}.

(** [Bad]: memory is accessed after it was freed, or an assert fails.
    [Out]: the fuel of the model ran out. *)
Inductive res := Ok (s : mem) | Bad (s : mem) | Out.

Definition rbind (r : res) (k : mem -> res) : res :=
  match r with Ok s => k s | Bad s => Bad s | Out => Out end.
Notation "'let?' s := m 'in' k" := (rbind m (fun s => k))
  (at level 200, s name, m at level 100, k at level 200).

Definition set_cells (f : list (option ref) -> list (option ref)) (s : mem) : mem :=
  mk_mem (f (cells s)) (objs s) (blocks s) (m_base s) (m_top s) (m_cap s) (dying s) (log s).
Definition set_objs (f : list (option obj) -> list (option obj)) (s : mem) : mem :=
  mk_mem (cells s) (f (objs s)) (blocks s) (m_base s) (m_top s) (m_cap s) (dying s) (log s).
Definition add_blocks (n : Z) (s : mem) : mem :=
  mk_mem (cells s) (objs s) (blocks s + n) (m_base s) (m_top s) (m_cap s) (dying s) (log s).
Definition set_mortal (b t c : Z) (s : mem) : mem :=
  mk_mem (cells s) (objs s) (blocks s) b t c (dying s) (log s).
Definition set_dying (d : list Z) (s : mem) : mem :=
  mk_mem (cells s) (objs s) (blocks s) (m_base s) (m_top s) (m_cap s) d (log s).
Definition add_log (e : event) (s : mem) : mem :=
  mk_mem (cells s) (objs s) (blocks s) (m_base s) (m_top s) (m_cap s) (dying s) (log s ++ [e]).

Definition cell (s : mem) (c : Z) : option ref :=
  match znth (cells s) c with Some (Some v) => Some v | _ => None end.
Definition write (c : Z) (v : ref) (s : mem) : mem := set_cells (fun l => zupd l c (Some v)) s.
Definition get_obj (s : mem) (o : Z) : option obj :=
  match znth (objs s) o with Some (Some ob) => Some ob | _ => None end.
Definition put_obj (o : Z) (ob : obj) (s : mem) : mem := set_objs (fun l => zupd l o (Some ob)) s.

Definition with_rc (n : Z) (ob : obj) : obj := mk_obj n (o_base ob) (o_len ob) (o_back ob) (o_dtor ob).
Definition with_back (b : list Z) (ob : obj) : obj := mk_obj (o_rc ob) (o_base ob) (o_len ob) b (o_dtor ob).

(** The object a reference refers to; get_object_no_weaken_address,
    spvm_api.c:4959-4964. *)
Definition target (v : ref) : option Z :=
  match v with Null => None | Strong o | Weak o => Some o end.

(** inc_ref_count, spvm_api.c:5273-5289, with its assert. *)
Definition inc (o : Z) (s : mem) : res :=
  match get_obj s o with
  | Some ob => if 0 <=? o_rc ob then Ok (put_obj o (with_rc (o_rc ob + 1) ob) s) else Bad s
  | None => Bad s
  end.

(** dec_ref_count, spvm_api.c:5291-5310, with its assert. *)
Definition dec (o : Z) (s : mem) : res :=
  match get_obj s o with
  | Some ob => if 0 <? o_rc ob then Ok (put_obj o (with_rc (o_rc ob - 1) ob) s) else Bad s
  | None => Bad s
  end.

(** Remove the first back reference to [c], and say whether there was one. *)
Fixpoint remove_first (c : Z) (l : list Z) : list Z * bool :=
  match l with
  | [] => ([], false)
  | d :: l =>
      if d =? c then (l, true)
      else let (l', b) := remove_first c l in (d :: l', b)
  end.

(** unweaken_thread_unsafe, spvm_api.c:5053-5093, and unweaken, 5095-5115. *)
Definition unweaken (c : Z) (s : mem) : res :=
  match cell s c with
  | None => Bad s
  | Some (Weak o) =>
      match get_obj s o with
      | None => Bad s
      | Some ob =>
          match o_back ob with
          | [] => Bad s
          | _ =>
              let? s := inc o (write c (Strong o) s) in
              match get_obj s o with
              | None => Bad s
              | Some ob =>
                  let (back, found) := remove_first c (o_back ob) in
                  let s := put_obj o (with_back back ob) s in
                  Ok (if found then add_blocks (-1) s else s)
              end
          end
      end
  | Some _ => Ok s
  end.

(** isweak, spvm_api.c:4971-4985. *)
Definition isweak (c : Z) (s : mem) : bool :=
  match cell s c with Some (Weak _) => true | _ => false end.

(** free_weaken_backrefs, spvm_api.c:5117-5134, with its assert. *)
Fixpoint free_backrefs (l : list Z) (s : mem) : res :=
  match l with
  | [] => Ok s
  | c :: l =>
      match cell s c with
      | Some (Weak _) => free_backrefs l (add_blocks (-1) (write c Null s))
      | _ => Bad s
      end
  end.

(** The number of cells that hold a strong reference to [o]; for the log only. *)
Fixpoint wsum {A} (w : A -> Z) (l : list A) : Z :=
  match l with [] => 0 | x :: l => w x + wsum w l end.
Definition strong_refs (s : mem) (o : Z) : Z :=
  wsum (fun x => match x with Some (Strong p) => if p =? o then 1 else 0 | _ => 0 end) (cells s).

(** The operations of a program on references.  Addresses that are not those
    of existing variables, fields or elements have no effect: a program cannot
    name them. *)
Inductive mop :=
| MFrame (n : Z)                        (** enter a method with n variables *)
| MNew (dst n : Z) (dtor : bool)        (** dst = new object with n references *)
| MCopy (dst src : Z)                   (** dst = src *)
| MUndef (dst : Z)                      (** dst = undef *)
| MWeaken (c : Z)
| MUnweaken (c : Z)
| MPush (src : Z)                       (** push_mortal *)
| MLeave (top : Z).                     (** leave_scope *)

Section Ops.
  (** The body of DESTROY: the operations it performs, depending on the state
      it starts in, the object and the variable that holds it. *)
  Variable dtor : mem -> Z -> Z -> list mop.

  (** The operations that may release an object, given how an object is
      released when one of its references is dropped (the part of
      assign_object after the first critical section). *)
  Section Release.
    Variable release : Z -> mem -> res.

    (** assign_object, spvm_api.c:5136-5160. *)
    Definition assign (c : Z) (v : option Z) (s : mem) : res :=
      match cell s c with
      | None => Bad s
      | Some old =>
          let? s := unweaken c s in
          let? s := match v with Some o => inc o s | None => Ok s end in
          let s := write c (match v with Some o => Strong o | None => Null end) s in
          match target old with
          | None => Ok s
          | Some o => release o s
          end
      end.

    (** weaken, spvm_api.c:4987-5051. *)
    Definition weaken (c : Z) (s : mem) : res :=
      match cell s c with
      | None => Bad s
      | Some (Strong o) =>
          match get_obj s o with
          | None => Bad s
          | Some ob =>
              if negb (0 <? o_rc ob) then Bad s
              else if o_rc ob =? 1 then release o (write c Null s)
              else
                let? s := dec o (write c (Weak o) s) in
                match get_obj s o with
                | None => Bad s
                | Some ob => Ok (add_blocks 1 (put_obj o (with_back (o_back ob ++ [c]) ob) s))
                end
          end
      | Some _ => Ok s
      end.

    (** The loops over elements and fields, spvm_api.c:5186-5190 and
        5233-5247: assign undef to each. *)
    Fixpoint clear_fields (o c : Z) (n : nat) (s : mem) : res :=
      match n with
      | O => Ok s
      | S n =>
          let? s := assign c None (add_log (EField o c) s) in
          clear_fields o (c + 1) n s
      end.

    (** push_mortal, spvm_api.c:4899-4926. *)
    Definition push_mortal (o : Z) (s : mem) : res :=
      let s :=
        if m_top s >=? m_cap s then
          (* extend: a new block, the old entries copied, the old block freed *)
          let n := zlen (cells s) in
          let old := zsub (cells s) (m_base s) (m_cap s) in
          let s1 := set_cells (fun l => zblit l (m_base s) (zrep (m_cap s) None) ++ old ++ zrep (m_cap s) (Some Null)) s in
          set_mortal n (m_top s) (m_cap s * 2) s1
        else s in
      let? s := assign (m_base s + m_top s) (Some o) s in
      Ok (set_mortal (m_base s) (m_top s + 1) (m_cap s) s).

    (** leave_scope, spvm_api.c:4928-4944; the bound of the loop is read
        again at every turn. *)
    Fixpoint leave_loop (n : nat) (i : Z) (s : mem) : res :=
      if i <? m_top s then
        match n with
        | O => Out
        | S n => let? s := assign (m_base s + i) None s in leave_loop n (i + 1) s
        end
      else Ok s.
    Definition leave_scope (fuel : nat) (top : Z) (s : mem) : res :=
      let? s := leave_loop fuel top s in
      Ok (set_mortal (m_base s) top (m_cap s) s).

    (** Is [c] a cell of the object? *)
    Definition owns (ob : obj) (c : Z) : bool := (o_base ob <=? c) && (c <? o_base ob + o_len ob).
    (** The dying object a cell belongs to, if any. *)
    Definition dying_owner (s : mem) (c : Z) : option Z :=
      find (fun o => match get_obj s o with Some ob => owns ob c | None => false end) (dying s).
    (** For the log only. *)
    Definition note_store (c : Z) (s : mem) : mem :=
      match dying_owner s c with Some o => add_log (EStoreDying o) s | None => s end.

    (** A cell a program can name: not freed, not in the mortal stack. *)
    Definition usable (s : mem) (c : Z) : bool :=
      match cell s c with Some _ => true | None => false end &&
      negb ((m_base s <=? c) && (c <? m_base s + m_cap s)).

    (** [floor]: the top of the mortal stack when the running method was
        called; the tops it gets from enter_scope (spvm_api.c:3005-3015) are
        not below it. *)
    Definition exec (fuel : nat) (floor : Z) (op : mop) (s : mem) : res :=
      match op with
      | MFrame n => Ok (set_cells (fun l => l ++ zrep n (Some Null)) s)
      | MNew dst n dt =>
          if usable s dst && (0 <=? n) then
            (* new_object_no_mortal, spvm_api.c:3980-4010: one block, count 0 *)
            let o := zlen (objs s) in
            let ob := mk_obj 0 (zlen (cells s)) n [] dt in
            let s := note_store dst s in
            let s := add_blocks 1 (set_objs (fun l => l ++ [Some ob])
                       (set_cells (fun l => l ++ zrep n (Some Null))
                         (add_log (ENew o (zlen (cells s)) n dt) s))) in
            assign dst (Some o) s
          else Ok s
      | MCopy dst src =>
          if usable s dst && usable s src then
            match cell s src with
            | Some v =>
                match target v with
                | Some o => assign dst (Some o) (note_store dst s)
                | None => assign dst None s
                end
            | None => Ok s
            end
          else Ok s
      | MUndef dst => if usable s dst then assign dst None s else Ok s
      | MWeaken c => if usable s c then weaken c s else Ok s
      | MUnweaken c => if usable s c then unweaken c s else Ok s
      | MPush src =>
          if usable s src then
            match cell s src with
            | Some v => match target v with Some o => push_mortal o s | None => Ok s end
            | None => Ok s
            end
          else Ok s
      | MLeave top => if (floor <=? top) && (top <=? m_top s) then leave_scope fuel top s else Ok s
      end.

    Fixpoint run (fuel : nat) (floor : Z) (ops : list mop) (s : mem) : res :=
      match ops with
      | [] => Ok s
      | op :: ops => let? s := exec fuel floor op s in run fuel floor ops s
      end.

    (** The call of DESTROY, spvm_api.c:5199-5229: the object is held by a
        variable of the called method until that returns; a native method
        enters and leaves a scope (spvm_api.c:4751, 4772).  Left out: the call
        fails when the call depth is exceeded. *)
    Definition call_destroy (fuel : nat) (o : Z) (s : mem) : res :=
      let self := zlen (cells s) in
      let floor := m_top s in
      let s := set_cells (fun l => l ++ [Some Null]) (add_log (EDestroy o (strong_refs s o)) s) in
      let? s := assign self (Some o) s in
      let? s := run fuel floor (dtor s o self) s in
      let? s := leave_scope fuel floor s in
      assign self None s.
  End Release.

  (** The second part of assign_object, spvm_api.c:5162-5270. *)
  Fixpoint release (fuel : nat) (o : Z) (s : mem) {struct fuel} : res :=
    match fuel with
    | O => Out
    | S fuel =>
        match get_obj s o with
        | None => Bad s
        | Some ob =>
            if negb (0 <? o_rc ob) then Bad s
            else if 1 <? o_rc ob then dec o s
            else
              let? s := if o_dtor ob then call_destroy (release fuel) fuel o s else Ok s in
              let? s := clear_fields (release fuel) o (o_base ob) (Z.to_nat (o_len ob))
                          (set_dying (o :: dying s) s) in
              let s := set_dying (tl (dying s)) s in
              let? s := dec o s in
              match get_obj s o with
              | None => Bad s
              | Some ob =>
                  if o_rc ob =? 0 then
                    let? s := free_backrefs (o_back ob) s in
                    Ok (add_log (EFree o) (add_blocks (-1)
                          (set_objs (fun l => zupd l o None)
                            (set_cells (fun l => zblit l (o_base ob) (zrep (o_len ob) None)) s))))
                  else Ok (add_log (ESurvive o) s)
              end
        end
    end.

  Definition mem_exec (fuel : nat) (op : mop) (s : mem) : res := exec (release fuel) fuel 0 op s.
  Definition mem_run (fuel : nat) (ops : list mop) (s : mem) : res := run (release fuel) fuel 0 ops s.
End Ops.

(** new_stack, spvm_api.c:2672-2697: a mortal stack of capacity 1.  The block of
    the stack itself is not counted. *)
Definition mem_init : mem := mk_mem [Some Null] [] 1 0 0 1 [] [].
