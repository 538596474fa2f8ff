(** * What the object memory should do, in terms of references between objects *)
From Verif Require Import Base Mem_model.

(** The object has not been freed. *)
Definition live (s : mem) (o : Z) : Prop := exists ob, get_obj s o = Some ob.

(** The cell belongs to the object. *)
Definition belongs (s : mem) (c o : Z) : Prop :=
  exists ob, get_obj s o = Some ob /\ o_base ob <= c < o_base ob + o_len ob.

(** A cell that belongs to no object: a variable or a mortal stack entry. *)
Definition root (s : mem) (c : Z) : Prop := forall o, ~ belongs s c o.

(** The objects a program can get at by strong references from variables. *)
Inductive reach (s : mem) : Z -> Prop :=
| reach_root c o : root s c -> cell s c = Some (Strong o) -> reach s o
| reach_field o c o' : reach s o -> belongs s c o -> cell s c = Some (Strong o') -> reach s o'.

(** A chain of strong references from one object to another. *)
Inductive chain (s : mem) : Z -> Z -> Prop :=
| chain_one o c o' : belongs s c o -> cell s c = Some (Strong o') -> chain s o o'
| chain_more o o1 o2 : chain s o o1 -> chain s o1 o2 -> chain s o o2.

Definition acyclic (s : mem) : Prop := forall o, ~ chain s o o.

(** The events in the life of the object. *)
Definition about (o : Z) (e : event) : bool :=
  match e with
  | ENew p _ _ _ | EDestroy p _ | EField p _ | EFree p | ESurvive p => p =? o
  | EStoreDying _ => false
  end.
Definition story (o : Z) (s : mem) : list event := filter (about o) (log s).

(** The fields of an object, in order. *)
Definition span (c n : Z) : list Z := map (fun i => c + Z.of_nat i) (seq 0 (Z.to_nat n)).

(** The whole life of an object: it is made; DESTROY, if it has one, is called
    once, when nothing refers to the object any more; then its fields are
    released, each once; then its memory is freed. *)
Definition whole_life (o c n : Z) (dtor : bool) : list event :=
  ENew o c n dtor :: (if dtor then [EDestroy o 0] else []) ++ map (EField o) (span c n) ++ [EFree o].

(** A DESTROY method stored an object into a field of an object whose fields
    were being released. *)
Definition tainted (s : mem) : Prop := exists o, In (EStoreDying o) (log s).

(** Programs whose DESTROY methods do nothing with references. *)
Definition no_body : mem -> Z -> Z -> list mop := fun _ _ _ => [].

(** The cells an operation assigns. *)
Definition writes (op : mop) (s : mem) (c : Z) : Prop :=
  match op with
  | MFrame _ => False
  | MNew dst _ _ | MCopy dst _ | MUndef dst => c = dst
  | MWeaken d | MUnweaken d => c = d
  | MPush _ => m_base s <= c < m_base s + m_cap s
  | MLeave lo => m_base s + lo <= c < m_base s + m_top s
  end.

(** A state a program gets to. *)
Definition reached (dtor : mem -> Z -> Z -> list mop) (s : mem) : Prop :=
  exists fuel ops, mem_run dtor fuel ops mem_init = Ok s.
(** The same, in a run that had no store into a field of a dying object. *)
Definition sound (dtor : mem -> Z -> Z -> list mop) (s : mem) : Prop := reached dtor s /\ ~ tainted s.

(** The state with all the mortal entries from [lo] on dropped. *)
Definition drop_entries (lo : Z) (s : mem) : mem :=
  set_cells (fun l => zblit l (m_base s + lo) (zrep (m_top s - lo) (Some Null))) s.
