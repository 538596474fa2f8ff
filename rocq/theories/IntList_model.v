(** * Model of IntList and the other numeric lists

    IntList.spvm, ByteList.spvm, ShortList.spvm, LongList.spvm, FloatList.spvm
    and DoubleList.spvm have the same text up to the element type, except that
    the byte and short lists cast the stored element (`(byte)$element`).  The
    model is generic in the element type [A], its zero, and the conversion
    [conv] from the argument type [X] to [A].  Line numbers are those of
    IntList.spvm. *)

From Verif Require Import Base Array_model.

Section IntList.
  Context {A X : Type}.
  Variable zero : A.
  Variable conv : X -> A.

  (** Fields, IntList.spvm:14-16. *)
  Record ilist := mk_ilist {
    il_capacity : Z;
    il_length : Z;
    il_array : list A
  }.

  (** A method: the object afterwards and the outcome. *)
  Definition M (R : Type) : Type := ilist -> ilist * outcome R.
  Definition ret {R} (r : R) : M R := fun s => (s, Ret r).
  Definition die {R} (e : string) : M R := fun s => (s, Die e).
  Definition bind {R T} (m : M R) (f : R -> M T) : M T := fun s =>
    match m s with
    | (s, Ret r) => f r s
    | (s, Die e) => (s, Die e)
    | (s, UB) => (s, UB)
    | (s, Fuel) => (s, Fuel)
    end.
  Notation "'do' x <- m ';' k" := (bind m (fun x => k))
    (at level 200, x pattern, m at level 100, k at level 200).
  Notation "'do_' m ';' k" := (bind m (fun _ => k)) (at level 200, m at level 100, k at level 200).
  Notation "'unless' b 'die_' e ';' k" := (if (b : bool) then k else die e)
    (at level 200, b at level 100, e at level 100, k at level 200).

  Definition get_length : M Z := fun s => (s, Ret (il_length s)).
  Definition set_length (n : Z) : M unit :=
    fun s => (mk_ilist (il_capacity s) n (il_array s), Ret tt).

  (** Run something that computes the new contents of the array object. *)
  Definition on_array (f : list A -> outcome (list A)) : M unit := fun s =>
    match f (il_array s) with
    | Ret a => (mk_ilist (il_capacity s) (il_length s) a, Ret tt)
    | Die e => (s, Die e)
    | UB => (s, UB)
    | Fuel => (s, Fuel)
    end.
  Definition array_get (i : Z) : M A := fun s => (s, elem_get (il_array s) i).
  Definition array_set (i : Z) (x : A) : M unit := on_array (fun a => elem_set a i x).
  (** Array->memmove_int($elements, d, $elements, s, len). *)
  Definition array_move (d s len : Z) : M unit :=
    on_array (fun a => memmove (Some a) d (Some a) s len).
  (** Array->memset_int($self->{array}, 0, off, len). *)
  Definition array_clear (off len : Z) : M unit := fun s =>
    let (a, o) := memset (fun _ => true) (il_array s) zero off len in
    (mk_ilist (il_capacity s) (il_length s) a, o).

  (** new_len, IntList.spvm:37-57. *)
  Definition new_len (length capacity : Z) : outcome ilist :=
    check! length >=? 0 else "The length $length must be greater than or equal to 0." in
    let capacity := if capacity <? 0 then 4 else capacity in
    let capacity := if length >? capacity then length else capacity in
    let! a := new_elems capacity zero in
    Ret (mk_ilist capacity length a).

  (** new, IntList.spvm:19-35. *)
  Definition new (array : option (list A)) (capacity : Z) : outcome ilist :=
    match array with
    | None => new_len 0 capacity
    | Some a =>
        let! s := new_len (zlen a) capacity in
        let! a' := memcpy false (Some (il_array s)) 0 (Some a) 0 (zlen a) in
        Ret (mk_ilist (il_capacity s) (il_length s) a')
    end.

  (** Replace the array by a larger copy: the last lines of _maybe_extend
      (IntList.spvm:293-301) and of reserve (190-194). *)
  Definition regrow (new_capacity : Z) : M unit := fun s =>
    match (let! a := new_elems new_capacity zero in
           memcpy false (Some a) 0 (Some (il_array s)) 0 (il_length s)) with
    | Ret a => (mk_ilist new_capacity (il_length s) a, Ret tt)
    | Die e => (s, Die e)
    | UB => (s, UB)
    | Fuel => (s, Fuel)
    end.

  (** _maybe_extend, IntList.spvm:281-301. *)
  Definition maybe_extend (min_capacity : Z) : M unit := fun s =>
    let capacity := il_capacity s in
    if negb (min_capacity >? capacity) then (s, Ret tt)
    else
      let capacity := if capacity <? min_capacity then min_capacity else capacity in
      regrow (wrap32 (capacity * 2)) s.

  (** get, IntList.spvm:60-74. *)
  Definition il_get (index : Z) : M A :=
    do length <- get_length;
    unless index >=? 0 die_ "The index $index must be greater than or equal to 0.";
    unless index <? length die_ "The index $index must be less than the length of $list.";
    array_get index.

  (** insert, IntList.spvm:76-99. *)
  Definition il_insert (index : Z) (element : X) : M unit :=
    do length <- get_length;
    unless index >=? 0 die_ "The index $index must be greater than or equal to 0.";
    unless index <=? length die_ "The index $index must be less than or equal to the length of $list.";
    let new_length := wrap32 (length + 1) in
    do_ maybe_extend new_length;
    do_ (if negb (index =? length)
         then array_move (wrap32 (index + 1)) index (wrap32 (length - index)) else ret tt);
    do_ array_set index (conv element);
    set_length new_length.

  (** pop, IntList.spvm:101-115. *)
  Definition il_pop : M A :=
    do length <- get_length;
    unless length >? 0 die_ "The length of the list $list must be greater than 0.";
    do element <- array_get (wrap32 (length - 1));
    do_ array_set (wrap32 (length - 1)) zero;
    do_ set_length (wrap32 (length - 1));
    ret element.

  (** push, IntList.spvm:117-126. *)
  Definition il_push (element : X) : M unit :=
    do length <- get_length;
    let new_length := wrap32 (length + 1) in
    do_ maybe_extend new_length;
    do_ array_set length (conv element);
    set_length new_length.

  (** remove, IntList.spvm:128-150. *)
  Definition il_remove (index : Z) : M A :=
    do length <- get_length;
    unless index >=? 0 die_ "The index $index must be greater than or equal to 0.";
    unless index <? length die_ "The index $index must be less than the length of $list.";
    do remove_value <- array_get index;
    do_ array_move index (wrap32 (index + 1)) (wrap32 (wrap32 (length - index) - 1));
    do_ set_length (wrap32 (length - 1));
    ret remove_value.

  (** replace, IntList.spvm:152-180. *)
  Definition il_replace (offset remove_length : Z) (replace : option (list A)) : M unit :=
    unless offset >=? 0 die_ "The offset $offset must be greater than or equal to 0.";
    unless remove_length >=? 0 die_ "The removal length $remove_length must be greater than or equal to 0.";
    do length <- get_length;
    unless wrap32 (offset + remove_length) <=? length
      die_ "$offset + $removing length must be less than or equal to the length of $list.";
    let replace_length := match replace with Some r => zlen r | None => 0 end in
    let new_length := wrap32 (wrap32 (length - remove_length) + replace_length) in
    do_ maybe_extend new_length;
    let move_length := wrap32 (wrap32 (length - offset) - remove_length) in
    do_ array_move (wrap32 (offset + replace_length)) (wrap32 (offset + remove_length)) move_length;
    do_ (match replace with
         | Some r => on_array (fun a => memcpy false (Some a) offset (Some r) 0 replace_length)
         | None => ret tt
         end);
    set_length new_length.

  (** reserve, IntList.spvm:182-196. *)
  Definition il_reserve (new_capacity : Z) : M unit :=
    unless new_capacity >=? 0 die_ "The new capacity $new_capacity must be greater than or equal to 0.";
    fun s => if new_capacity >? il_capacity s then regrow new_capacity s else (s, Ret tt).

  (** resize, IntList.spvm:198-214. *)
  Definition il_resize (new_length : Z) : M unit :=
    unless new_length >=? 0 die_ "The new length $new_length must be greater than or equal to 0.";
    do length <- get_length;
    do_ (if new_length >? length then
           do_ maybe_extend new_length;
           array_clear length (wrap32 (new_length - length))
         else if new_length <? length then
           array_clear new_length (wrap32 (length - new_length))
         else ret tt);
    set_length new_length.

  (** set, IntList.spvm:216-228. *)
  Definition il_set (index : Z) (element : X) : M unit :=
    do length <- get_length;
    unless index >=? 0 die_ "The index $index must be greater than or equal to 0.";
    unless index <? length die_ "The index $index must be less than the length of $list.";
    array_set index (conv element).

  (** shift, IntList.spvm:230-248. *)
  Definition il_shift : M A :=
    do length <- get_length;
    unless length >? 0 die_ "The length of the list $list must be greater than 0.";
    do element <- array_get 0;
    do_ array_move 0 1 (wrap32 (length - 1));
    do_ array_set (wrap32 (length - 1)) zero;
    do_ set_length (wrap32 (length - 1));
    ret element.

  (** to_array, IntList.spvm:250-260. *)
  Definition il_to_array : M (list A) := fun s =>
    (s, let! a := new_elems (il_length s) zero in
        memcpy false (Some a) 0 (Some (il_array s)) 0 (il_length s)).

  (** unshift, IntList.spvm:266-279. *)
  Definition il_unshift (element : X) : M unit :=
    do length <- get_length;
    let new_length := wrap32 (length + 1) in
    do_ maybe_extend new_length;
    do_ array_move 1 0 length;
    do_ array_set 0 (conv element);
    set_length new_length.

  (** The operations a caller can issue, and their results. *)
  Inductive iop :=
  | IGet (index : Z) | IInsert (index : Z) (element : X) | IPop | IPush (element : X)
  | IRemove (index : Z) | IReplace (offset remove_length : Z) (replace : option (list A))
  | IReserve (new_capacity : Z) | IResize (new_length : Z) | ISet (index : Z) (element : X)
  | IShift | IToArray | IUnshift (element : X) | ILength.

  Inductive ires := RUnit | RElem (x : A) | RArray (l : list A) | RInt (n : Z).

  Definition wrap_res {R} (f : R -> ires) (r : ilist * outcome R) : ilist * outcome ires :=
    (fst r, let! x := snd r in Ret (f x)).

  Definition il_step (s : ilist) (op : iop) : ilist * outcome ires :=
    match op with
    | IGet i => wrap_res RElem (il_get i s)
    | IInsert i x => wrap_res (fun _ => RUnit) (il_insert i x s)
    | IPop => wrap_res RElem (il_pop s)
    | IPush x => wrap_res (fun _ => RUnit) (il_push x s)
    | IRemove i => wrap_res RElem (il_remove i s)
    | IReplace o n r => wrap_res (fun _ => RUnit) (il_replace o n r s)
    | IReserve n => wrap_res (fun _ => RUnit) (il_reserve n s)
    | IResize n => wrap_res (fun _ => RUnit) (il_resize n s)
    | ISet i x => wrap_res (fun _ => RUnit) (il_set i x s)
    | IShift => wrap_res RElem (il_shift s)
    | IToArray => wrap_res RArray (il_to_array s)
    | IUnshift x => wrap_res (fun _ => RUnit) (il_unshift x s)
    | ILength => wrap_res RInt (get_length s)
    end.

  (** A history: the caller catches exceptions and goes on. *)
  Fixpoint il_run (s : ilist) (ops : list iop) : list (outcome ires) :=
    match ops with
    | [] => []
    | op :: ops => snd (il_step s op) :: il_run (fst (il_step s op)) ops
    end.

  Fixpoint il_exec (s : ilist) (ops : list iop) : ilist :=
    match ops with
    | [] => s
    | op :: ops => il_exec (fst (il_step s op)) ops
    end.
End IntList.

Arguments ilist A : clear implicits.
Arguments iop A X : clear implicits.
Arguments ires A : clear implicits.
