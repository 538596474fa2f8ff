(** * Strings: what they are meant to be

    A string has a value (bytes) and is read-only or not. No block, length
    field or terminator appears here. *)

From Verif Require Import Base CLib Str_model.

Record astr := mk_astr { a_value : list Z; a_ro : bool }.
Record astate := mk_astate { as_vars : list (option nat); as_heap : list astr }.

Definition avar (s : astate) (v : nat) : option nat := nth v (as_vars s) None.
Definition astring (s : astate) (v : nat) : option astr :=
  match avar s v with Some i => nth_error (as_heap s) i | None => None end.
Definition abind (s : astate) (d : nat) (r : option nat) : astate := mk_astate (upd (as_vars s) d r) (as_heap s).
Definition afresh (s : astate) (d : nat) (v : list Z) (ro : bool) : astate :=
  mk_astate (upd (as_vars s) d (Some (length (as_heap s)))) (as_heap s ++ [mk_astr v ro]).
Definition areplace (s : astate) (v : nat) (x : astr) : astate :=
  match avar s v with Some i => mk_astate (as_vars s) (upd (as_heap s) i x) | None => s end.

Definition spec_step (s : astate) (x : op) : astate * outcome out :=
  match x with
  | Lit d bs => (afresh s d bs true, Ret Done)
  | NewLen d n => if n <? 0 then (s, Die NEW_STRING_LEN_LENGTH) else (afresh s d (zrep n 0) false, Ret Done)
  | Assign d v => (abind s d (avar s v), Ret Done)
  | Cast d v =>
      match astring s v with
      | Some (mk_astr _ true) => (s, Die READ_ONLY_TO_MUTABLE)
      | _ => (abind s d (avar s v), Ret Done)
      end
  | Copy d v =>
      match astring s v with
      | Some a => (afresh s d (a_value a) false, Ret Done)
      | None => (abind s d None, Ret Done)
      end
  | Concat d v w =>
      match astring s v, astring s w with
      | None, _ => (s, Die CONCAT_LEFT)
      | _, None => (s, Die CONCAT_RIGHT)
      | Some a, Some b => (afresh s d (a_value a ++ a_value b) false, Ret Done)
      end
  | Shorten v n =>
      (* a shorter length keeps the prefix; otherwise nothing changes *)
      match astring s v with
      | Some (mk_astr w false) =>
          if (0 <=? n) && (n <? zlen w) then (areplace s v (mk_astr (ztake n w) false), Ret Done) else (s, Ret Done)
      | _ => (s, Ret Done)
      end
  | MakeReadOnly v =>
      match astring s v with
      | Some a => (areplace s v (mk_astr (a_value a) true), Ret Done)
      | None => (s, Ret Done)
      end
  | IsReadOnly v =>
      (s, Ret (Num (match astring s v with Some (mk_astr _ true) => 1 | _ => 0 end)))
  | Length v => (s, Ret (Num (match astring s v with Some a => zlen (a_value a) | None => 0 end)))
  | Get v i =>
      (s, match astring s v with
          | None => Die ARRAY_UNDEFINED
          | Some a => match znth (a_value a) i with Some b => Ret (Num (wrap8 b)) | None => Die INDEX_OUT_OF_RANGE end
          end)
  | Set_ v i b =>
      match astring s v with
      | None => (s, Die ARRAY_UNDEFINED)
      | Some a =>
          match znth (a_value a) i with
          | Some _ => (areplace s v (mk_astr (zupd (a_value a) i (u8 b)) (a_ro a)), Ret Done)
          | None => (s, Die INDEX_OUT_OF_RANGE)
          end
      end
  | CStr v =>
      (s, match astring s v with
          | None => Die ARRAY_UNDEFINED
          | Some a => Ret (Bytes (c_str (a_value a)))
          end)
  end.

Fixpoint spec_run (s : astate) (xs : list op) : list (outcome out) :=
  match xs with
  | [] => []
  | x :: r => let (s', y) := spec_step s x in y :: spec_run s' r
  end.
Fixpoint spec_state (s : astate) (xs : list op) : astate :=
  match xs with
  | [] => s
  | x :: r => spec_state (fst (spec_step s x)) r
  end.

Definition ainit (n : nat) : astate := mk_astate (repeat None n) [].

(** The sizes the runtime supports (the string and its terminator are counted
    in an int32_t), and make_read_only applied to a string. *)
Definition supported (s : astate) (x : op) : Prop :=
  match x with
  | Lit _ bs => zlen bs < INT32_MAX
  | NewLen _ n => n < INT32_MAX
  | Concat _ v w =>
      forall a b, astring s v = Some a -> astring s w = Some b -> zlen (a_value a) + zlen (a_value b) < INT32_MAX
  | MakeReadOnly v => astring s v <> None
  | _ => True
  end.
Fixpoint supported_run (s : astate) (xs : list op) : Prop :=
  match xs with
  | [] => True
  | x :: r => supported s x /\ supported_run (fst (spec_step s x)) r
  end.

(** ** Static typing: [mut v] when variable [v] has type mutable string.
    spvm_type.c (satisfy_assignment_requirement): a string cannot be assigned
    to a mutable string without a cast; spvm_check.c:2398-2403: only mutable
    strings can be assigned to at an index; spvm_check.c:4455-4533: the type of
    a new string and of a concatenation is string, that of copy is the type of
    its operand. *)
Definition typed (mut : nat -> bool) (x : op) : Prop :=
  match x with
  | Lit d _ | NewLen d _ => mut d = false
  | Assign d s => mut d = true -> mut s = true
  | Concat d _ _ => mut d = false
  | Copy d s => mut d = true -> mut s = true
  | Set_ v _ _ => mut v = true
  | _ => True
  end.

(** The variable a statement assigns. *)
Definition target (x : op) : option nat :=
  match x with
  | Lit d _ | NewLen d _ | Assign d _ | Cast d _ | Copy d _ | Concat d _ _ => Some d
  | _ => None
  end.
