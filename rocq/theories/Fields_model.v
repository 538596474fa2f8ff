(** * The fields of a class: inheritance, layout, access

    Models lib/SPVM/Builder/src/spvm_check.c:325-406 (merging the fields of a
    class with those of its super classes), 1056-1123 (field offsets),
    3937-3960 (search in the super classes), and the field access of
    lib/SPVM/Builder/include/spvm_implement.h:1112-1297. *)

From Verif Require Import Base Bytes.

(** The type of a field: a numeric type or an object type (by name). *)
Inductive ftype := FNum (k : nkind) | FObj (name : string).

Record field := mk_field { f_name : string; f_type : ftype }.

Definition nkind_eqb (a b : nkind) : bool :=
  match a, b with
  | KByte, KByte | KShort, KShort | KInt, KInt | KLong, KLong | KFloat, KFloat | KDouble, KDouble => true
  | _, _ => false
  end.
(** SPVM_TYPE_equals, spvm_type.c:1815. *)
Definition ftype_eqb (a b : ftype) : bool :=
  match a, b with
  | FNum k, FNum k' => nkind_eqb k k'
  | FObj n, FObj n' => String.eqb n n'
  | _, _ => false
  end.

(** A class is given by the fields declared in each class from its root class
    down to itself (unmerged_fields). *)
Notation class := (list (list field)).

Fixpoint find_field (n : string) (fs : list field) : option field :=
  match fs with
  | [] => None
  | f :: r => if String.eqb (f_name f) n then Some f else find_field n r
  end.

(** spvm_check.c:3937-3960 SPVM_CHECK_search_unmerged_field: the nearest
    super class first ([supers] is given nearest first). *)
Fixpoint search_supers (n : string) (supers : class) : option field :=
  match supers with
  | [] => None
  | c :: r => match find_field n c with Some f => Some f | None => search_supers n r end
  end.

Definition FIELD_TYPE_DIFFERS : string := "This field is already defined with a different type in the super class.".

(** spvm_check.c:351-380: the loop over the declared fields of one class. A
    field already declared in a super class must have the same type; the loop
    is then left ([break]). *)
Fixpoint merge_own (supers : class) (own : list field) : outcome (list field) :=
  match own with
  | [] => Ret []
  | f :: r =>
      match search_supers (f_name f) supers with
      | Some g => if ftype_eqb (f_type g) (f_type f) then Ret [] else Die FIELD_TYPE_DIFFERS
      | None => let! m := merge_own supers r in Ret (f :: m)
      end
  end.

(** spvm_check.c:326-397: root class first; [done]: the classes already
    merged, nearest first. *)
Fixpoint merge_loop (done : class) (c : class) : outcome (list field) :=
  match c with
  | [] => Ret []
  | own :: r =>
      let! m := merge_own done own in
      let! ms := merge_loop (own :: done) r in
      Ret (m ++ ms)
  end.
Definition merged (c : class) : outcome (list field) := merge_loop [] c.

(** spvm_check.c:1080-1098. *)
Definition fsize (t : ftype) : Z := match t with FNum k => ksize k | FObj _ => 8 end.

(** spvm_check.c:1060-1120: one turn of the loop. [offset] and
    [alignment_index] on entry; the offset of the field and the two on exit.
    alignment_size is 8. *)
Definition place (t : ftype) (offset ai : Z) : Z * Z * Z :=
  let size := fsize t in
  let next := offset + size in
  let offset1 := if next mod size =? 0 then offset else offset + (size - offset mod size) in
  let '(offset2, ai') :=
    if next =? 8 * (ai + 1) then (offset1, ai + 1)
    else if 8 * (ai + 1) <? next then (offset1 + (8 - offset1 mod 8), ai + 1)
    else (offset1, ai) in
  (offset2, offset2 + size, ai').

Fixpoint layout_loop (fs : list field) (offset ai : Z) : list Z * Z :=
  match fs with
  | [] => ([], offset)
  | f :: r =>
      let '(o, offset', ai') := place (f_type f) offset ai in
      let (os, size) := layout_loop r offset' ai' in (o :: os, size)
  end.

(** The offsets of the fields and fields_size. *)
Definition layout (fs : list field) : list Z * Z := layout_loop fs 0 0.

(** The offset and type of a field by name (field_symtable). *)
Fixpoint lookup (n : string) (fs : list field) (os : list Z) : option (Z * ftype) :=
  match fs, os with
  | f :: fs', o :: os' => if String.eqb (f_name f) n then Some (o, f_type f) else lookup n fs' os'
  | _, _ => None
  end.
Definition field_of (fs : list field) (n : string) : option (Z * ftype) := lookup n fs (fst (layout fs)).

(** ** Access *)

Definition INVOCANT_UNDEFINED : string := "An field access failed. The invocant must be defined.".

(** The representation of a field: numbers as such, references as the 8 bytes
    of an address. *)
Definition codec (t : ftype) : nkind := match t with FNum k => k | FObj _ => KLong end.

(** spvm_api.c:3800-3823 new_object: fields_size + 1 zero bytes. *)
Definition new_object (fs : list field) : list Z := zrep (snd (layout fs) + 1) 0.

(** spvm_implement.h:1112-1200 GET_FIELD_*, 1202-1297 SET_FIELD_*: the offset
    comes from the static type of the invocant (class fields [fs]). *)
Definition get_field (o : option (list Z)) (off : Z) (t : ftype) : outcome Z :=
  match o with
  | None => Die INVOCANT_UNDEFINED
  | Some d => let! b := load_at d off (fsize t) in Ret (decode (codec t) b)
  end.
Definition set_field (o : option (list Z)) (off : Z) (t : ftype) (v : Z) : outcome (list Z) :=
  match o with
  | None => Die INVOCANT_UNDEFINED
  | Some d => store_at d off (encode (codec t) v)
  end.

(** A program on one object: each access names the static class (as the
    fields of that class) and the field. *)
Inductive op := Get (cls : list field) (n : string) | Set_ (cls : list field) (n : string) (v : Z).
Inductive out := Got (v : Z) | Done.

Definition step (o : option (list Z)) (x : op) : option (list Z) * outcome out :=
  match x with
  | Get cls n =>
      (o, match field_of cls n with
          | None => UB
          | Some (off, t) => let! v := get_field o off t in Ret (Got v)
          end)
  | Set_ cls n v =>
      match field_of cls n with
      | None => (o, UB)
      | Some (off, t) =>
          match set_field o off t v with
          | Ret d => (Some d, Ret Done)
          | Die e => (o, Die e) | UB => (o, UB) | Fuel => (o, Fuel)
          end
      end
  end.
Fixpoint run (o : option (list Z)) (xs : list op) : list (outcome out) :=
  match xs with
  | [] => []
  | x :: r => let (o', y) := step o x in y :: run o' r
  end.
