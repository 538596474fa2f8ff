(** * What a dump shows, independently of how it is made *)

From Verif Require Import Base Utf8_spec Dec Dump_model.

(** What is written for an object. *)
Inductive tree : Type :=
| TUndef
| TText (text : list Z)
| TNum (n : num)
| TReuse (a : Z)
| TArray (basic_type : list Z) (dimension : nat) (a : Z) (elements : list tree)
| TRecord (fields : list (list Z * num))
| TObject (basic_type : list Z) (a : Z) (fields : list (list Z * tree)).

(** ** Strings *)

Definition hex : list Z := [48; 49; 50; 51; 52; 53; 54; 55; 56; 57; 65; 66; 67; 68; 69; 70].
(** Backslash, x, two hexadecimal digits in braces. *)
Definition escaped (b : Z) : list Z :=
  [92; 120; 123; nth (Z.to_nat (b / 16)) hex 0; nth (Z.to_nat (b mod 16)) hex 0; 125].

(** Printable ASCII characters and all longer UTF-8 characters are shown as
    they are, the other bytes escaped. *)
Inductive shows : list Z -> list Z -> Prop :=
| sh_nil : shows [] []
| sh_char c cp s t : wf_char c cp -> 32 <= cp -> cp <> 127 -> shows s t -> shows (c ++ s) (c ++ t)
| sh_control b s t : 0 <= b < 32 \/ b = 127 -> shows s t -> shows (b :: s) (escaped b ++ t)
| sh_invalid b s t : (forall c cp r, wf_char c cp -> b :: s <> c ++ r) -> shows s t ->
    shows (b :: s) (escaped b ++ t).

(** ** A tree shows an object *)

Definition address (p : Z) : Z := 2 * (p / 2).

(** [represents heap p t]: the tree [t] shows what the pointer [p] refers to.
    Only an instance of a class may be shown as a mere reference. *)
Inductive represents (heap : Z -> option object) : Z -> tree -> Prop :=
| rep_undef p : address p = 0 -> represents heap p TUndef
| rep_string p s t : address p <> 0 -> heap (address p) = Some (OString s) -> shows s t ->
    represents heap p (TText t)
| rep_nums p ty l : address p <> 0 -> heap (address p) = Some (ONums ty l) ->
    represents heap p (TArray ty 1 (address p) (map TNum l))
| rep_mulnums p ty names l : address p <> 0 -> heap (address p) = Some (OMulnums ty names l) ->
    represents heap p (TArray ty 1 (address p) (map (fun ns => TRecord (combine names ns)) l))
| rep_objects p ty dim l ts : address p <> 0 -> heap (address p) = Some (OObjects ty dim l) ->
    Forall2 (represents heap) l ts ->
    represents heap p (TArray ty dim (address p) ts)
| rep_class p ty fields ts : address p <> 0 -> heap (address p) = Some (OClass ty fields) ->
    represents_fields heap fields ts ->
    represents heap p (TObject ty (address p) ts)
| rep_reuse p ty fields : address p <> 0 -> heap (address p) = Some (OClass ty fields) ->
    represents heap p (TReuse (address p))
with represents_fields (heap : Z -> option object) : list (list Z * fvalue) -> list (list Z * tree) -> Prop :=
| rf_nil : represents_fields heap [] []
| rf_num name n l ts : represents_fields heap l ts ->
    represents_fields heap ((name, FNum n) :: l) ((name, TNum n) :: ts)
| rf_ref name p t l ts : represents heap p t -> represents_fields heap l ts ->
    represents_fields heap ((name, FRef p) :: l) ((name, t) :: ts).

(** The instances of classes in a tree in the order of the text: the address,
    and whether the fields are shown. *)
Fixpoint marks (t : tree) : list (Z * bool) :=
  match t with
  | TReuse a => [(a, false)]
  | TObject _ a fields => (a, true) :: flat_map (fun x => marks (snd x)) fields
  | TArray _ _ _ ts => flat_map marks ts
  | _ => []
  end.

(** The fields of an instance are shown at its first occurrence only. *)
Definition first_in_full (l : list (Z * bool)) : Prop :=
  forall before a full after, l = before ++ (a, full) :: after ->
    (full = true <-> ~ In a (map fst before)).

(** ** The text of a tree *)

Section Text.
  Variable fmt_g fmt_p : Z -> list Z.

  Definition show_num (n : num) : list Z := match n with NInt z => print_dec z | NReal b => fmt_g b end.

  Definition indent (depth : nat) : list Z := concat (repeat [32; 32] depth).

  (** The items on lines of their own, with commas between them. *)
  Definition block (depth : nat) (l : list (list Z)) : list Z :=
    match l with
    | [] => []
    | x :: r => indent depth ++ x ++ concat (map (fun y => [44; 10] ++ indent depth ++ y) r) ++ [10]
    end.

  Definition named (name value : list Z) : list Z := name ++ [32; 61; 62; 32] ++ value.

  Fixpoint text (depth : nat) (t : tree) : list Z :=
    match t with
    | TUndef => [117; 110; 100; 101; 102]
    | TText s => [34] ++ s ++ [34]
    | TNum n => show_num n
    | TReuse a => [82; 69; 85; 83; 69; 95; 79; 66; 74; 69; 67; 84; 40] ++ fmt_p a ++ [41]
    | TArray ty dim a ts =>
        [91; 10] ++ block (S depth) (map (text (S depth)) ts) ++ indent depth ++ [93; 32; 58; 32] ++ ty
          ++ concat (repeat [91; 93] dim) ++ [40] ++ fmt_p a ++ [41]
    | TRecord fields =>
        (* the closing brace is always indented by two spaces *)
        [123; 10] ++ block (S depth) (map (fun x => named (fst x) (show_num (snd x))) fields) ++ [32; 32; 125]
    | TObject ty a fields =>
        ty ++ [32; 40] ++ fmt_p a ++ [41; 32; 123; 10]
          ++ block (S depth) (map (fun x => named (fst x) (text (S depth) (snd x))) fields) ++ indent depth ++ [125]
    end.
End Text.

(** ** Reachable objects *)

(** [q] is stored in an element or a field of what [p] refers to. *)
Definition refers (heap : Z -> option object) (p q : Z) : Prop :=
  (exists ty dim l, heap (address p) = Some (OObjects ty dim l) /\ In q l) \/
  (exists ty fields name, heap (address p) = Some (OClass ty fields) /\ In (name, FRef q) fields).

Inductive reaches (heap : Z -> option object) (p : Z) : Z -> Prop :=
| re_refl : reaches heap p p
| re_step q r : reaches heap p q -> refers heap q r -> address r <> 0 -> reaches heap p r.

(** Every reference leads to an object. *)
Definition no_dangling (heap : Z -> option object) : Prop :=
  forall p q, refers heap p q -> address q = 0 \/ heap (address q) <> None.

(** There are finitely many instances of classes, and no array contains
    itself except through an instance of a class. *)
Definition finite (heap : Z -> option object) : Prop :=
  exists l, forall a ty fields, heap a = Some (OClass ty fields) -> In a l.
Definition arrays_acyclic (heap : Z -> option object) : Prop :=
  exists rank : Z -> nat, forall a ty dim l q ty' dim' l',
    heap a = Some (OObjects ty dim l) -> In q l -> heap (address q) = Some (OObjects ty' dim' l') ->
    (rank (address q) < rank a)%nat.
