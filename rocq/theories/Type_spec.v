(** * Classes, inheritance and instances, independently of the compiler's checks *)

From Verif Require Import Base Type_model.

(** ** Programs *)

(** The categories of the basic types that always exist, in the order of
    their ids (spvm_compiler.c:430-443): unknown, undef, void, the six numeric
    types, string, any object. *)
Definition core_categories : list category :=
  [CUnknown; CUndef; CVoid; CNumeric; CNumeric; CNumeric; CNumeric; CNumeric; CNumeric;
   CString; CAnyObject].

(** A program: the core basic types, the classes Byte, Short, Int, Long, Float
    and Double (ids 11 to 16), and user-defined classes, interfaces and
    multi-numeric types, under different names. *)
Record program_ok (p : prog) : Prop := {
  po_core : map bt_category (ztake 11 p) = core_categories;
  po_numeric_objects : forall i b, 11 <= i <= 16 -> znth p i = Some b -> bt_category b = CClass;
  po_length : 17 <= zlen p;
  po_user : forall i b, 11 <= i -> znth p i = Some b ->
      bt_category b = CClass \/ bt_category b = CInterface \/ bt_category b = CMulnum;
  po_names : NoDup (map bt_name p)
}.

(** ** Inheritance *)

(** The class [c] is declared with "extends" and the name of [d]. *)
Definition extends (p : prog) (c d : Z) : Prop :=
  exists bc bd, znth p c = Some bc /\ znth p d = Some bd /\ bt_parent_name bc = Some (bt_name bd).

(** [d] is a proper super class of [c]. *)
Inductive super (p : prog) : Z -> Z -> Prop :=
| super_direct c d : extends p c d -> super p c d
| super_step c d e : extends p c d -> super p d e -> super p c e.

Definition is_category (p : prog) (id : Z) (c : category) : Prop :=
  exists b, znth p id = Some b /\ bt_category b = c.

(** ** Types a variable can have, and dynamic types of objects *)

(** A type as the compiler builds it: the reference flag only on numeric and
    multi-numeric types, the mutable flag only on the string type. *)
Definition type_ok (p : prog) (t : ty) : Prop :=
  0 <= t_id t < zlen p /\ 0 <= t_dim t /\
  (t_flag t = 0 \/
   (t_flag t = FLAG_MUTABLE /\ t_id t = ID_STRING /\ t_dim t = 0) \/
   (t_flag t = FLAG_REF /\ t_dim t = 0 /\ (3 <= t_id t <= 8 \/ is_category p (t_id t) CMulnum))) /\
  (0 < t_dim t -> 3 <= t_id t).

(** A type of object variables. *)
Definition object_type (p : prog) (t : ty) : Prop :=
  type_ok p t /\ t_flag t <> FLAG_REF /\
  (0 < t_dim t \/ t_id t = ID_STRING \/ t_id t = ID_ANY_OBJECT \/
   is_category p (t_id t) CClass \/ is_category p (t_id t) CInterface).

(** The dynamic type (basic type, dimension) of an object: a string, an
    instance of a class, or an array. *)
Definition dynamic_type (p : prog) (o : Z * Z) : Prop :=
  0 <= fst o < zlen p /\
  ((snd o = 0 /\ (fst o = ID_STRING \/ is_category p (fst o) CClass)) \/
   (0 < snd o /\ 3 <= fst o)).

Definition no_interface (p : prog) (t : ty) : Prop := ~ is_category p (t_id t) CInterface.

(** ** Instances, for the types that are not built from an interface *)

(** The six numeric classes count as final: only themselves are instances. *)
Definition numeric_class (id : Z) : Prop := 11 <= id <= 16.

Definition same_or_sub (p : prog) (c d : Z) : Prop :=
  c = d \/ (is_category p c CClass /\ is_category p d CClass /\ super p c d).

Definition instance (p : prog) (o : Z * Z) (t : ty) : Prop :=
  let (id, dim) := o in
  if t_dim t =? 0 then
    (* object: everything; a numeric class: itself; string: strings; a class: it
       and its sub classes *)
    if t_id t =? ID_ANY_OBJECT then True
    else if (11 <=? t_id t) && (t_id t <=? 16) then dim = 0 /\ id = t_id t
    else dim = 0 /\ same_or_sub p id (t_id t)
  else if (t_dim t =? 1) && (t_id t =? ID_ANY_OBJECT) then
    (* object[]: every array of objects *)
    1 < dim \/ (dim = 1 /\ (id = ID_STRING \/ id = ID_ANY_OBJECT \/
                            is_category p id CClass \/ is_category p id CInterface))
  else
    (* other arrays: same number of dimensions, same or sub class *)
    dim = t_dim t /\ same_or_sub p id (t_id t).

(** The nearest class, from [c] along its super classes, that declares a
    method of that name, and that method. *)
Inductive nearest (p : prog) (name : list Z) : Z -> Z -> meth -> Prop :=
| nearest_here c b m : znth p c = Some b -> In m (bt_methods b) -> m_name m = name ->
    nearest p name c c m
| nearest_up c d e m b : znth p c = Some b -> (forall m', In m' (bt_methods b) -> m_name m' <> name) ->
    extends p c d -> nearest p name d e m -> nearest p name c e m.

(** No class declares two methods of the same name (spvm_op.c:971-975). *)
Definition methods_ok (p : prog) : Prop :=
  forall i b, znth p i = Some b -> NoDup (map m_name (bt_methods b)).
