(** * Methods, calls and parameters, independently of the code *)

From Coq Require Import Permutation.
From Verif Require Import Base Type_model Type_spec Dispatch_model.

(** What qsort guarantees of the method tables: the same methods, in an order
    in which no name compares above a later one. *)
Definition sorted_tables (p : prog) (table : Z -> list meth) : Prop :=
  forall c, Permutation (table c) (methods_of p c) /\
    forall i j a b, 0 <= i < j -> znth (table c) i = Some a -> znth (table c) j = Some b ->
      strcmp (m_name a) (m_name b) <= 0.

(** [c] is [d] or a sub class of [d]. *)
Definition sub_class (p : prog) (c d : Z) : Prop := c = d \/ super p c d.

(** A type of parameters. *)
Definition param_type (p : prog) (t : ty) : Prop :=
  type_ok p t /\ (t_id t <> 0 /\ t_id t <> ID_UNDEF /\ t_id t <> ID_VOID).

(** An instance method as the compiler builds it (spvm_op.c:1455-1490,
    spvm_check.c:466-735): the invocant comes first and is required, and the
    optional parameters are not of a multi-numeric type. *)
Record method_ok (p : prog) (m : meth) : Prop := {
  mo_types : Forall (param_type p) (m_args m);
  mo_invocant : exists t rest, m_args m = t :: rest /\ t_dim t = 0 /\ t_flag t = 0 /\
      (is_category p (t_id t) CClass \/ is_category p (t_id t) CInterface);
  mo_required : 1 <= m_required_args_length m <= zlen (m_args m);
  mo_optional : forall i t, m_required_args_length m <= i -> znth (m_args m) i = Some t ->
      ~ is_category p (t_id t) CMulnum \/ t_flag t = FLAG_REF \/ 0 < t_dim t
}.

Definition instance_methods_ok (p : prog) : Prop :=
  forall c b m, znth p c = Some b -> In m (bt_methods b) -> m_is_class_method m = false -> method_ok p m.

(** The value of an argument of the declared type [t]: one object reference,
    or as many numbers as the type has. *)
Definition argument_value (p : prog) (fields_length : Z -> Z) (t : ty) (v : list slot) : Prop :=
  (object_type p t -> exists o, v = [SObj o]) /\
  zlen v = type_width p fields_length t.
