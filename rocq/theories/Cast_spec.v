(** * Values of a type, independently of the choice of the cast instructions *)

From Verif Require Import Base Type_model Type_spec Cast_model.

(** [v] is a value a variable of type [t] may hold. For an object this is the
    answer of the isa operator (C25 relates it to inheritance); a variable of
    type mutable string holds no read-only string. *)
Definition has_type (p : prog) (w f : nat) (t : ty) (v : value) : Prop :=
  match v with
  | VNum id _ => t = Ty id 0 0 /\ 3 <= id <= 8
  | VOther u =>
      t = u /\ t_dim u = 0 /\
      ((t_flag u = FLAG_REF) \/ (t_flag u = 0 /\ is_category p (t_id u) CMulnum))
  | VUndef => object_type p t \/ t = Ty ID_UNDEF 0 0
  | VObj o =>
      object_type p t /\ dynamic_type p (o_dyn o) /\ isa p w f (o_dyn o) (t_id t) (t_dim t) = Ret true /\
      (t_flag t = FLAG_MUTABLE -> o_ro o = false)
  end.

(** The casts that make a new value. *)
Definition converts (d s : ty) : Prop :=
  (t_id d = ID_STRING /\ t_dim d = 0 /\ t_id s = ID_BYTE /\ t_dim s = 1) \/
  (t_id d = ID_BYTE /\ t_dim d = 1 /\ t_id s = ID_STRING /\ t_dim s = 0).

(** The two defects, as conditions on the types of a cast: a mutable string
    from an object of any type, and an array from a value of its basic type. *)
Definition any_to_mutable (d s : ty) : Prop :=
  t_flag d = FLAG_MUTABLE /\ t_id s = ID_ANY_OBJECT /\ t_dim s = 0.
Definition array_from_scalar (p : prog) (d s : ty) : Prop :=
  t_dim d = 1 /\ t_id d = t_id s /\ ~ object_type p s.
(** C19_byte_array_cast_undef_refuted: the conversion of undef. *)
Definition undef_bytes (d s : ty) (v : value) : Prop :=
  t_id d = ID_STRING /\ t_dim d = 0 /\ t_id s = ID_BYTE /\ t_dim s = 1 /\ v = VUndef.
