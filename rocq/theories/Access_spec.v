(** * Who may use what, independently of the compiler's checks

    From lib/SPVM/Document/Language/Class.pm: "private: all classes other than
    this class cannot access this field"; "protected: all classes other than
    this class and its child classes cannot access this field"; "allow: allows
    a type private accesses to the current class"; "An anon method class has
    the same access control as its outmost class". *)

From Verif Require Import Base Type_model Type_spec Access_model.

(** The class for which a method acts: an anonymous method acts for the class
    in whose source it is written. *)
Definition acting (ai : Z -> ainfo) (c : Z) : Z := if ai_anon (ai c) then ai_outmost (ai c) else c.

(** The class [owner] has an allow statement for the class [c]. *)
Definition allows (p : prog) (ai : Z -> ainfo) (owner c : Z) : Prop :=
  exists b, znth p c = Some b /\ In (bt_name b) (ai_allows (ai owner)).

(** A class [c] may use a member that [owner] declares. *)
Definition permitted (p : prog) (ai : Z -> ainfo) (c owner : Z) (flag : access) : Prop :=
  c = owner \/ allows p ai owner c \/
  match flag with Private => False | Protected => super p c owner | Public => True end.

(** [d] is [c] or one of its super classes. *)
Definition up (p : prog) (c d : Z) : Prop := c = d \/ super p c d.

Definition declares {A : Type} (decls : list (list Z * A)) (name : list Z) (a : A) : Prop := In (name, a) decls.

(** Objects of the class [cls] have a field [name] that [owner], [cls] or a
    super class of it, declares; no super class of [owner] declares it. *)
Definition field_from (p : prog) (ai : Z -> ainfo) (cls : Z) (name : list Z) (owner : Z) (flag : access) : Prop :=
  up p cls owner /\ declares (ai_fields (ai owner)) name flag /\
  forall e flag', super p owner e -> ~ declares (ai_fields (ai e)) name flag'.

(** No class between [cls] and [owner] declares the field again. *)
Definition not_redeclared (p : prog) (ai : Z -> ainfo) (cls : Z) (name : list Z) (owner : Z) : Prop :=
  forall e flag, up p cls e -> declares (ai_fields (ai e)) name flag -> e = owner.

(** The program the checks run on: each class declares a name once
    (spvm_op.c:843-852, 862-870, 971-975), the outmost class of an anonymous method is an
    ordinary class, and every declared method has an access control. *)
Record access_ok (p : prog) (ai : Z -> ainfo) : Prop := {
  ao_fields : forall i, NoDup (map fst (ai_fields (ai i)));
  ao_vars : forall i, NoDup (map fst (ai_vars (ai i)));
  ao_methods : forall i b, znth p i = Some b -> NoDup (map m_name (bt_methods b));
  ao_methods_access : forall i b, znth p i = Some b -> map fst (ai_methods (ai i)) = map m_name (bt_methods b);
  ao_outmost : forall i, 0 <= i < zlen p -> ai_anon (ai i) = true ->
      0 <= ai_outmost (ai i) < zlen p /\ ai_anon (ai (ai_outmost (ai i))) = false
}.
