(** * Methods on an object: state transformers with an outcome

    A method gives the object's fields afterwards and the outcome, so that the
    fields a caller sees after an exception are part of the model. *)
From Verif Require Import Base.

Section M.
  Context {S : Type}.
  Definition M (R : Type) : Type := S -> S * outcome R.
  Definition ret {R} (r : R) : M R := fun s => (s, Ret r).
  Definition die {R} (e : string) : M R := fun s => (s, Die e).
  Definition bind {R T} (m : M R) (f : R -> M T) : M T := fun s =>
    match m s with
    | (s, Ret r) => f r s
    | (s, Die e) => (s, Die e)
    | (s, UB) => (s, UB)
    | (s, Fuel) => (s, Fuel)
    end.
  (** Read from the object. *)
  Definition gets {R} (f : S -> R) : M R := fun s => (s, Ret (f s)).
  (** Assign fields. *)
  Definition modify (f : S -> S) : M unit := fun s => (f s, Ret tt).
  (** A computation that does not touch the object. *)
  Definition lift {R} (o : outcome R) : M R := fun s => (s, o).

  Lemma bind_ret {R T} (m : M R) (f : R -> M T) s s' r :
    m s = (s', Ret r) -> bind m f s = f r s'.
  Proof. unfold bind. intros ->. reflexivity. Qed.
  Lemma bind_die {R T} (m : M R) (f : R -> M T) s s' e :
    m s = (s', Die e) -> bind m f s = (s', Die e).
  Proof. unfold bind. intros ->. reflexivity. Qed.
  Lemma bind_assoc {R T U} (m : M R) (f : R -> M T) (g : T -> M U) s :
    bind (bind m f) g s = bind m (fun r => bind (f r) g) s.
  Proof. unfold bind. destruct (m s) as [s' []]; reflexivity. Qed.
End M.
Arguments M S R : clear implicits.

Declare Scope st_scope.
Delimit Scope st_scope with st.
Notation "'do' x <- m ';' k" := (bind m (fun x => k))
  (at level 200, x pattern, m at level 100, k at level 200) : st_scope.
Notation "'do_' m ';' k" := (bind m (fun _ => k))
  (at level 200, m at level 100, k at level 200) : st_scope.
Notation "'unless' b 'die_' e ';' k" := (if (b : bool) then k else die e)
  (at level 200, b at level 100, e at level 100, k at level 200) : st_scope.
Open Scope st_scope.
