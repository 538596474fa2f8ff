(** * What INIT methods promise, independently of how they are called *)

From Verif Require Import Base Init_model.

(** The histories below are latest first: in [later ++ e :: earlier], [earlier]
    happened before [e]. *)

(** The number of times the INIT method of [c] was run. *)
Fixpoint runs (c : Z) (h : list event) : nat :=
  match h with
  | [] => 0
  | Start d :: h' => if d =? c then S (runs c h') else runs c h'
  | _ :: h' => runs c h'
  end.

(** [d] is the parent class of [c] or a class that [c] uses. *)
Definition depends (p : Z -> cls) (c d : Z) : Prop :=
  c_user_defined (p d) = true /\
  (c_parent (p c) = Some d \/ (In (Some d) (c_uses (p c)) /\ c_is_class (p d) = true)).

(** Calls of INIT methods in the user's own statements. *)
Fixpoint calls_init (s : stmt) (d : Z) : Prop :=
  match s with
  | SInit d' => d' = d
  | SMethod s' | SEval s' | SRepeat _ s' => calls_init s' d
  | SSeq s1 s2 | SIf _ s1 s2 => calls_init s1 d \/ calls_init s2 d
  | SEffect _ | SDie | SSkip => False
  end.
Definition calls (p : Z -> cls) (c d : Z) : Prop := exists s, In s (c_inits (p c)) /\ calls_init s d.

(** No class depends on itself, directly or through other classes. *)
Definition acyclic (p : Z -> cls) : Prop :=
  exists rank : Z -> nat, forall c d, depends p c d \/ calls p c d -> (rank d < rank c)%nat.

(** When a statement of a class has an effect, the INIT methods it depends on
    are over. *)
Definition dependencies_first (p : Z -> cls) (h : list event) : Prop :=
  forall later earlier c e d, h = later ++ Effect c e :: earlier -> depends p c d ->
    In (End d) earlier \/ In (Fail d) earlier.

(** A statement of at most [k] levels of method calls that cannot die, where
    the INIT method of [d] needs [depth d] levels. *)
Fixpoint safe (depth : Z -> nat) (k : nat) (s : stmt) : Prop :=
  match s with
  | SEffect _ | SSkip => True
  | SDie => False
  | SInit d => (depth d < k)%nat
  | SMethod s' => match k with O => False | S k' => safe depth k' s' end
  | SEval _ => True
  | SSeq s1 s2 | SIf _ s1 s2 => safe depth k s1 /\ safe depth k s2
  | SRepeat _ s' => safe depth k s'
  end.

Fixpoint no_eval (s : stmt) : Prop :=
  match s with
  | SEval _ => False
  | SMethod s' | SRepeat _ s' => no_eval s'
  | SSeq s1 s2 | SIf _ s1 s2 => no_eval s1 /\ no_eval s2
  | SEffect _ | SDie | SSkip | SInit _ => True
  end.
