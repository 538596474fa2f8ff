(** * What the cached assignability check must answer *)

From Verif Require Import Base Type_model TypeCache_model.

(** The check without the cache. *)
Definition uncached (p : prog) (w f : nat) (q : query) : outcome bool :=
  can_assign_types p w f (q_dist q) (q_src q).

(** The arguments have type int32_t, and the basic types exist. *)
Definition ty_int32 (t : ty) : Prop := in_i32 (t_id t) /\ in_i32 (t_dim t) /\ in_i32 (t_flag t).
Definition query_int32 (q : query) : Prop := ty_int32 (q_dist q) /\ ty_int32 (q_src q).
Definition type_in (p : prog) (t : ty) : Prop := 0 <= t_id t < zlen p.
Definition query_in (p : prog) (q : query) : Prop :=
  query_int32 q /\ type_in p (q_dist q) /\ type_in p (q_src q).
Definition no_flags (q : query) : Prop := t_flag (q_dist q) = 0 /\ t_flag (q_src q) = 0.

(** All names and types in the basic types exist. *)
Definition closed (p : prog) : Prop :=
  forall b, In b p ->
    (forall n, bt_parent_name b = Some n -> exists b', In b' p /\ bt_name b' = n) /\
    (forall m, In m (bt_methods b) -> Forall (type_in p) (m_return m :: m_args m)).

(** A schedule: every call is about existing types for which the check
    without the cache answers; compilations add complete programs. *)
Fixpoint legal (w f : nat) (p : prog) (es : list event) : Prop :=
  match es with
  | [] => True
  | EAsk _ q :: es' => (query_in p q /\ no_flags q /\ exists b, uncached p w f q = Ret b) /\ legal w f p es'
  | EStep _ :: es' => legal w f p es'
  | ECompile r :: es' => closed (p ++ r) /\ legal w f (p ++ r) es'
  end.

(** The basic types at the end, and the calls of thread [i], in order. *)
Fixpoint final (p : prog) (es : list event) : prog :=
  match es with
  | [] => p
  | ECompile r :: es' => final (p ++ r) es'
  | _ :: es' => final p es'
  end.
Fixpoint calls_of (i : Z) (es : list event) : list query :=
  match es with
  | [] => []
  | EAsk j q :: es' => if i =? j then q :: calls_of i es' else calls_of i es'
  | _ :: es' => calls_of i es'
  end.
