(** * Proofs about the object memory *)
From Verif Require Import Base Mem_model Mem_spec.

(** ** Results *)

(** Tainted states stay tainted. *)
Definition tp (r : res) : Prop :=
  match r with Ok s | Bad s => tainted s | Out => True end.
(** Normal result with [Q], or tainted. *)
Definition post (Q : mem -> Prop) (r : res) : Prop :=
  match r with Ok s => tainted s \/ Q s | Bad s => tainted s | Out => True end.

Lemma tp_bind r k : tp r -> (forall s, tainted s -> tp (k s)) -> tp (rbind r k).
Proof. destruct r; cbn; auto. Qed.
Lemma tp_post Q r : tp r -> post Q r.
Proof. destruct r; cbn; auto. Qed.
Lemma post_bind (Q R : mem -> Prop) r k :
  post Q r -> (forall s, tainted s -> tp (k s)) -> (forall s, Q s -> post R (k s)) -> post R (rbind r k).
Proof.
  destruct r; cbn; auto. intros [T | H] K1 K2; [apply tp_post; auto | auto].
Qed.
Lemma post_imp (Q R : mem -> Prop) r : post Q r -> (forall s, Q s -> R s) -> post R r.
Proof. destruct r; cbn; auto. intros [T | H] K; auto. Qed.

Lemma tainted_log s s' : (exists l, log s' = log s ++ l) -> tainted s -> tainted s'.
Proof. intros (l & E) (o & H). exists o. rewrite E. apply in_or_app. auto. Qed.
Lemma tainted_same s s' : log s' = log s -> tainted s -> tainted s'.
Proof. intros E. apply tainted_log. exists []. rewrite E, app_nil_r. reflexivity. Qed.

(** ** Taint is kept by every operation *)
Ltac tsame := match goal with T : tainted _ |- tainted _ => apply (tainted_same _ _ eq_refl T) end.

Lemma tp_inc o s : tainted s -> tp (inc o s).
Proof. intros T. unfold inc. destruct (get_obj s o); [destruct (0 <=? o_rc o0) |]; cbn; auto; tsame. Qed.
Lemma tp_dec o s : tainted s -> tp (dec o s).
Proof. intros T. unfold dec. destruct (get_obj s o); [destruct (0 <? o_rc o0) |]; cbn; auto; tsame. Qed.
Lemma tp_unweaken c s : tainted s -> tp (unweaken c s).
Proof.
  intros T. unfold unweaken. destruct (cell s c) as [[| o | o] |]; cbn; auto.
  destruct (get_obj s o) as [ob |]; cbn; auto. destruct (o_back ob); cbn; auto.
  apply tp_bind; [apply tp_inc; tsame |]. intros s' T'.
  destruct (get_obj s' o) as [ob' |]; cbn; auto.
  destruct (remove_first c (o_back ob')) as [b []]; cbn; tsame.
Qed.
Lemma tp_free_backrefs l : forall s, tainted s -> tp (free_backrefs l s).
Proof.
  induction l as [| c l IH]; intros s T; cbn; auto.
  destruct (cell s c) as [[] |]; cbn; auto.
Qed.

Section Tainted.
  Variable dtor : mem -> Z -> Z -> list mop.
  Section Rel.
    Variable rel : Z -> mem -> res.
    Hypothesis rel_tp : forall o s, tainted s -> tp (rel o s).

    Lemma tp_assign c v s : tainted s -> tp (assign rel c v s).
    Proof.
      intros T. unfold assign. destruct (cell s c) as [old |]; cbn; auto.
      apply tp_bind; [apply tp_unweaken; auto |]. intros s1 T1.
      apply tp_bind; [destruct v; [apply tp_inc; auto | cbn; auto] |]. intros s2 T2.
      destruct (target old); [apply rel_tp; tsame | cbn; tsame].
    Qed.
    Lemma tp_weaken c s : tainted s -> tp (weaken rel c s).
    Proof.
      intros T. unfold weaken. destruct (cell s c) as [[| o | o] |]; cbn; auto.
      destruct (get_obj s o) as [ob |]; cbn; auto.
      destruct (negb (0 <? o_rc ob)); cbn; auto.
      destruct (o_rc ob =? 1); [apply rel_tp; tsame |].
      apply tp_bind; [apply tp_dec; tsame |]. intros s1 T1.
      destruct (get_obj s1 o); cbn; auto.
    Qed.
    Lemma add_log_tainted e s : tainted s -> tainted (add_log e s).
    Proof. apply tainted_log. exists [e]. reflexivity. Qed.
    Lemma tp_clear_fields o n : forall c s, tainted s -> tp (clear_fields rel o c n s).
    Proof.
      induction n as [| n IH]; intros c s T; cbn; auto.
      apply tp_bind; [apply tp_assign, add_log_tainted; auto |]. auto.
    Qed.
    Lemma tp_push o s : tainted s -> tp (push_mortal rel o s).
    Proof.
      intros T. unfold push_mortal. apply tp_bind.
      - apply tp_assign. destruct (m_top s >=? m_cap s); auto; tsame.
      - intros s1 T1. cbn. tsame.
    Qed.
    Lemma tp_leave_loop n : forall i s, tainted s -> tp (leave_loop rel n i s).
    Proof.
      induction n as [| n IH]; intros i s T; cbn; destruct (i <? m_top s); cbn; auto.
      apply tp_bind; [apply tp_assign; auto |]. auto.
    Qed.
    Lemma tp_leave fuel top s : tainted s -> tp (leave_scope rel fuel top s).
    Proof.
      intros T. unfold leave_scope. apply tp_bind; [apply tp_leave_loop; auto |].
      intros s1 T1. cbn. tsame.
    Qed.
    Lemma note_store_tainted c s : tainted s -> tainted (note_store c s).
    Proof. unfold note_store. destruct (dying_owner s c); auto. apply add_log_tainted. Qed.
    Lemma tp_exec fuel floor op s : tainted s -> tp (exec rel fuel floor op s).
    Proof.
      intros T. destruct op; cbn [exec].
      - cbn. tsame.
      - destruct (usable s dst && (0 <=? n)); cbn; auto.
        apply tp_assign. apply (tainted_log (note_store dst s)); [eexists; reflexivity |].
        apply note_store_tainted; auto.
      - destruct (usable s dst && usable s src); cbn; auto.
        destruct (cell s src) as [v |]; cbn; auto.
        destruct (target v); apply tp_assign; auto. apply note_store_tainted; auto.
      - destruct (usable s dst); cbn; auto. apply tp_assign; auto.
      - destruct (usable s c); cbn; auto. apply tp_weaken; auto.
      - destruct (usable s c); cbn; auto. apply tp_unweaken; auto.
      - destruct (usable s src); cbn; auto. destruct (cell s src) as [v |]; cbn; auto.
        destruct (target v); cbn; auto. apply tp_push; auto.
      - destruct ((floor <=? top) && (top <=? m_top s)); cbn; auto. apply tp_leave; auto.
    Qed.
    Lemma tp_run fuel floor ops : forall s, tainted s -> tp (run rel fuel floor ops s).
    Proof.
      induction ops as [| op ops IH]; intros s T; cbn; auto.
      apply tp_bind; [apply tp_exec; auto |]. auto.
    Qed.
    Lemma tp_call_destroy fuel o s : tainted s -> tp (call_destroy dtor rel fuel o s).
    Proof.
      intros T. unfold call_destroy. apply tp_bind.
      { apply tp_assign. apply (tainted_same (add_log (EDestroy o (strong_refs s o)) s)); [reflexivity |].
        apply add_log_tainted; auto. }
      intros s1 T1. apply tp_bind; [apply tp_run; auto |].
      intros s2 T2. apply tp_bind; [apply tp_leave; auto |]. intros s3 T3. apply tp_assign; auto.
    Qed.
  End Rel.

  Lemma tp_release fuel : forall o s, tainted s -> tp (release dtor fuel o s).
  Proof.
    induction fuel as [| fuel IH]; intros o s T; cbn [release]; [exact I |].
    destruct (get_obj s o) as [ob |]; cbn; auto.
    destruct (negb (0 <? o_rc ob)); cbn; auto.
    destruct (1 <? o_rc ob); [apply tp_dec; auto |].
    apply tp_bind. { destruct (o_dtor ob); cbn; auto. apply tp_call_destroy; auto. }
    intros s1 T1. apply tp_bind. { apply tp_clear_fields; auto. }
    intros s2 T2. apply tp_bind. { apply tp_dec. tsame. }
    intros s3 T3. destruct (get_obj s3 o) as [ob3 |]; cbn; auto.
    destruct (o_rc ob3 =? 0).
    - apply tp_bind; [apply tp_free_backrefs; auto |]. intros s4 T4. cbn.
      apply add_log_tainted. tsame.
    - cbn. apply add_log_tainted; auto.
  Qed.
End Tainted.
