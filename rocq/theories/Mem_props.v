(** * Properties of reference counting, weak references, destructors and scopes

    [dtor] says what each call of DESTROY does with references; it ranges over
    all strategies.  A run without [EStoreDying] is one in which no DESTROY
    stored an object into a field of an object whose fields are being
    released. *)
From Verif Require Import Base Mem_model Mem_spec Mem_proofs Mem_inv Mem_safe Mem_quiet Mem_top.

Lemma sound_top dtor s : sound dtor s -> top s.
Proof. intros ((fuel & ops & E) & N). eapply reached_top; eauto. Qed.

(** ** C08: counts are exact *)

(** Missing for the full property: runs in which a DESTROY stores into a dying
    object; for those it is false, see below. *)
Theorem C08_counts_exact_partial : forall dtor s, sound dtor s ->
  forall o ob, get_obj s o = Some ob -> o_rc ob = strong_refs s o /\ 1 <= o_rc ob.
Proof.
  intros dtor s H o ob Ho. pose proof (t_inv _ (sound_top _ _ H)) as I.
  pose proof (i_rc _ _ _ I o ob Ho) as Q. change (pcount o []) with 0 in Q.
  pose proof (obj_bounds _ _ _ Ho). pose proof (i_pos _ _ _ I o ob Ho ltac:(lia)). lia.
Qed.
Print Assumptions C08_counts_exact_partial.

(** Also the number of memory blocks the runtime reports is exact: one for
    each live object, one for each weak reference to it, one for the mortal
    stack. *)
Theorem C08_memory_blocks_partial : forall dtor s, sound dtor s ->
  blocks s = 1 + wsum (fun x => match x with Some ob => 1 + zlen (o_back ob) | None => 0 end) (objs s) /\
  forall o ob, get_obj s o = Some ob -> NoDup (o_back ob) /\ forall c, In c (o_back ob) <-> cell s c = Some (Weak o).
Proof.
  intros dtor s H. pose proof (t_inv _ (sound_top _ _ H)) as I. split.
  - rewrite (i_blocks _ _ _ I). unfold weight. lia.
  - apply (i_back _ _ _ I).
Qed.
Print Assumptions C08_memory_blocks_partial.

(** Programs whose destructors leave references alone: no condition is left. *)
Theorem C08_counts_exact_plain : forall ops fuel, 2 * zlen ops + 1 < Z.of_nat fuel ->
  exists s, mem_run no_body fuel ops mem_init = Ok s /\
  forall o ob, get_obj s o = Some ob -> o_rc ob = strong_refs s o /\ 1 <= o_rc ob.
Proof.
  intros ops fuel H. destruct (plain_run ops fuel H) as (s & E & N & T & _). exists s. split; [auto |].
  apply (C08_counts_exact_partial no_body). split; [exists fuel, ops; auto | auto].
Qed.
Print Assumptions C08_counts_exact_plain.

(** A program with shared objects, a weak back reference and a destructor. *)
Definition parent_child : list mop :=
  [ MFrame 3; MNew 1 2 false; MNew 2 1 true; MCopy 6 1; MWeaken 6; MCopy 5 2; MUndef 2; MNew 3 0 false ].
Example parent_child_runs : exists s, sound no_body s /\ live s 0 /\ live s 1 /\ cell s 6 = Some (Weak 0).
Proof.
  eexists. split; [split |].
  - exists 30%nat, parent_child. lazy. reflexivity.
  - intros (o & Q). cbn in Q. intuition discriminate.
  - split; [| split]; [eexists; reflexivity | eexists; reflexivity | reflexivity].
Qed.

(** ** The defect: storing into a field of an object that is being released

    Object 0 has two fields; the second holds object 1, whose weak field leads
    back to object 0.  When object 0 is released its first field has been
    cleared when DESTROY of object 1 runs and assigns object 2 to it.  Nothing
    clears that field again. *)
Definition stores_into_parent : mem -> Z -> Z -> list mop := fun s o self => if o =? 1 then [MCopy 4 3] else [].
Definition weakly_stores_into_parent : mem -> Z -> Z -> list mop :=
  fun s o self => if o =? 1 then [MCopy 4 3; MWeaken 4] else [].

Theorem C08_store_into_dying_refuted : exists dtor s o ob,
  reached dtor s /\ get_obj s o = Some ob /\ o_rc ob <> strong_refs s o.
Proof.
  exists stores_into_parent.
  destruct (mem_run stores_into_parent 30 (parent_child ++ [MUndef 1]) mem_init) as [s | s |] eqn:E; [| lazy in E; discriminate | lazy in E; discriminate].
  exists s, 2. assert (Q : exists ob, get_obj s 2 = Some ob /\ o_rc ob = 2 /\ strong_refs s 2 = 1).
  { lazy in E. injection E as <-. eexists. split; [reflexivity |]. split; reflexivity. }
  destruct Q as (ob & Q1 & Q2 & Q3). exists ob. split; [exists 30%nat, (parent_child ++ [MUndef 1]); auto |].
  split; [auto |]. lia.
Qed.
Print Assumptions C08_store_into_dying_refuted.

(** ** C09: no use after free *)

(** No operation of the program, nor any of its destructors, ever touches freed
    memory or fails an assert, and every reference found in a cell leads to a
    live object; an object that is not live has no strong reference left. *)
Theorem C09_no_use_after_free_partial : forall dtor,
  (forall fuel ops s, mem_run dtor fuel ops mem_init = Bad s -> tainted s) /\
  (forall s, sound dtor s -> forall c v o, cell s c = Some v -> target v = Some o -> live s o) /\
  (forall s, sound dtor s -> forall o, ~ live s o -> strong_refs s o = 0).
Proof.
  intros dtor. split; [| split].
  - intros fuel ops s E. eapply not_bad; eauto.
  - intros s H c v o Hc Ht. apply (i_live _ _ _ (t_inv _ (sound_top _ _ H)) c v o Hc Ht).
  - intros s H o N. pose proof (refs_nonneg s o). destruct (Z_lt_dec 0 (strong_refs s o)) as [Q | Q]; [| lia].
    destruct (refs_exists s o Q) as (c & Hc). destruct N.
    apply (i_live _ _ _ (t_inv _ (sound_top _ _ H)) c _ o Hc eq_refl).
Qed.
Print Assumptions C09_no_use_after_free_partial.

Theorem C09_no_use_after_free_plain : forall ops fuel, 2 * zlen ops + 1 < Z.of_nat fuel ->
  exists s, mem_run no_body fuel ops mem_init = Ok s /\
  forall c v o, cell s c = Some v -> target v = Some o -> live s o.
Proof.
  intros ops fuel H. destruct (plain_run ops fuel H) as (s & E & N & T & _). exists s. split; [auto |].
  intros c v o. apply (i_live _ _ _ (t_inv _ T)).
Qed.
Print Assumptions C09_no_use_after_free_plain.

(** With the defect: the back reference in object 2 leads to the freed field. *)
Theorem C09_store_into_dying_refuted : exists dtor fuel ops s, mem_run dtor fuel ops mem_init = Bad s.
Proof.
  exists weakly_stores_into_parent, 30%nat, (parent_child ++ [MUndef 1; MUndef 3]).
  destruct (mem_run weakly_stores_into_parent 30 (parent_child ++ [MUndef 1; MUndef 3]) mem_init) as [s | s |] eqn:E.
  - lazy in E. discriminate.
  - exists s. reflexivity.
  - lazy in E. discriminate.
Qed.
Print Assumptions C09_store_into_dying_refuted.

(** ** C10: weak references *)

(** Weakening a field whose object has another strong reference: the field
    keeps its object and is weak, the object has one strong reference less, and
    nothing else changes. *)
Theorem C10_weaken_partial : forall dtor s c o fuel, sound dtor s ->
  usable s c = true -> cell s c = Some (Strong o) -> 1 < strong_refs s o ->
  exists s', mem_exec dtor fuel (MWeaken c) s = Ok s' /\
    isweak c s' = true /\ cell s' c = Some (Weak o) /\
    (forall d, d <> c -> cell s' d = cell s d) /\
    (forall p, strong_refs s' p = strong_refs s p - (if p =? o then 1 else 0)) /\
    (forall p, live s' p <-> live s p).
Proof.
  intros dtor s c o fuel H U Hc H1.
  destruct (any_weaken dtor fuel s c o (sound_top _ _ H) U Hc H1) as (s' & E & C & SH).
  exists s'. split; [auto |]. pose proof (cells_upd_cell s s' c _ _ c Hc C) as Cc. rewrite Z.eqb_refl in Cc.
  split; [unfold isweak; rewrite Cc; reflexivity |]. split; [auto |]. split; [| split].
  - intros d Hd. rewrite (cells_upd_cell s s' c _ _ d Hc C). destruct (Z.eqb_spec d c); congruence.
  - intros p. rewrite (cells_upd_refs s s' c _ _ p Hc C). cbn [isS]. rewrite (Z.eqb_sym o p). lia.
  - intros p. apply (shape_live _ _ _ SH).
Qed.
Print Assumptions C10_weaken_partial.

(** Unweakening it makes the reference strong again. *)
Theorem C10_unweaken_partial : forall dtor s c o fuel, sound dtor s ->
  usable s c = true -> cell s c = Some (Weak o) ->
  exists s', mem_exec dtor fuel (MUnweaken c) s = Ok s' /\
    isweak c s' = false /\ cell s' c = Some (Strong o) /\
    (forall d, d <> c -> cell s' d = cell s d) /\
    (forall p, strong_refs s' p = strong_refs s p + (if p =? o then 1 else 0)) /\
    (forall p, live s' p <-> live s p).
Proof.
  intros dtor s c o fuel H U Hc.
  destruct (any_unweaken dtor fuel s c o (sound_top _ _ H) U Hc) as (s' & E & C & SH).
  exists s'. split; [auto |]. pose proof (cells_upd_cell s s' c _ _ c Hc C) as Cc. rewrite Z.eqb_refl in Cc.
  split; [unfold isweak; rewrite Cc; reflexivity |]. split; [auto |]. split; [| split].
  - intros d Hd. rewrite (cells_upd_cell s s' c _ _ d Hc C). destruct (Z.eqb_spec d c); congruence.
  - intros p. rewrite (cells_upd_refs s s' c _ _ p Hc C). cbn [isS]. rewrite (Z.eqb_sym o p). lia.
  - intros p. apply (shape_live _ _ _ SH).
Qed.
Print Assumptions C10_unweaken_partial.

(** Weakening the last strong reference releases the object and the field
    reads undef (or is gone, if it belonged to an object released with it). *)
Theorem C10_weaken_last_plain : forall s c o fuel, sound no_body s -> room fuel s ->
  usable s c = true -> cell s c = Some (Strong o) -> strong_refs s o = 1 ->
  exists s', mem_exec no_body fuel (MWeaken c) s = Ok s' /\ ~ live s' o /\
    (cell s' c = Some Null \/ cell s' c = None).
Proof.
  intros s c o fuel H R U Hc H1. pose proof (sound_top _ _ H) as T.
  destruct (q_weaken fuel s T (proj2 H) R c o U Hc) as (s' & E & F & Q1 & _ & N' & _).
  exists s'. split; [auto |]. split; [| auto]. specialize (Q1 H1). intros (ob & Ho).
  assert (A := top_exec no_body fuel 0 (MWeaken c) s T ltac:(pose proof (top_top s T); lia)).
  apply (post_Ok _ _ _ A E) in N'. destruct N' as (T' & _).
  pose proof (i_rc _ _ _ (t_inv _ T') o ob Ho) as RC. change (pcount o []) with 0 in RC.
  pose proof (obj_bounds _ _ _ Ho). pose proof (i_pos _ _ _ (t_inv _ T') o ob Ho ltac:(lia)).
  destruct (refs_exists s' o ltac:(lia)) as (d & Hd).
  assert (Nd : d <> c) by (intros ->; destruct Q1; congruence).
  assert (cell s d = Some (Strong o)) as Hd0.
  { destruct (Z_lt_dec d (zlen (cells s))) as [L | L].
    2: { destruct (f_new _ _ _ F d _ ltac:(lia) Hd) as [Q | Q]; [congruence | discriminate]. }
    pose proof (cell_bounds _ _ _ Hd). destruct (cell s d) as [v |] eqn:Ev.
    - destruct (f_cell _ _ _ F d v _ Ev Hd) as [Q | [-> | (q & _ & _ & Q)]]; [congruence | auto | discriminate].
    - rewrite (f_dead _ _ _ F d) in Hd; [discriminate | lia | auto]. }
  pose proof (refs_write s c Null _ o Hc) as W. cbn [isS] in W. rewrite Z.eqb_refl in W.
  assert (1 <= strong_refs (write c Null s) o); [| lia]. apply (refs_pos _ o d).
  rewrite cell_write by (apply (cell_bounds _ _ _ Hc)). destruct (Z.eqb_spec d c); [tauto | auto].
Qed.
Print Assumptions C10_weaken_last_plain.

(** No weak reference ever leads to a released object: it reads undef. *)
Theorem C10_weak_target_live_partial : forall dtor s c o, sound dtor s ->
  isweak c s = true -> cell s c = Some (Weak o) -> live s o.
Proof. intros dtor s c o H _ Hc. apply (i_live _ _ _ (t_inv _ (sound_top _ _ H)) c _ o Hc eq_refl). Qed.
Print Assumptions C10_weak_target_live_partial.

(** Exactly the weak fields whose object was released read undef afterwards;
    every other field an operation does not assign keeps its reference and
    stays weak or strong. *)
Theorem C10_weak_fields_plain : forall s op fuel, sound no_body s -> room fuel s ->
  exists s', mem_exec no_body fuel op s = Ok s' /\
  forall c v v', ~ writes op s c -> cell s c = Some v -> cell s' c = Some v' ->
    match v with
    | Weak q => (live s' q -> v' = Weak q) /\ (~ live s' q -> v' = Null)
    | _ => v' = v
    end /\
    (isweak c s' = true <-> isweak c s = true /\ forall q, target v = Some q -> live s' q).
Proof.
  intros s op fuel H R. pose proof (sound_top _ _ H) as T.
  destruct (q_exec fuel op s T (proj2 H) R) as (s' & E & N' & T' & _). exists s'. split; [auto |].
  intros c v v' W Hv Hv'. destruct (q_frame fuel op s s' T (proj2 H) R E c v W Hv) as (Q & _).
  specialize (Q v' Hv'). unfold isweak. rewrite Hv, Hv'.
  assert (LV : forall q, v' = Weak q -> live s' q).
  { intros q ->. apply (i_live _ _ _ (t_inv _ T') c _ q Hv' eq_refl). }
  destruct Q as [-> | (q & -> & Q1 & ->)].
  - destruct v as [| q | q].
    + split; [auto |]. split; [discriminate | intros (Q & _); discriminate].
    + split; [auto |]. split; [discriminate | intros (Q & _); discriminate].
    + specialize (LV q eq_refl). split; [tauto |]. split; [| auto]. intros _. split; [auto |].
      intros p Q. cbn in Q. congruence.
  - split; [tauto |]. split; [discriminate |]. intros (_ & Q). destruct (Q1 (Q q eq_refl)).
Qed.
Print Assumptions C10_weak_fields_plain.

(** The weak back reference of the example reads undef once its object is
    released, while the child that holds it is kept by a variable. *)
Example weak_reads_undef : exists s s', sound no_body s /\ room 30 s /\ cell s 6 = Some (Weak 0) /\
  mem_exec no_body 30 (MUndef 1) s = Ok s' /\ live s' 1 /\ ~ live s' 0 /\ cell s' 6 = Some Null.
Proof.
  assert (exists s, mem_run no_body 30 [MFrame 3; MNew 1 2 false; MNew 2 1 true; MCopy 6 1; MWeaken 6; MCopy 5 2] mem_init = Ok s)
    as (s & E) by (eexists; lazy; reflexivity).
  assert (exists s', mem_exec no_body 30 (MUndef 1) s = Ok s') as (s' & E').
  { lazy in E. injection E as <-. eexists. lazy. reflexivity. }
  exists s, s'. split; [split; [exists 30%nat; eexists; exact E |] |].
  - lazy in E. injection E as <-. intros (o & Q). cbn in Q. intuition discriminate.
  - split; [| split]; [lazy in E; injection E as <-; reflexivity | lazy in E; injection E as <-; reflexivity |].
    split; [auto |]. lazy in E. injection E as <-. lazy in E'. injection E' as <-.
    split; [eexists; reflexivity |]. split; [| reflexivity]. intros (ob & Q). cbn in Q. discriminate.
Qed.

(** ** C11: acyclic garbage is released at once *)

(** At any time, whatever destructors do: an object that strong references
    from variables lead to is live, and a live object that they do not lead to
    is held by a strong cycle. *)
Theorem C11_no_garbage_partial : forall dtor s, sound dtor s -> forall o,
  (reach s o -> live s o) /\
  (live s o -> reach s o \/ exists x, chain s x x /\ chain s x o).
Proof.
  intros dtor s H o. pose proof (t_inv _ (sound_top _ _ H)) as I.
  split; [apply reach_live; auto | apply live_reach; auto].
Qed.
Print Assumptions C11_no_garbage_partial.

(** Without strong cycles the objects released are exactly those that are no
    longer reachable once the reference is gone: for setting a cell to undef,
    for assigning to it, and for leaving a scope. *)
Theorem C11_drop_exact_plain : forall s c fuel, sound no_body s -> room fuel s -> usable s c = true ->
  acyclic (write c Null s) ->
  exists s', mem_exec no_body fuel (MUndef c) s = Ok s' /\
  forall o, live s' o <-> reach (write c Null s) o.
Proof.
  intros s c fuel H R U AC. pose proof (sound_top _ _ H) as T.
  destruct (q_undef fuel s T (proj2 H) R c U) as (s' & E & F & Z0 & N' & _). exists s'. split; [auto |].
  assert (A := top_exec no_body fuel 0 (MUndef c) s T ltac:(pose proof (top_top s T); lia)).
  apply (post_Ok _ _ _ A E) in N'. destruct N' as (T' & _).
  apply usable_cell in U as ((v & Hv) & _). pose proof (cell_bounds _ _ _ Hv) as CB.
  assert (CW : forall d, cell (write c Null s) d = if d =? c then Some Null else cell s d).
  { intros d. apply cell_write; auto. }
  assert (HK : forall d, ~ c = d -> cell (write c Null s) d = cell s d).
  { intros d Hd. rewrite CW. destruct (Z.eqb_spec d c); congruence. }
  assert (HC : forall d, c = d -> cell s' d = cell (write c Null s) d \/ cell s' d = None).
  { intros d <-. rewrite CW, Z.eqb_refl. auto. }
  assert (HS : forall d w, cell (write c Null s) d = Some w -> exists w', cell s d = Some w').
  { intros d w. rewrite CW. destruct (Z.eqb_spec d c); [subst; eauto | eauto]. }
  assert (HD : forall d : Z, c = d \/ ~ c = d) by (intros d; lia).
  intros o. split.
  - intros Ho. destruct (collect_frees (eq c) s s' (write c Null s) (t_inv _ T') F HD eq_refl HK HC HS o Ho) as [Q | (x & Q & _)];
      [auto | destruct (AC x Q)].
  - apply (collect_keeps (eq c) s s' (write c Null s) (t_inv _ T) (t_inv _ T') F HD eq_refl HK HC HS o).
Qed.
Print Assumptions C11_drop_exact_plain.

Theorem C11_assign_exact_plain : forall s dst src v o fuel, sound no_body s -> room fuel s ->
  usable s dst = true -> usable s src = true -> cell s src = Some v -> target v = Some o ->
  acyclic (write dst (Strong o) s) ->
  exists s', mem_exec no_body fuel (MCopy dst src) s = Ok s' /\
  forall p, live s' p <-> reach (write dst (Strong o) s) p.
Proof.
  intros s c src v o fuel H R U U2 Hsrc Ht AC. pose proof (sound_top _ _ H) as T.
  destruct (q_copy fuel s T (proj2 H) R c src v U U2 Hsrc) as (s' & E & F & Z0 & N' & _). exists s'. split; [auto |].
  rewrite Ht in Z0. cbn [newref] in Z0.
  assert (A := top_exec no_body fuel 0 (MCopy c src) s T ltac:(pose proof (top_top s T); lia)).
  apply (post_Ok _ _ _ A E) in N'. destruct N' as (T' & _).
  apply usable_cell in U as ((w & Hw) & _). pose proof (cell_bounds _ _ _ Hw) as CB.
  set (t := write c (Strong o) s) in *.
  assert (CW : forall d, cell t d = if d =? c then Some (Strong o) else cell s d).
  { intros d. apply cell_write; auto. }
  assert (HK : forall d, ~ c = d -> cell t d = cell s d).
  { intros d Hd. rewrite CW. destruct (Z.eqb_spec d c); congruence. }
  assert (HC : forall d, c = d -> cell s' d = cell t d \/ cell s' d = None).
  { intros d <-. rewrite CW, Z.eqb_refl. auto. }
  assert (HS : forall d x, cell t d = Some x -> exists x', cell s d = Some x').
  { intros d x. rewrite CW. destruct (Z.eqb_spec d c); [subst; eauto | eauto]. }
  assert (HD : forall d : Z, c = d \/ ~ c = d) by (intros d; lia).
  intros p. split.
  - intros Hp. destruct (collect_frees (eq c) s s' t (t_inv _ T') F HD eq_refl HK HC HS p Hp) as [Q | (x & Q & _)];
      [auto | destruct (AC x Q)].
  - apply (collect_keeps (eq c) s s' t (t_inv _ T) (t_inv _ T') F HD eq_refl HK HC HS p).
Qed.
Print Assumptions C11_assign_exact_plain.

Theorem C11_leave_exact_plain : forall s lo fuel, sound no_body s -> room fuel s -> 0 <= lo <= m_top s ->
  acyclic (drop_entries lo s) ->
  exists s', mem_exec no_body fuel (MLeave lo) s = Ok s' /\
  forall o, live s' o <-> reach (drop_entries lo s) o.
Proof.
  intros s lo fuel H R Hlo AC. pose proof (sound_top _ _ H) as T.
  destruct (q_leave fuel lo s T (proj2 H) R Hlo) as (s' & E & F & Z0 & N' & _). exists s'. split; [auto |].
  assert (A := top_exec no_body fuel 0 (MLeave lo) s T ltac:(pose proof (top_top s T); lia)).
  apply (post_Ok _ _ _ A E) in N'. destruct N' as (T' & _).
  pose proof (i_mort _ _ _ (t_inv _ T)) as MO. set (t := drop_entries lo s) in *.
  assert (CW : forall d, cell t d = if (m_base s + lo <=? d) && (d <? m_base s + m_top s) then Some Null else cell s d).
  { intros d. unfold t, drop_entries, cell, set_cells. cbn [cells]. rewrite znth_blit by (zlens; lia).
    rewrite zlen_rep. destruct (Z.leb_spec (m_base s + lo) d) as [L1 | L1]; cbn [andb]; auto.
    destruct (Z.ltb_spec d (m_base s + m_top s)) as [L2 | L2].
    - rewrite (proj2 (Z.ltb_lt _ _)) by lia. rewrite znth_rep.
      destruct (Z.leb_spec 0 (d - (m_base s + lo))); [| lia].
      destruct (Z.ltb_spec (d - (m_base s + lo)) (m_top s - lo)); [reflexivity | lia].
    - rewrite (proj2 (Z.ltb_ge _ _)) by lia. reflexivity. }
  set (D := fun d => m_base s + lo <= d < m_base s + m_top s) in *.
  assert (HK : forall d, ~ D d -> cell t d = cell s d).
  { intros d Hd. rewrite CW. unfold D in Hd. destruct (Z.leb_spec (m_base s + lo) d); cbn [andb]; auto.
    destruct (Z.ltb_spec d (m_base s + m_top s)); [lia | auto]. }
  assert (HC : forall d, D d -> cell s' d = cell t d \/ cell s' d = None).
  { intros d Hd. left. rewrite CW, (Z0 d Hd). unfold D in Hd. destruct (Z.leb_spec (m_base s + lo) d); [| lia].
    destruct (Z.ltb_spec d (m_base s + m_top s)); [reflexivity | lia]. }
  assert (HS : forall d x, cell t d = Some x -> exists x', cell s d = Some x').
  { intros d x. rewrite CW. destruct ((m_base s + lo <=? d) && (d <? m_base s + m_top s)) eqn:Ed; [| eauto].
    intros _. destruct (i_mcell _ _ _ (t_inv _ T) d) as (w & Hw & _); [lia | eauto]. }
  assert (HD : forall d : Z, D d \/ ~ D d) by (intros d; unfold D; lia).
  intros o. split.
  - intros Ho. destruct (collect_frees D s s' t (t_inv _ T') F HD eq_refl HK HC HS o Ho) as [Q | (x & Q & _)];
      [auto | destruct (AC x Q)].
  - apply (collect_keeps D s s' t (t_inv _ T) (t_inv _ T') F HD eq_refl HK HC HS o).
Qed.
Print Assumptions C11_leave_exact_plain.

(** With the defect: an object nothing refers to stays although there is no
    cycle. *)
Theorem C11_store_into_dying_refuted : exists dtor s o,
  reached dtor s /\ live s o /\ forall c, cell s c <> Some (Strong o).
Proof.
  exists stores_into_parent.
  destruct (mem_run stores_into_parent 30 (parent_child ++ [MUndef 1; MUndef 3]) mem_init) as [s | s |] eqn:E; [| lazy in E; discriminate | lazy in E; discriminate].
  exists s, 2. split; [exists 30%nat, (parent_child ++ [MUndef 1; MUndef 3]); auto |].
  assert (Q : live s 2 /\ strong_refs s 2 = 0).
  { lazy in E. injection E as <-. split; [eexists; reflexivity | reflexivity]. }
  split; [tauto |]. intros c Hc. apply refs_pos in Hc. lia.
Qed.
Print Assumptions C11_store_into_dying_refuted.

(** A chain of three objects goes at once; the theorem applies to it. *)
Example chain_of_three : exists s s', sound no_body s /\ room 30 s /\ usable s 1 = true /\
  mem_exec no_body 30 (MUndef 1) s = Ok s' /\ live s 0 /\ live s 1 /\ live s 2 /\
  ~ live s' 0 /\ ~ live s' 1 /\ ~ live s' 2.
Proof.
  assert (exists s, mem_run no_body 30 [MFrame 1; MNew 1 1 false; MNew 2 1 false; MNew 3 0 true] mem_init = Ok s)
    as (s & E) by (eexists; lazy; reflexivity).
  assert (exists s', mem_exec no_body 30 (MUndef 1) s = Ok s') as (s' & E').
  { lazy in E. injection E as <-. eexists. lazy. reflexivity. }
  exists s, s'. split; [split; [exists 30%nat; eexists; exact E |] |].
  - lazy in E. injection E as <-. intros (o & Q). cbn in Q. intuition discriminate.
  - lazy in E. injection E as <-. lazy in E'. injection E' as <-.
    split; [reflexivity |]. split; [reflexivity |]. split; [lazy; reflexivity |].
    repeat split; try (eexists; reflexivity); intros (ob & Q); cbn in Q; discriminate.
Qed.

(** ** C12: DESTROY is called exactly once, before the fields go *)

(** Unless it was kept alive by its own destructor: a live object has only
    been made so far; a released one was made, then DESTROY was called once if
    its class has one, with no strong reference left, then each of its fields
    was released once, then its memory was freed. *)
Theorem C12_destroy_once_partial : forall dtor s o, sound dtor s -> ~ In (ESurvive o) (log s) ->
  (forall ob, get_obj s o = Some ob -> story o s = [ENew o (o_base ob) (o_len ob) (o_dtor ob)]) /\
  (0 <= o < zlen (objs s) -> ~ live s o -> exists c n dt, story o s = whole_life o c n dt) /\
  (o < 0 \/ zlen (objs s) <= o -> story o s = []).
Proof.
  intros dtor s o H NS. destruct (t_log _ (sound_top _ _ H) o) as [Q | (Q1 & Q2 & Q3)]; [tauto |].
  split; [| split; [| auto]].
  - intros ob Ho. destruct (Q2 ob Ho) as [[] | Q]. auto.
  - intros Hr NL. apply Q3; auto. destruct (get_obj s o) as [ob |] eqn:E; [| auto]. destruct NL. exists ob. auto.
Qed.
Print Assumptions C12_destroy_once_partial.

Example destroyed_once : exists s, sound no_body s /\ ~ In (ESurvive 0) (log s) /\ ~ live s 0 /\
  story 0 s = whole_life 0 2 1 true.
Proof.
  assert (exists s, mem_run no_body 30 [MFrame 1; MNew 1 1 true; MNew 2 0 true; MUndef 1] mem_init = Ok s)
    as (s & E) by (eexists; lazy; reflexivity).
  exists s. split; [split; [exists 30%nat; eexists; exact E |] |].
  - lazy in E. injection E as <-. intros (o & Q). cbn in Q. intuition discriminate.
  - lazy in E. injection E as <-. split; [cbn; intuition discriminate |].
    split; [intros (ob & Q); cbn in Q; discriminate | reflexivity].
Qed.

(** ** C13: scopes *)

(** Registering an object puts one strong reference on top; every older entry
    and every other cell keeps its value, also when the stack has to grow. *)
Theorem C13_push_mortal_partial : forall dtor s src v o fuel, sound dtor s ->
  usable s src = true -> cell s src = Some v -> target v = Some o ->
  exists s', mem_exec dtor fuel (MPush src) s = Ok s' /\ m_top s' = m_top s + 1 /\
    cell s' (m_base s' + m_top s) = Some (Strong o) /\
    (forall i, 0 <= i < m_top s -> cell s' (m_base s' + i) = cell s (m_base s + i)) /\
    (forall c w, ~ (m_base s <= c < m_base s + m_cap s) -> cell s c = Some w -> cell s' c = Some w) /\
    (forall p, live s' p <-> live s p).
Proof.
  intros dtor s src v o fuel H U Hv Ht.
  destruct (any_push dtor fuel src s o v (sound_top _ _ H) U Hv Ht) as (s' & E & SH & T' & C & M & K).
  exists s'. split; [auto |]. split; [auto |]. split; [auto |]. split; [auto |]. split; [auto |].
  intros p. apply (shape_live _ _ _ SH).
Qed.
Print Assumptions C13_push_mortal_partial.

(** Leaving a scope, whatever destructors run meanwhile: the entries registered
    before are untouched, the later ones hold nothing. *)
Theorem C13_leave_scope_partial : forall dtor s lo fuel s', sound dtor s -> 0 <= lo <= m_top s ->
  mem_exec dtor fuel (MLeave lo) s = Ok s' -> ~ tainted s' ->
  m_top s' = lo /\
  (forall i, 0 <= i < lo -> cell s' (m_base s' + i) = cell s (m_base s + i)) /\
  (forall i, lo <= i < m_cap s' -> cell s' (m_base s' + i) = Some Null).
Proof.
  intros dtor s lo fuel s' H Hlo E N'. pose proof (sound_top _ _ H) as T.
  unfold mem_exec in E. cbn [exec] in E. destruct (Z.leb_spec 0 lo); [| lia].
  destruct (Z.leb_spec lo (m_top s)); [| lia]. cbn [andb] in E.
  assert (A := leave_ok (release dtor fuel) [] [] lo fuel s (release_good _ _)
    ltac:(intros; apply tp_release; auto) (top_ok s T) Hlo).
  apply (post_Ok _ _ _ A E) in N'. destruct N' as (I' & _ & X & M).
  split; [auto |]. split.
  - intros i Hi. apply (e_mort _ _ _ _ X); lia.
  - intros i Hi. destruct (i_mcell _ _ _ I' (m_base s' + i)) as (v & Hv & Q & _); [lia |].
    rewrite Hv, (Q ltac:(lia)). reflexivity.
Qed.
Print Assumptions C13_leave_scope_partial.

(** Nested scopes: a method called with the stack at height h, whatever it
    does, scopes of its own included, and that leaves its scope in the end, has
    not touched the entries below h, and the stack is at height h again. *)
Theorem C13_nested_scopes_partial : forall dtor s ops fuel s', sound dtor s ->
  run (release dtor fuel) fuel (m_top s) (ops ++ [MLeave (m_top s)]) s = Ok s' -> ~ tainted s' ->
  m_top s' = m_top s /\
  forall i, 0 <= i < m_top s -> cell s' (m_base s' + i) = cell s (m_base s + i).
Proof.
  intros dtor s ops fuel s' H E N'. pose proof (sound_top _ _ H) as T. pose proof (top_top s T) as T0.
  assert (A := top_run dtor fuel (m_top s) (ops ++ [MLeave (m_top s)]) s T ltac:(lia)).
  pose proof (post_Ok _ _ _ A E N') as (T' & X).
  split; [| intros i Hi; apply (e_mort _ _ _ _ X); lia].
  assert (RA : forall l s0, run (release dtor fuel) fuel (m_top s) (l ++ [MLeave (m_top s)]) s0 = Ok s' ->
     exists s1, run (release dtor fuel) fuel (m_top s) l s0 = Ok s1 /\
       exec (release dtor fuel) fuel (m_top s) (MLeave (m_top s)) s1 = Ok s').
  { induction l as [| op l IH]; intros s0 E0; cbn [app run] in *.
    - exists s0. split; [auto |]. destruct (exec _ _ _ _ s0); cbn in E0; congruence.
    - destruct (exec (release dtor fuel) fuel (m_top s) op s0) as [s2 | |]; cbn [rbind] in *; try discriminate.
      apply IH. auto. }
  destruct (RA ops s E) as (s1 & E1 & E2).
  assert (N1 : ~ tainted s1).
  { intros Q. apply N'. assert (B := tp_exec (release dtor fuel)
      ltac:(intros; apply tp_release; auto) fuel (m_top s) (MLeave (m_top s)) s1 Q). rewrite E2 in B. exact B. }
  assert (A1 := top_run dtor fuel (m_top s) ops s T ltac:(lia)).
  pose proof (post_Ok _ _ _ A1 E1 N1) as (T1 & X1).
  pose proof (e_top _ _ _ _ X1 ltac:(lia)) as TT.
  cbn [exec] in E2. destruct (Z.leb_spec (m_top s) (m_top s)); [| lia].
  destruct (Z.leb_spec (m_top s) (m_top s1)); [| lia]. cbn [andb] in E2.
  assert (A2 := leave_ok (release dtor fuel) [] [] (m_top s) fuel s1 (release_good _ _)
    ltac:(intros; apply tp_release; auto) (top_ok s1 T1) ltac:(lia)).
  apply (post_Ok _ _ _ A2 E2) in N'. tauto.
Qed.
Print Assumptions C13_nested_scopes_partial.

(** Leaving a scope drops the entries of the scope and nothing else: every
    other cell of an object that is still there is as before, but for weak
    references to released objects. *)
Theorem C13_leave_scope_plain : forall s lo fuel, sound no_body s -> room fuel s -> 0 <= lo <= m_top s ->
  exists s', mem_exec no_body fuel (MLeave lo) s = Ok s' /\ m_top s' = lo /\
    (forall c, m_base s + lo <= c < m_base s + m_top s -> cell s' c = Some Null) /\
    (forall c v, ~ (m_base s + lo <= c < m_base s + m_top s) -> cell s c = Some v ->
       cell s' c = Some v \/
       (exists q, belongs s c q /\ ~ live s' q /\ cell s' c = None) \/
       (exists q, v = Weak q /\ ~ live s' q /\ cell s' c = Some Null)).
Proof.
  intros s lo fuel H R Hlo. pose proof (sound_top _ _ H) as T.
  destruct (q_leave fuel lo s T (proj2 H) R Hlo) as (s' & E & F & Z0 & N' & M). exists s'.
  split; [auto |]. split; [auto |]. split; [auto |]. intros c v Hc Hv.
  destruct (frame_of_fr _ _ _ c v F Hc Hv) as (Q1 & Q2). destruct (cell s' c) as [v' |] eqn:Ec.
  - destruct (Q1 v' eq_refl) as [-> | (q & -> & Q & ->)]; [auto |]. right. right. exists q. auto.
  - destruct (Q2 eq_refl) as (q & Q3 & Q4). right. left. exists q. auto.
Qed.
Print Assumptions C13_leave_scope_plain.

(** Three objects registered in a scope (the stack grows twice), then left. *)
Example scope_of_three : exists s s', sound no_body s /\ room 30 s /\ m_top s = 3 /\ m_cap s = 4 /\
  mem_exec no_body 30 (MLeave 1) s = Ok s' /\ live s' 0 /\ ~ live s' 1 /\ ~ live s' 2.
Proof.
  assert (exists s, mem_run no_body 30 [MFrame 1; MNew 1 1 false; MPush 1; MNew 1 0 false; MPush 1; MNew 1 0 false; MPush 1; MUndef 1] mem_init = Ok s)
    as (s & E) by (eexists; lazy; reflexivity).
  assert (exists s', mem_exec no_body 30 (MLeave 1) s = Ok s') as (s' & E').
  { lazy in E. injection E as <-. eexists. lazy. reflexivity. }
  exists s, s'. split; [split; [exists 30%nat; eexists; exact E |] |].
  - lazy in E. injection E as <-. intros (o & Q). cbn in Q. intuition discriminate.
  - lazy in E. injection E as <-. lazy in E'. injection E' as <-.
    split; [reflexivity |]. split; [reflexivity |]. split; [reflexivity |]. split; [lazy; reflexivity |].
    split; [eexists; reflexivity |]. split; intros (ob & Q); cbn in Q; discriminate.
Qed.
