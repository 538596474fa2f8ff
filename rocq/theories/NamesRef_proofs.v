(** * Proofs about variable names: what is visible *)
From Coq Require Import Lia.
From Verif Require Import Base CLib Dec Type_model Dispatch_model Names_model Names_spec Names_proofs
  NamesSim_proofs NamesStmt_proofs.
Local Open Scope nat_scope.

(** The scopes after some events. *)
Definition step (sc : scopes) (e : event) : scopes :=
  match e with
  | Open => [] :: sc
  | Close => tl sc
  | Decl l x => match sc with [] => [] | s :: sc => ((x, User l) :: s) :: sc end
  | Use _ _ => sc
  end.
Definition st (pre : list event) : scopes := fold_left step pre [].
Lemma st_app pre e : st (pre ++ [e]) = step (st pre) e.
Proof. unfold st. now rewrite fold_left_app. Qed.

(** No block ends that has not begun, and every declaration is in a block. *)
Fixpoint depth (d : nat) (es : list event) : option nat :=
  match es with
  | [] => Some d
  | Open :: es => depth (S d) es
  | Close :: es => match d with 0 => None | S d => depth d es end
  | Decl _ _ :: es => match d with 0 => None | S _ => depth d es end
  | Use _ _ :: es => depth d es
  end.
Lemma depth_app a : forall d b, depth d (a ++ b) = match depth d a with Some d => depth d b | None => None end.
Proof.
  induction a as [| [| | l x | l x] a IH]; intros d b; cbn [app depth]; auto; destruct d; auto.
Qed.
Lemma depth_st pre d : depth 0 pre = Some d -> length (st pre) = d.
Proof.
  revert d. induction pre as [| e pre IH] using rev_ind; intros d H; [cbn in *; congruence |].
  rewrite depth_app in H. destruct (depth 0 pre) as [d' |] eqn:D; [| discriminate].
  specialize (IH d' eq_refl). rewrite st_app.
  destruct e; cbn in H |- *; try (inversion H; subst; auto; fail).
  - destruct d'; inversion H; subst. destruct (st pre); cbn in *; [discriminate | lia].
  - destruct d'; inversion H; subst. destruct (st pre); cbn in *; [discriminate | lia].
Qed.

(** ** Staying in a block *)
Lemma count_app f a b : count f (a ++ b) = count f a + count f b.
Proof. unfold count. now rewrite filter_app, app_length. Qed.

Lemma stays_nil : stays [].
Proof. intros q r E. destruct q; [cbn; lia | discriminate]. Qed.
Lemma stays_snoc es e : stays (es ++ [e]) <-> stays es /\ count is_close (es ++ [e]) <= count is_open (es ++ [e]).
Proof.
  split.
  - intros H. split.
    + intros q r ->. apply (H q (r ++ [e])). now rewrite app_assoc.
    + apply (H (es ++ [e]) []). now rewrite app_nil_r.
  - intros [H H'] q r E. destruct r as [| r0 r] using rev_ind.
    + rewrite app_nil_r in E. now subst.
    + rewrite app_assoc in E. apply app_inj_tail in E. destruct E as [-> _]. now apply (H q r).
Qed.

(** Still visible after [d] more ends of blocks. *)
Definition stays_d (d : nat) (es : list event) : Prop := stays es /\ count is_close es + d <= count is_open es.
Lemma stays_d_0 es : stays_d 0 es <-> stays es.
Proof.
  unfold stays_d. split; [tauto |]. intros H. split; [assumption |].
  specialize (H es []). rewrite app_nil_r in H. specialize (H eq_refl). lia.
Qed.
Definition refers_d (d : nat) (pre : list event) (x : name) (l : nat) : Prop :=
  exists p1 p2, pre = p1 ++ Decl l x :: p2 /\ stays_d d p2 /\
    forall q1 q2 l', p2 = q1 ++ Decl l' x :: q2 -> ~ stays_d d q2.

Lemma refers_d_0 pre x l : refers_d 0 pre x l <-> refers pre x l.
Proof.
  unfold refers_d, refers. split; intros (p1 & p2 & E & V & M); exists p1, p2.
  - split; [assumption |]. split; [exact (proj1 (stays_d_0 _) V) |].
    intros q1 q2 l' Q H. exact (M q1 q2 l' Q (proj2 (stays_d_0 _) H)).
  - split; [assumption |]. split; [exact (proj2 (stays_d_0 _) V) |].
    intros q1 q2 l' Q H. exact (M q1 q2 l' Q (proj1 (stays_d_0 _) H)).
Qed.

Lemma stays_d_snoc d es e :
  stays_d d (es ++ [e]) <->
  match e with
  | Open => match d with 0 => stays_d 0 es | S d => stays_d d es end
  | Close => stays_d (S d) es
  | _ => stays_d d es
  end.
Proof.
  unfold stays_d. rewrite stays_snoc, !count_app.
  assert (W : stays es -> count is_close es <= count is_open es).
  { intros H. apply (H es []). now rewrite app_nil_r. }
  destruct e; unfold count at 2 4 6 8; cbn [filter is_open is_close length];
    try destruct d; intuition lia.
Qed.

Lemma snoc_split {A} (a b : list A) x e y :
  a ++ [e] = b ++ x :: y ->
  (y = [] /\ a = b /\ e = x) \/ (exists y', y = y' ++ [e] /\ a = b ++ x :: y').
Proof.
  intros E. destruct y as [| y0 y _] using rev_ind.
  - left. apply app_inj_tail in E. destruct E. auto.
  - right. exists y. rewrite app_comm_cons, app_assoc in E. apply app_inj_tail in E. destruct E as [-> ->]. auto.
Qed.

(** An event other than a declaration of [x]. *)
Lemma refers_d_snoc d d' pre e x l :
  (forall l', e <> Decl l' x) ->
  (forall es, stays_d d (es ++ [e]) <-> stays_d d' es) ->
  (refers_d d (pre ++ [e]) x l <-> refers_d d' pre x l).
Proof.
  intros N S. split.
  - intros (p1 & p2 & E & V & M). apply snoc_split in E. destruct E as [(-> & -> & ->) | (y & -> & ->)].
    + now destruct (N l).
    + exists p1, y. split; [reflexivity |]. split; [now apply S |].
      intros q1 q2 l' -> H. apply (M q1 (q2 ++ [e]) l'); [now rewrite <- app_assoc | now apply S].
  - intros (p1 & p2 & -> & V & M). exists p1, (p2 ++ [e]).
    split; [now rewrite <- app_assoc |]. split; [now apply S |].
    intros q1 q2 l' E H. apply snoc_split in E. destruct E as [(-> & -> & ->) | (y & -> & ->)].
    + now destruct (N l').
    + apply (M q1 y l' eq_refl). now apply S.
Qed.

Lemma refers_decl d pre l0 x l :
  refers_d d (pre ++ [Decl l0 x]) x l <-> match d with 0 => l = l0 | S d => refers_d (S d) pre x l end.
Proof.
  destruct d as [| d].
  - split.
    + intros (p1 & p2 & E & V & M). apply snoc_split in E. destruct E as [(-> & -> & E) | (y & -> & ->)].
      * congruence.
      * exfalso. apply (M y [] l0 eq_refl). apply stays_d_0, stays_nil.
    + intros ->. exists pre, []. split; [reflexivity |]. split; [apply stays_d_0, stays_nil |].
      intros q1 q2 l' E. destruct q1; discriminate.
  - split.
    + intros (p1 & p2 & E & V & M). apply snoc_split in E. destruct E as [(-> & -> & E) | (y & -> & ->)].
      * destruct V as [_ V]. cbn in V. lia.
      * exists p1, y. split; [reflexivity |]. split; [now apply stays_d_snoc in V |].
        intros q1 q2 l' -> H. apply (M q1 (q2 ++ [Decl l0 x]) l'); [now rewrite <- app_assoc |].
        now apply stays_d_snoc.
    + intros (p1 & p2 & -> & V & M). exists p1, (p2 ++ [Decl l0 x]).
      split; [now rewrite <- app_assoc |]. split; [now apply stays_d_snoc |].
      intros q1 q2 l' E H. apply snoc_split in E. destruct E as [(-> & -> & E) | (y & -> & ->)].
      * destruct H as [_ H]. cbn in H. lia.
      * apply (M q1 y l' eq_refl). now apply stays_d_snoc in H.
Qed.

(** ** Searching the scopes *)
Lemma skipn_tl {A} d (l : list A) : skipn d (tl l) = skipn (S d) l.
Proof. destruct l; [now rewrite skipn_nil | reflexivity]. Qed.

Lemma search_refers pre : forall d x l,
  depth 0 pre <> None ->
  (search (concat (skipn d (st pre))) x = Some (User l) <-> refers_d d pre x l).
Proof.
  induction pre as [| e pre IH] using rev_ind; intros d x l D.
  - cbn. rewrite skipn_nil. cbn. split; [discriminate |]. intros (p1 & p2 & E & _). destruct p1; discriminate.
  - rewrite depth_app in D. destruct (depth 0 pre) as [n |] eqn:DP; [| congruence].
    assert (DP' : Some n <> None) by congruence.
    rewrite st_app. destruct e as [| | l0 y | l0 y]; cbn [step].
    + destruct d as [| d].
      * cbn [skipn concat app]. rewrite (IH 0 x l DP'). symmetry. apply refers_d_snoc; [discriminate |].
        intros es. apply stays_d_snoc.
      * cbn [skipn]. rewrite (IH d x l DP'). symmetry. apply refers_d_snoc; [discriminate |].
        intros es. apply (stays_d_snoc (S d)).
    + rewrite skipn_tl, (IH (S d) x l DP'). symmetry. apply refers_d_snoc; [discriminate |].
      intros es. apply stays_d_snoc.
    + assert (L := depth_st pre n DP). destruct (st pre) as [| s sc] eqn:ES.
      { cbn in L. subst n. cbn in D. congruence. }
      destruct d as [| d].
      * specialize (IH 0 x l DP'). cbn [skipn concat app search] in *. destruct (name_eqb x y) eqn:E.
        -- apply name_eqb_iff in E. subst y. rewrite refers_decl. split; [intros Q; inversion Q; auto | intros ->; auto].
        -- rewrite IH. symmetry. apply refers_d_snoc; [| intros es; apply (stays_d_snoc 0)].
           intros l' Q. inversion Q; subst. rewrite name_eqb_rf in E. discriminate.
      * specialize (IH (S d) x l DP'). cbn [skipn] in *. rewrite IH.
        destruct (name_eqb x y) eqn:E.
        -- apply name_eqb_iff in E. subst y. now rewrite refers_decl.
        -- symmetry. apply refers_d_snoc; [| intros es; apply (stays_d_snoc (S d))].
           intros l' Q. inversion Q; subst. rewrite name_eqb_rf in E. discriminate.
    + rewrite (IH d x l DP'). symmetry. apply refers_d_snoc; [discriminate |].
      intros es. apply stays_d_snoc.
Qed.

(** All labels are numbers of places. *)
Lemma st_user pre : Forall (fun p => is_user (snd p) = true) (concat (st pre)).
Proof.
  induction pre as [| e pre IH] using rev_ind; [constructor |]. rewrite st_app.
  destruct e as [| | l x | l x]; cbn [step]; [exact IH | | | exact IH].
  - destruct (st pre) as [| s sc]; cbn in *; [constructor |]. apply Forall_app in IH. tauto.
  - destruct (st pre) as [| s sc]; cbn in *; [constructor |]. now constructor.
Qed.
Lemma search_In s x l : search s x = Some l -> In (x, l) s.
Proof.
  induction s as [| [y d] s IH]; cbn; [discriminate |]. destruct (name_eqb x y) eqn:E.
  - apply name_eqb_iff in E. intros Q. inversion Q; subst. now left.
  - intros Q. right. auto.
Qed.

(** A name is visible if and only if it refers to something. *)
Lemma stays_dec es : stays es \/ ~ stays es.
Proof.
  induction es as [| e es IH] using rev_ind; [left; apply stays_nil |].
  destruct IH as [H | H].
  - destruct (le_dec (count is_close (es ++ [e])) (count is_open (es ++ [e]))) as [L | L].
    + left. apply stays_snoc. auto.
    + right. intros Q. apply stays_snoc in Q. tauto.
  - right. intros Q. apply stays_snoc in Q. tauto.
Qed.
Lemma last_visible x p : (exists l, refers p x l) \/ (forall l, ~ visible p x l).
Proof.
  induction p as [| e p IH].
  - right. intros l (p1 & p2 & E & _). destruct p1; discriminate.
  - destruct IH as [(l & p1 & p2 & -> & V & M) | N].
    + left. exists l, (e :: p1), p2. auto.
    + assert (D : (exists l, e = Decl l x) \/ (forall l, e <> Decl l x)).
      { destruct e as [| | l y | l y]; try (right; discriminate).
        destruct (list_eq_dec Z.eq_dec y x) as [-> | NE]; [left; eauto | right; congruence]. }
      destruct D as [(l & ->) | D], (stays_dec p) as [H | H].
      * left. exists l, [], p. split; [reflexivity |]. split; [assumption |].
        intros q1 q2 l' Q Hq. apply (N l'). exists q1, q2. auto.
      * right. intros l' (p1 & p2 & E & V). destruct p1 as [| e1 p1]; inversion E; subst; [auto |].
        apply (N l'). exists p1, p2. auto.
      * right. intros l' (p1 & p2 & E & V). destruct p1 as [| e1 p1]; inversion E; subst; [now apply (D l') |].
        apply (N l'). exists p1, p2. auto.
      * right. intros l' (p1 & p2 & E & V). destruct p1 as [| e1 p1]; inversion E; subst; [now apply (D l') |].
        apply (N l'). exists p1, p2. auto.
Qed.
Lemma visible_refers pre x : (exists l, visible pre x l) <-> (exists l, refers pre x l).
Proof.
  split.
  - intros (l & V). destruct (last_visible x pre) as [R | N]; [assumption |]. now destruct (N l).
  - intros (l & p1 & p2 & E & V & _). exists l, p1, p2. auto.
Qed.

(** ** Declarations in the same block *)
Definition in_block_d (d : nat) (pre : list event) (x : name) : Prop :=
  exists p1 p2 l, pre = p1 ++ Decl l x :: p2 /\ stays p2 /\ count is_close p2 + d = count is_open p2.

Lemma in_block_snoc d d' pre e x :
  (forall l', e <> Decl l' x) ->
  (forall es, (stays (es ++ [e]) /\ count is_close (es ++ [e]) + d = count is_open (es ++ [e]))
              <-> (stays es /\ count is_close es + d' = count is_open es)) ->
  (in_block_d d (pre ++ [e]) x <-> in_block_d d' pre x).
Proof.
  intros N S. split.
  - intros (p1 & p2 & l & E & V). apply snoc_split in E. destruct E as [(-> & -> & ->) | (y & -> & ->)].
    + now destruct (N l).
    + exists p1, y, l. split; [reflexivity |]. now apply S.
  - intros (p1 & p2 & l & -> & V). exists p1, (p2 ++ [e]), l. split; [now rewrite <- app_assoc |]. now apply S.
Qed.
Lemma in_block_cond d es e d' :
  match e with Open => d = S d' | Close => d' = S d | _ => d' = d end ->
  (stays (es ++ [e]) /\ count is_close (es ++ [e]) + d = count is_open (es ++ [e]))
  <-> (stays es /\ count is_close es + d' = count is_open es).
Proof.
  intros H. rewrite stays_snoc, !count_app.
  assert (W : stays es -> count is_close es <= count is_open es).
  { intros Q. apply (Q es []). now rewrite app_nil_r. }
  destruct e; subst; unfold count at 2 4 6 8; cbn [filter is_open is_close length]; intuition lia.
Qed.

Lemma has_block pre : forall d x,
  depth 0 pre <> None -> (has (nth d (st pre) []) x = true <-> in_block_d d pre x).
Proof.
  induction pre as [| e pre IH] using rev_ind; intros d x D.
  - cbn. destruct d; cbn; (split; [discriminate |]); intros (p1 & p2 & l & E & _); destruct p1; discriminate.
  - rewrite depth_app in D. destruct (depth 0 pre) as [n |] eqn:DP; [| congruence].
    assert (DP' : Some n <> None) by congruence.
    rewrite st_app. destruct e as [| | l0 y | l0 y]; cbn [step].
    + destruct d as [| d]; cbn [nth].
      * cbn. split; [discriminate |]. intros (p1 & p2 & l & E & V & C).
        apply snoc_split in E. destruct E as [(-> & -> & Q) | (z & -> & ->)]; [discriminate |].
        apply stays_snoc in V. destruct V as [V V']. rewrite !count_app in *. cbn in C, V'.
        specialize (V z []). rewrite app_nil_r in V. specialize (V eq_refl). lia.
      * rewrite (IH d x DP'). symmetry. apply in_block_snoc; [discriminate |].
        intros es. now apply (in_block_cond (S d) es Open d).
    + assert (E : nth d (tl (st pre)) [] = nth (S d) (st pre) []).
      { destruct (st pre); [destruct d; reflexivity | reflexivity]. }
      rewrite E, (IH (S d) x DP'). symmetry. apply in_block_snoc; [discriminate |].
      intros es. now apply in_block_cond.
    + assert (L := depth_st pre n DP). destruct (st pre) as [| s sc] eqn:ES.
      { cbn in L. subst n. cbn in D. congruence. }
      destruct d as [| d].
      * specialize (IH 0 x DP'). cbn [nth has] in *. destruct (name_eqb x y) eqn:E.
        -- apply name_eqb_iff in E. subst y. split; [| reflexivity]. intros _.
           exists pre, [], l0. split; [reflexivity |]. split; [apply stays_nil | reflexivity].
        -- cbn [orb]. rewrite IH. symmetry. apply in_block_snoc.
           ++ intros l' Q. inversion Q; subst. rewrite name_eqb_rf in E. discriminate.
           ++ intros es. now apply (in_block_cond 0 es (Decl l0 y) 0).
      * specialize (IH (S d) x DP'). cbn [nth] in *. rewrite IH.
        destruct (name_eqb x y) eqn:E.
        -- apply name_eqb_iff in E. subst y. split.
           ++ intros (p1 & p2 & l & -> & V). exists p1, (p2 ++ [Decl l0 x]), l.
              split; [now rewrite <- app_assoc |]. now apply (in_block_cond (S d) p2 (Decl l0 x) (S d)).
           ++ intros (p1 & p2 & l & Q & V & C). apply snoc_split in Q. destruct Q as [(-> & -> & Q) | (z & -> & ->)].
              ** cbn in C. discriminate.
              ** exists p1, z, l. split; [reflexivity |]. now apply (in_block_cond (S d) z (Decl l0 x) (S d)).
        -- symmetry. apply in_block_snoc.
           ++ intros l' Q. inversion Q; subst. rewrite name_eqb_rf in E. discriminate.
           ++ intros es. now apply (in_block_cond (S d) es (Decl l0 y) (S d)).
    + rewrite (IH d x DP'). symmetry. apply in_block_snoc; [discriminate |].
      intros es. now apply in_block_cond.
Qed.
