(** * The invariant of the object memory *)
From Verif Require Import Base Mem_model Mem_spec Mem_proofs.

(** ** Sums *)
Lemma wsum_app {A} (w : A -> Z) l l' : wsum w (l ++ l') = wsum w l + wsum w l'.
Proof. induction l; cbn; lia. Qed.
Lemma wsum_zero {A} (w : A -> Z) l : (forall x, In x l -> w x = 0) -> wsum w l = 0.
Proof.
  induction l as [| x l IH]; cbn; intros H; auto.
  rewrite (H x), IH by auto. reflexivity.
Qed.
Lemma wsum_rep {A} (w : A -> Z) n x : w x = 0 -> wsum w (zrep n x) = 0.
Proof. intros H. apply wsum_zero. intros y Hy. apply repeat_spec in Hy. congruence. Qed.
Lemma wsum_nonneg {A} (w : A -> Z) l : (forall x, 0 <= w x) -> 0 <= wsum w l.
Proof. intros H. induction l as [| x l IH]; cbn; [lia |]. specialize (H x). lia. Qed.
Lemma wsum_pos {A} (w : A -> Z) l x : (forall x, 0 <= w x) -> In x l -> w x <= wsum w l.
Proof.
  intros H. induction l as [| y l IH]; cbn; [tauto |]. pose proof (wsum_nonneg w l H).
  intros [-> | Hx]; [lia |]. specialize (IH Hx). specialize (H y). lia.
Qed.
Lemma wsum_exists {A} (w : A -> Z) l : 0 < wsum w l -> exists i x, znth l i = Some x /\ w x <> 0.
Proof.
  induction l as [| y l IH]; cbn; [lia |]. intros H.
  destruct (Z.eq_dec (w y) 0) as [E | E].
  - destruct IH as (i & x & Hi & Hx); [lia |]. exists (i + 1), x. split; auto.
    pose proof (znth_Some _ _ _ Hi). rewrite znth_cons.
    destruct (Z.eqb_spec (i + 1) 0); [lia |]. replace (i + 1 - 1) with i by lia. auto.
  - exists 0, y. auto.
Qed.
Lemma zsplit {A} (l : list A) i x : znth l i = Some x -> l = ztake i l ++ x :: zdrop (i + 1) l.
Proof.
  intros H. rewrite <- (ztake_zdrop i l) at 1. f_equal. apply zdrop_cons. auto.
Qed.
Lemma wsum_upd {A} (w : A -> Z) l i x y :
  znth l i = Some x -> wsum w (zupd l i y) = wsum w l - w x + w y.
Proof.
  intros H. pose proof (znth_Some _ _ _ H). unfold zupd.
  destruct (Z.leb_spec 0 i); [| lia]. destruct (Z.ltb_spec i (zlen l)); [| lia]. cbn [andb].
  rewrite (zsplit l i x H) at 3. rewrite !wsum_app. cbn. lia.
Qed.
Lemma wsum_sub {A} (w : A -> Z) l b n : 0 <= b -> 0 <= n -> b + n <= zlen l ->
  forall y, wsum w (zblit l b (zrep n y)) = wsum w l - wsum w (zsub l b n) + n * w y.
Proof.
  intros Hb Hn Hl y. unfold zblit. rewrite zlen_rep, Z.max_r by lia.
  assert (E : l = ztake b l ++ zsub l b n ++ zdrop (b + n) l).
  { rewrite <- (ztake_zdrop b l) at 1. f_equal. unfold zsub.
    rewrite <- (ztake_zdrop n (zdrop b l)) at 1. f_equal. rewrite zdrop_zdrop. f_equal. lia. }
  rewrite E at 3. rewrite !wsum_app.
  assert (R : wsum w (zrep n y) = n * w y).
  { unfold zrep. rewrite <- (Z2Nat.id n) at 2 by lia. induction (Z.to_nat n); cbn [repeat wsum]; lia. }
  lia.
Qed.

(** ** Reading after writing *)
Lemma cell_bounds s c v : cell s c = Some v -> 0 <= c < zlen (cells s).
Proof. unfold cell. destruct (znth (cells s) c) eqn:E; [| discriminate]. intros _. eapply znth_Some; eauto. Qed.
Lemma cell_znth s c v : cell s c = Some v -> znth (cells s) c = Some (Some v).
Proof. unfold cell. destruct (znth (cells s) c) as [[] |]; congruence. Qed.
Lemma obj_bounds s o ob : get_obj s o = Some ob -> 0 <= o < zlen (objs s).
Proof. unfold get_obj. destruct (znth (objs s) o) eqn:E; [| discriminate]. intros _. eapply znth_Some; eauto. Qed.
Lemma obj_znth s o ob : get_obj s o = Some ob -> znth (objs s) o = Some (Some ob).
Proof. unfold get_obj. destruct (znth (objs s) o) as [[] |]; congruence. Qed.

Lemma cell_write s c v d : 0 <= c < zlen (cells s) ->
  cell (write c v s) d = if d =? c then Some v else cell s d.
Proof.
  intros H. unfold cell, write, set_cells. cbn [cells]. rewrite znth_upd.
  destruct (Z.eqb_spec d c); [| reflexivity]. subst.
  destruct (Z.leb_spec 0 c); [| lia]. destruct (Z.ltb_spec c (zlen (cells s))); [| lia]. reflexivity.
Qed.
Lemma obj_put s o ob p : 0 <= o < zlen (objs s) ->
  get_obj (put_obj o ob s) p = if p =? o then Some ob else get_obj s p.
Proof.
  intros H. unfold get_obj, put_obj, set_objs. cbn [objs]. rewrite znth_upd.
  destruct (Z.eqb_spec p o); [| reflexivity]. subst.
  destruct (Z.leb_spec 0 o); [| lia]. destruct (Z.ltb_spec o (zlen (objs s))); [| lia]. reflexivity.
Qed.

Definition isS (o : Z) (v : ref) : Z := match v with Strong p => if p =? o then 1 else 0 | _ => 0 end.

Lemma refs_write s c v old o : cell s c = Some old ->
  strong_refs (write c v s) o = strong_refs s o - isS o old + isS o v.
Proof.
  intros H. unfold strong_refs, write, set_cells. cbn [cells].
  erewrite wsum_upd by (apply cell_znth; eauto).
  unfold isS. destruct old, v; lia.
Qed.
Lemma refs_nonneg s o : 0 <= strong_refs s o.
Proof. apply wsum_nonneg. intros [[| p |] |]; try lia. destruct (p =? o); lia. Qed.
Lemma refs_pos s o c : cell s c = Some (Strong o) -> 1 <= strong_refs s o.
Proof.
  intros H. apply cell_znth, znth_In in H. unfold strong_refs.
  match goal with |- 1 <= wsum ?w _ => pose proof (wsum_pos w (cells s) (Some (Strong o))) as P end.
  cbn beta iota in P. rewrite Z.eqb_refl in P. apply P; auto.
  intros [[| p |] |]; try lia. destruct (p =? o); lia.
Qed.

Lemma refs_exists s o : 0 < strong_refs s o -> exists c, cell s c = Some (Strong o).
Proof.
  intros H. unfold strong_refs in H. apply wsum_exists in H. destruct H as (i & x & Hi & Hx).
  exists i. unfold cell. rewrite Hi. destruct x as [[| q |] |]; try (destruct (Hx eq_refl)).
  destruct (Z.eqb_spec q o); [congruence | destruct (Hx eq_refl)].
Qed.

(** ** Pending objects: a reference to them was dropped, and their count not
    yet decreased. *)
Definition pcount (o : Z) (P : list Z) : Z := Z.of_nat (count_occ Z.eq_dec P o).
Lemma pcount_cons o p P : pcount o (p :: P) = (if p =? o then 1 else 0) + pcount o P.
Proof.
  unfold pcount. cbn. destruct (Z.eq_dec p o); destruct (Z.eqb_spec p o); try congruence; lia.
Qed.
Lemma pcount_nonneg o P : 0 <= pcount o P.
Proof. unfold pcount. lia. Qed.
Lemma pcount_In o P : In o P <-> 1 <= pcount o P.
Proof. unfold pcount. rewrite (count_occ_In Z.eq_dec). lia. Qed.

Definition weight (x : option obj) : Z := match x with Some ob => 1 + zlen (o_back ob) | None => 0 end.

(** The invariant.  [z]: an object just made, not yet stored anywhere ([-1]:
    none).  [P]: the pending objects. *)
Record invz (z : Z) (P : list Z) (s : mem) : Prop := mk_inv {
  i_live : forall c v o, cell s c = Some v -> target v = Some o -> live s o;
  i_pend : forall o, In o P -> live s o;
  i_rc : forall o ob, get_obj s o = Some ob -> o_rc ob = strong_refs s o + pcount o P;
  i_pos : forall o ob, get_obj s o = Some ob -> o <> z -> 1 <= o_rc ob;
  i_back : forall o ob, get_obj s o = Some ob ->
             NoDup (o_back ob) /\ forall c, In c (o_back ob) <-> cell s c = Some (Weak o);
  i_own : forall c o, belongs s c o -> exists v, cell s c = Some v;
  i_range : forall o ob, get_obj s o = Some ob ->
             0 <= o_base ob /\ 0 <= o_len ob /\ o_base ob + o_len ob <= zlen (cells s);
  i_disj : forall c o o', belongs s c o -> belongs s c o' -> o = o';
  i_mort : 0 <= m_base s /\ 0 <= m_top s <= m_cap s /\ 1 <= m_cap s /\ m_base s + m_cap s <= zlen (cells s);
  i_mown : forall c o, belongs s c o -> ~ m_base s <= c < m_base s + m_cap s;
  i_mcell : forall c, m_base s <= c < m_base s + m_cap s ->
             exists v, cell s c = Some v /\ (m_base s + m_top s <= c -> v = Null) /\ forall o, v <> Weak o;
  i_blocks : blocks s = wsum weight (objs s) + 1
}.
Notation inv := (invz (-1)).
(** Objects whose fields are being cleared are pending. *)
Definition dok (P : list Z) (s : mem) : Prop := forall o, In o (dying s) -> In o P.

(** A variable: a cell of no object, not in the mortal stack. *)
Definition var (s : mem) (c : Z) : Prop :=
  (exists v, cell s c = Some v) /\ root s c /\ ~ (m_base s <= c < m_base s + m_cap s).

(** What an operation leaves alone.  [f]: the number of mortal stack entries
    it does not touch.  [B]: the objects whose release has begun. *)
Record ext (B : list Z) (f : Z) (s s' : mem) : Prop := mk_ext {
  e_cells : zlen (cells s) <= zlen (cells s');
  e_objs : zlen (objs s) <= zlen (objs s');
  e_obj : forall o ob', get_obj s' o = Some ob' -> o < zlen (objs s) ->
            exists ob, get_obj s o = Some ob /\ o_base ob' = o_base ob /\ o_len ob' = o_len ob /\
              o_dtor ob' = o_dtor ob;
  e_cell : forall c v, cell s' c = Some v -> c < zlen (cells s) -> exists v', cell s c = Some v';
  e_dying : dying s' = dying s;
  e_pend : forall o, In o (dying s) -> live s o -> live s' o;
  e_null : forall o c, In o (dying s) -> belongs s c o -> cell s c = Some Null -> cell s' c = Some Null;
  e_top : f <= m_top s -> f <= m_top s';
  e_mort : forall i, 0 <= i < f -> i < m_top s -> cell s' (m_base s' + i) = cell s (m_base s + i);
  e_var : forall c, var s c -> var s' c;
  e_story : forall o, In o B -> story o s' = story o s;
  e_log : exists l, log s' = log s ++ l
}.

Lemma ext_refl B f s : ext B f s s.
Proof.
  constructor; auto; try lia.
  - intros o ob H _. eauto 6.
  - eauto.
  - exists []. rewrite app_nil_r. reflexivity.
Qed.

Lemma ext_belongs B f s s' c o : ext B f s s' -> live s' o -> belongs s c o -> belongs s' c o.
Proof.
  intros E (ob' & H') (ob & H & R). exists ob'. split; auto.
  destruct (e_obj _ _ _ _ E o ob' H') as (ob1 & H1 & E1 & E2 & _).
  { apply (obj_bounds _ _ _ H). }
  rewrite H in H1. injection H1 as <-. rewrite E1, E2. auto.
Qed.

Lemma ext_trans B f s1 s2 s3 : f <= m_top s1 -> ext B f s1 s2 -> ext B f s2 s3 -> ext B f s1 s3.
Proof.
  intros Hf EA EB. destruct EA as [a1 a2 a3 a4 a5 a6 a7 a8 a9 a12 a11 (l1 & a10)].
  destruct EB as [b1 b2 b3 b4 b5 b6 b7 b8 b9 b12 b11 (l2 & b10)]. constructor; try lia.
  - intros o ob' H Ho. destruct (b3 o ob' H) as (ob2 & H2 & E1 & E2 & E3); [lia |].
    destruct (a3 o ob2 H2) as (ob1 & H1 & F1 & F2 & F3); auto. exists ob1. repeat split; auto; congruence.
  - intros c v H Hc. destruct (b4 c v H) as (v2 & H2); [lia |]. apply (a4 c v2 H2). auto.
  - congruence.
  - intros o Ho Hl. apply b6; [rewrite a5; auto | auto].
  - intros o c Ho Hb Hc. apply b7 with o; [rewrite a5; auto | | eauto].
    eapply ext_belongs; [| | eauto]; [exact (mk_ext _ _ _ _ a1 a2 a3 a4 a5 a6 a7 a8 a9 a12 a11 (ex_intro _ l1 a10)) |].
    apply a6; auto. destruct Hb as (ob & Hb & _). exists ob. auto.
  - intros i Hi Ht. rewrite b9; auto. specialize (a8 ltac:(lia)). lia.
  - auto.
  - intros o Ho. rewrite b11, a11; auto.
  - exists (l1 ++ l2). rewrite b10, a10. apply app_assoc_reverse.
Qed.

Lemma ext_weaken B B' f f' s s' : f' <= f -> incl B' B -> ext B f s s' ->
  (f' <= m_top s -> f' <= m_top s') -> ext B' f' s s'.
Proof.
  intros Hf Hi E Ht. destruct E. constructor; auto. intros i Hi'. apply e_mort0. lia.
Qed.

(** The same objects, with the same fields. *)
Definition shape (s s' : mem) : Prop :=
  zlen (objs s') = zlen (objs s) /\ forall p, match get_obj s p, get_obj s' p with
            | Some ob, Some ob' => o_base ob' = o_base ob /\ o_len ob' = o_len ob /\ o_dtor ob' = o_dtor ob
            | None, None => True
            | _, _ => False
            end.
Lemma shape_live s s' o : shape s s' -> (live s' o <-> live s o).
Proof.
  intros (_ & H). specialize (H o). unfold live. destruct (get_obj s o), (get_obj s' o); try tauto; split; eauto.
Qed.
Lemma shape_belongs s s' d o : shape s s' -> (belongs s' d o <-> belongs s d o).
Proof.
  intros (_ & H). specialize (H o). unfold belongs.
  destruct (get_obj s o) as [ob |], (get_obj s' o) as [ob' |]; try tauto.
  destruct H as (E1 & E2 & _). split; intros (ob1 & Q1 & Q2); injection Q1 as <-; eexists; (split; [reflexivity |]); lia.
Qed.
Lemma shape_refl s : shape s s.
Proof. split; auto. intros p. destruct (get_obj s p); auto. Qed.
Lemma shape_trans s1 s2 s3 : shape s1 s2 -> shape s2 s3 -> shape s1 s3.
Proof.
  intros (A1 & A2) (B1 & B2). split; [congruence |]. intros p. specialize (A2 p). specialize (B2 p).
  destruct (get_obj s1 p), (get_obj s2 p), (get_obj s3 p); try tauto. intuition congruence.
Qed.


(** ** One cell changes *)
Section Step.
  Variables (z z' : Z) (P P' : list Z) (s s' : mem) (c : Z) (old new : ref).
  Hypothesis I : invz z P s.
  Hypothesis Hc : cell s c = Some old.
  Hypothesis Hcells : cells s' = zupd (cells s) c (Some new).
  Hypothesis Hobjs : zlen (objs s') = zlen (objs s).
  Hypothesis Hobj : forall p,
    match get_obj s p, get_obj s' p with
    | Some ob, Some ob' =>
        o_base ob' = o_base ob /\ o_len ob' = o_len ob /\ o_dtor ob' = o_dtor ob /\
        o_rc ob' = o_rc ob - isS p old + isS p new + pcount p P' - pcount p P /\ (p <> z' -> 1 <= o_rc ob') /\
        NoDup (o_back ob') /\
        forall d, In d (o_back ob') <-> (d = c /\ new = Weak p) \/ (d <> c /\ In d (o_back ob))
    | None, None => True
    | _, _ => False
    end.
  Hypothesis Hm : m_base s' = m_base s /\ m_top s' = m_top s /\ m_cap s' = m_cap s.

  Lemma step_cell d : cell s' d = if d =? c then Some new else cell s d.
  Proof using Hc Hcells.
    pose proof (cell_bounds _ _ _ Hc). unfold cell. rewrite Hcells, znth_upd.
    destruct (Z.eqb_spec d c); [| reflexivity]. subst.
    destruct (Z.leb_spec 0 c); [| lia]. destruct (Z.ltb_spec c (zlen (cells s))); [| lia]. reflexivity.
  Qed.
  Lemma step_len : zlen (cells s') = zlen (cells s).
  Proof using Hcells. rewrite Hcells. apply zlen_upd. Qed.
  Lemma step_live o : live s' o <-> live s o.
  Proof using Hobj.
    clear Hm. specialize (Hobj o). unfold live. destruct (get_obj s o), (get_obj s' o); try tauto; split; eauto.
    all: intros (? & ?); discriminate.
  Qed.
  Lemma step_belongs d o : belongs s' d o <-> belongs s d o.
  Proof using Hobj.
    clear Hm. specialize (Hobj o). unfold belongs. destruct (get_obj s o) as [ob |], (get_obj s' o) as [ob' |]; try tauto.
    - destruct Hobj as (E1 & E2 & _). split; intros (ob1 & Q1 & Q2); injection Q1 as <-; eexists; (split; [reflexivity |]); lia.
  Qed.
  Lemma step_refs o : strong_refs s' o = strong_refs s o - isS o old + isS o new.
  Proof using Hc Hcells.
    rewrite <- (refs_write s c new old o Hc). unfold strong_refs. rewrite Hcells. reflexivity.
  Qed.

  Lemma step_inv :
    blocks s' = wsum weight (objs s') + 1 ->
    (forall o, target new = Some o -> live s o) ->
    (forall o, In o P' -> live s o) ->
    (m_base s <= c < m_base s + m_cap s -> (forall o, new <> Weak o) /\ (m_base s + m_top s <= c -> new = Null)) ->
    invz z' P' s'.
  Proof.
    intros Hb Hn HP Hmo. destruct Hm as (Hm1 & Hm2 & Hm3). constructor.
    - intros d v o Hd Ht. rewrite step_cell in Hd. apply step_live. destruct (d =? c).
      + injection Hd as <-. eauto.
      + eapply i_live; eauto.
    - intros o Ho. apply step_live; auto.
    - intros o ob' Ho. specialize (Hobj o). rewrite Ho in Hobj.
      destruct (get_obj s o) as [ob |] eqn:Eo; [| tauto].
      destruct Hobj as (_ & _ & _ & E & _). rewrite E, step_refs, (i_rc _ _ _ I o ob Eo). lia.
    - intros o ob' Ho Hz'. specialize (Hobj o). rewrite Ho in Hobj.
      destruct (get_obj s o) as [ob |] eqn:Eo; [| tauto]. tauto.
    - intros o ob' Ho. specialize (Hobj o). rewrite Ho in Hobj.
      destruct (get_obj s o) as [ob |] eqn:Eo; [| tauto].
      destruct Hobj as (_ & _ & _ & _ & _ & ND & E). split; auto. intros d.
      rewrite E, step_cell. destruct (i_back _ _ _ I o ob Eo) as (_ & F). rewrite F.
      destruct (Z.eqb_spec d c).
      + subst. split; [intros [[_ ->] | [N _]]; congruence | intros Q; injection Q as ->; auto].
      + split; [intros [[N _] | [_ Q]]; congruence | auto].
    - intros d o Hd. rewrite step_belongs in Hd. rewrite step_cell. destruct (d =? c); eauto. eapply i_own; eauto.
    - intros o ob' Ho. specialize (Hobj o). rewrite Ho in Hobj. rewrite step_len.
      destruct (get_obj s o) as [ob |] eqn:Eo; [| tauto].
      destruct Hobj as (-> & -> & _). eapply i_range; eauto.
    - intros d o o'. rewrite !step_belongs. apply (i_disj _ _ _ I).
    - rewrite step_len, Hm1, Hm2, Hm3. eapply i_mort; eauto.
    - intros d o. rewrite step_belongs, Hm1, Hm3. apply (i_mown _ _ _ I).
    - intros d. rewrite Hm1, Hm2, Hm3. intros Hd. rewrite step_cell. destruct (Z.eqb_spec d c).
      + subst. exists new. destruct (Hmo Hd); auto.
      + apply (i_mcell _ _ _ I). auto.
    - auto.
  Qed.

  Lemma step_shape : shape s s'.
  Proof using Hobj Hobjs.
    clear Hm. split; auto. intros p. specialize (Hobj p). destruct (get_obj s p), (get_obj s' p); tauto.
  Qed.

  Lemma step_ext B f :
    dying s' = dying s -> log s' = log s ->
    ~ (m_base s <= c < m_base s + Z.min f (m_top s)) ->
    (old = Null -> new = Null \/ forall o, In o (dying s) -> ~ belongs s c o) ->
    ext B f s s'.
  Proof.
    intros Hd Hl Hf Hn. destruct Hm as (Hm1 & Hm2 & Hm3). constructor.
    - rewrite step_len. lia.
    - lia.
    - intros o ob' Ho _. specialize (Hobj o). rewrite Ho in Hobj.
      destruct (get_obj s o) as [ob |] eqn:Eo; [| tauto]. exists ob. tauto.
    - intros d v H _. rewrite step_cell in H. destruct (Z.eqb_spec d c); subst; eauto.
    - auto.
    - intros o _. apply step_live.
    - intros o d Ho Hb Hd0. rewrite step_cell. destruct (Z.eqb_spec d c); auto. subst.
      rewrite Hc in Hd0. injection Hd0 as ->. destruct (Hn eq_refl) as [-> | Q]; auto.
      destruct (Q o Ho Hb).
    - lia.
    - intros i Hi Ht. rewrite Hm1, step_cell. destruct (Z.eqb_spec (m_base s + i) c); auto. lia.
    - intros d (Q1 & Q2 & Q3). unfold var, root. rewrite Hm1, Hm3, step_cell. split; [| split; [| auto]].
      + destruct (d =? c); eauto.
      + intros o. rewrite step_belongs. apply Q2.
    - intros o _. unfold story. rewrite Hl. reflexivity.
    - exists []. rewrite app_nil_r. auto.
  Qed.
End Step.

Lemma remove_first_In c l : NoDup l -> In c l ->
  exists l', remove_first c l = (l', true) /\ NoDup l' /\ zlen l' = zlen l - 1 /\
    forall d, In d l' <-> d <> c /\ In d l.
Proof.
  induction l as [| x l IH]; intros ND H; [destruct H |]. inversion ND as [| ? ? Hx ND']; subst. cbn.
  destruct (Z.eqb_spec x c).
  - subst. exists l. repeat split; auto. { rewrite zlen_cons. lia. }
    + intros ->; auto.
    + intros [N [-> | Q]]; congruence.
  - destruct H as [-> | H]; [congruence |]. destruct (IH ND' H) as (l' & -> & ND2 & L & E).
    exists (x :: l'). repeat split.
    + constructor; auto. rewrite E. tauto.
    + rewrite !zlen_cons. lia.
    + destruct H0 as [-> | Q]; [auto | apply E in Q; tauto].
    + destruct H0 as [-> | Q]; [auto | apply E in Q; cbn; tauto].
    + intros [N [-> | Q]]; cbn; auto. right. apply E. auto.
Qed.

(** ** unweaken *)
Definition strengthen (v : ref) : ref := match v with Weak o => Strong o | _ => v end.

Lemma unweaken_step z P s c v : invz z P s -> cell s c = Some v ->
  exists s', unweaken c s = Ok s' /\ invz z P s' /\
    cells s' = zupd (cells s) c (Some (strengthen v)) /\
    (forall B f, ~ (m_base s <= c < m_base s + m_cap s) -> ext B f s s') /\
    ((forall o, v <> Weak o) -> s' = s) /\
    log s' = log s /\ dying s' = dying s /\ m_base s' = m_base s /\ m_top s' = m_top s /\ m_cap s' = m_cap s /\
    shape s s'.
Proof.
  intros I Hc. unfold unweaken. rewrite Hc.
  assert (T : (forall o, v <> Weak o) -> zupd (cells s) c (Some v) = cells s).
  { intros _. pose proof (cell_znth _ _ _ Hc) as E. pose proof (cell_bounds _ _ _ Hc). apply znth_ext.
    intros i. rewrite znth_upd. destruct (Z.eqb_spec i c); [| reflexivity]. subst.
    destruct (Z.leb_spec 0 c); [| lia]. destruct (Z.ltb_spec c (zlen (cells s))); [| lia]. auto. }
  destruct v as [| o | o]; cbn [strengthen].
  1, 2: exists s; rewrite T by congruence; intuition auto using ext_refl, shape_refl; try congruence.
  destruct (i_live _ _ _ I c _ o Hc eq_refl) as (ob & Hob). rewrite Hob.
  destruct (i_back _ _ _ I o ob Hob) as (ND & B). pose proof (proj2 (B c) Hc) as Bc.
  destruct (o_back ob) as [| b0 bl] eqn:Eb; [destruct Bc |]. rewrite <- Eb in *. clear b0 bl Eb.
  pose proof (i_rc _ _ _ I o ob Hob) as RC. pose proof (refs_nonneg s o). pose proof (pcount_nonneg o P).
  pose proof (obj_bounds _ _ _ Hob) as OB.
  unfold inc. change (get_obj (write c (Strong o) s) o) with (get_obj s o). rewrite Hob.
  destruct (Z.leb_spec 0 (o_rc ob)); [| lia]. cbn [rbind].
  rewrite obj_put by auto. rewrite Z.eqb_refl. cbn [with_rc o_back].
  destruct (remove_first_In c _ ND Bc) as (l' & -> & ND' & L & E).
  set (ob2 := with_back l' _).
  match goal with |- exists s', Ok ?x = Ok s' /\ _ => set (s1 := x) end.
  assert (HM : m_base s1 = m_base s /\ m_top s1 = m_top s /\ m_cap s1 = m_cap s) by auto.
  assert (G : forall p, get_obj s1 p = if p =? o then Some ob2 else get_obj s p).
  { intros p. unfold s1, get_obj, add_blocks, put_obj, set_objs, write, set_cells. cbn [objs].
    rewrite !znth_upd, zlen_upd. destruct (Z.eqb_spec p o); auto. subst.
    destruct (Z.leb_spec 0 o); [| lia]. destruct (Z.ltb_spec o (zlen (objs s))); [| lia]. reflexivity. }
  assert (HC : cells s1 = zupd (cells s) c (Some (Strong o))) by auto.
  assert (HL : zlen (objs s1) = zlen (objs s)).
  { unfold s1, add_blocks, put_obj, set_objs, write, set_cells. cbn [objs]. rewrite !zlen_upd. reflexivity. }
  assert (HO : forall p,
    match get_obj s p, get_obj s1 p with
    | Some ob, Some ob' =>
        o_base ob' = o_base ob /\ o_len ob' = o_len ob /\ o_dtor ob' = o_dtor ob /\
        o_rc ob' = o_rc ob - isS p (Weak o) + isS p (Strong o) + pcount p P - pcount p P /\ (p <> z -> 1 <= o_rc ob') /\
        NoDup (o_back ob') /\
        forall d, In d (o_back ob') <-> (d = c /\ Strong o = Weak p) \/ (d <> c /\ In d (o_back ob))
    | None, None => True
    | _, _ => False
    end).
  { intros p. rewrite G. destruct (Z.eqb_spec p o).
    - subst p. rewrite Hob. unfold ob2; cbn. rewrite Z.eqb_refl. repeat split; auto; try lia.
      + intros Q. right. apply E. auto.
      + intros [[_ Q] | Q]; [discriminate |]. apply E; auto.
    - destruct (get_obj s p) as [obp |] eqn:Ep; auto. cbn. destruct (Z.eqb_spec o p); [congruence |].
      destruct (i_back _ _ _ I p obp Ep) as (NDp & Bp).
      repeat split; auto; try lia. { eapply i_pos; eauto. }
      + intros Q. right. split; auto. intros ->. apply Bp in Q. congruence.
      + intros [[_ Q] | Q]; [discriminate | tauto]. }
  exists s1. split; [reflexivity |]. split; [| split; [exact HC | split; [| split]]].
  - eapply step_inv; eauto.
    + unfold s1, add_blocks, put_obj, set_objs, write, set_cells. cbn [objs blocks].
      erewrite wsum_upd.
      2: { rewrite znth_upd, Z.eqb_refl. destruct (Z.leb_spec 0 o); [| lia].
           destruct (Z.ltb_spec o (zlen (objs s))); [| lia]. reflexivity. }
      erewrite wsum_upd by (apply obj_znth; eauto). rewrite (i_blocks _ _ _ I).
      unfold ob2. cbn. lia.
    + cbn. intros q Q. injection Q as <-. exists ob. auto.
    + apply (i_pend _ _ _ I).
    + intros Hm. split; [congruence |]. destruct (i_mcell _ _ _ I c Hm) as (v' & E1 & _ & E2).
      rewrite Hc in E1. injection E1 as <-. destruct (E2 o eq_refl).
  - intros BB f Hf. eapply step_ext; eauto; try congruence.
    pose proof (i_mort _ _ _ I). lia.
  - intros Q. destruct (Q o eq_refl).
  - repeat (split; [reflexivity |]). eapply step_shape; [exact HL | exact HO].
Qed.

(** ** Storing into a cell *)
Definition opt_cons (x : option Z) (P : list Z) : list Z := match x with Some o => o :: P | None => P end.
Definition newref (v : option Z) : ref := match v with Some o => Strong o | None => Null end.
Definition inc_opt (v : option Z) (s : mem) : res := match v with Some o => inc o s | None => Ok s end.

Lemma pcount_opt p old P : (forall o, old <> Weak o) -> pcount p (opt_cons (target old) P) = pcount p P + isS p old.
Proof.
  intros H. destruct old as [| o | o]; cbn [target opt_cons isS]; [lia | rewrite pcount_cons; lia | destruct (H o eq_refl)].
Qed.

Lemma store_step z P s c old v : invz z P s -> cell s c = Some old -> (forall o, old <> Weak o) ->
  (forall o, v = Some o -> live s o) -> z = -1 \/ v = Some z ->
  (m_base s <= c < m_base s + m_cap s -> m_base s + m_top s <= c -> v = None) ->
  exists s1, inc_opt v s = Ok s1 /\
    let s2 := write c (newref v) s1 in
    inv (opt_cons (target old) P) s2 /\
    cells s2 = zupd (cells s) c (Some (newref v)) /\
    (forall B f, ~ (m_base s <= c < m_base s + Z.min f (m_top s)) ->
       (v = None \/ forall o, In o (dying s) -> ~ belongs s c o) -> ext B f s s2) /\
    log s2 = log s /\ dying s2 = dying s /\ m_base s2 = m_base s /\ m_top s2 = m_top s /\ m_cap s2 = m_cap s /\
    shape s s2.
Proof.
  intros I Hc Hw Hv Hz Hmo.
  assert (exists s1, inc_opt v s = Ok s1 /\ cells s1 = cells s /\ zlen (objs s1) = zlen (objs s) /\
    (forall p, get_obj s1 p = match get_obj s p with
                              | Some ob => Some (with_rc (o_rc ob + isS p (newref v)) ob)
                              | None => None end) /\
    blocks s1 = blocks s /\ wsum weight (objs s1) = wsum weight (objs s) /\
    log s1 = log s /\ dying s1 = dying s /\ m_base s1 = m_base s /\ m_top s1 = m_top s /\ m_cap s1 = m_cap s) as Q.
  { destruct v as [o |]; cbn [inc_opt newref].
    - destruct (Hv o eq_refl) as (ob & Hob). unfold inc. rewrite Hob.
      pose proof (i_rc _ _ _ I o ob Hob) as RC. pose proof (refs_nonneg s o). pose proof (pcount_nonneg o P).
      pose proof (obj_bounds _ _ _ Hob) as OB.
      destruct (Z.leb_spec 0 (o_rc ob)); [| lia].
      eexists. split; [reflexivity |]. repeat split; auto.
      + unfold put_obj, set_objs. cbn [objs]. apply zlen_upd.
      + intros p. rewrite obj_put by auto. cbn [isS]. rewrite (Z.eqb_sym o p). destruct (Z.eqb_spec p o).
        * subst p. rewrite Hob. reflexivity.
        * destruct (get_obj s p) as [[] |]; auto. unfold with_rc. cbn. rewrite Z.add_0_r. reflexivity.
      + unfold put_obj, set_objs. cbn [objs]. erewrite wsum_upd by (apply obj_znth; eauto). cbn. lia.
    - exists s. repeat split; auto. intros p. destruct (get_obj s p) as [[] |]; auto.
      unfold with_rc. cbn. rewrite Z.add_0_r. reflexivity. }
  destruct Q as (s1 & E & HC1 & HL1 & G1 & HB1 & W1 & Lg & Dy & M1 & M2 & M3).
  exists s1. split; auto. cbv zeta. set (s2 := write c (newref v) s1).
  assert (HM : m_base s2 = m_base s /\ m_top s2 = m_top s /\ m_cap s2 = m_cap s) by auto.
  assert (HC : cells s2 = zupd (cells s) c (Some (newref v))).
  { unfold s2, write, set_cells. cbn [cells]. rewrite HC1. reflexivity. }
  assert (HO : forall p,
    match get_obj s p, get_obj s2 p with
    | Some ob, Some ob' =>
        o_base ob' = o_base ob /\ o_len ob' = o_len ob /\ o_dtor ob' = o_dtor ob /\
        o_rc ob' = o_rc ob - isS p old + isS p (newref v) + pcount p (opt_cons (target old) P) - pcount p P /\ (p <> -1 -> 1 <= o_rc ob') /\
        NoDup (o_back ob') /\
        forall d, In d (o_back ob') <-> (d = c /\ newref v = Weak p) \/ (d <> c /\ In d (o_back ob))
    | None, None => True
    | _, _ => False
    end).
  { intros p. change (get_obj s2 p) with (get_obj s1 p). rewrite G1.
    destruct (get_obj s p) as [obp |] eqn:Ep; auto. rewrite pcount_opt by auto.
    destruct (i_back _ _ _ I p obp Ep) as (NDp & Bp). cbn.
    repeat split; auto; try lia.
    - pose proof (i_rc _ _ _ I p obp Ep). pose proof (refs_nonneg s p). pose proof (pcount_nonneg p P).
      destruct (Z.eq_dec p z).
      + destruct Hz as [-> | ->]; [pose proof (obj_bounds _ _ _ Ep); lia |]. subst. cbn. rewrite Z.eqb_refl. lia.
      + pose proof (i_pos _ _ _ I p obp Ep n). unfold isS. destruct (newref v); try lia. destruct (o =? p); lia.
    - intros Q. right. split; auto. intros ->. apply Bp in Q. rewrite Hc in Q. injection Q as ->.
      destruct (Hw p eq_refl).
    - intros [[_ Q] | Q]; [destruct v; discriminate | tauto]. }
  assert (OP : forall o, In o (opt_cons (target old) P) -> live s o).
  { intros o Ho. destruct (target old) as [q |] eqn:Et; cbn in Ho.
    - destruct Ho as [<- | Ho]; [eapply i_live; eauto | eapply i_pend; eauto].
    - eapply i_pend; eauto. }
  split; [| split; [exact HC |]]; [| split].
  - eapply step_inv; eauto.
    + change (blocks s1 = wsum weight (objs s1) + 1). rewrite HB1, W1. apply (i_blocks _ _ _ I).
    + intros q. destruct v; cbn; [intros Q; injection Q as <-; auto | discriminate].
    + intros Hm. split; [destruct v; discriminate |]. intros Ht. rewrite Hmo; auto.
  - intros BB f Hf Hd. eapply step_ext; eauto. intros _. destruct Hd as [-> | Hd]; auto.
  - repeat (split; [assumption |]). eapply step_shape; [exact HL1 | exact HO].
Qed.

Lemma NoDup_snoc {A} (x : A) l : NoDup l -> ~ In x l -> NoDup (l ++ [x]).
Proof.
  induction l as [| y l IH]; cbn; intros ND H; [constructor; auto; constructor |].
  inversion ND; subst. constructor; [| tauto]. intros Q. apply in_app_or in Q. destruct Q as [Q | [Q | []]]; auto.
Qed.

(** ** Dropping the last strong reference but one, becoming weak *)
Lemma weaken_step P s c o ob : inv P s -> cell s c = Some (Strong o) -> get_obj s o = Some ob -> 1 < o_rc ob ->
  ~ (m_base s <= c < m_base s + m_cap s) ->
  exists s', dec o (write c (Weak o) s) = Ok s' /\ exists ob', get_obj s' o = Some ob' /\
    let s2 := add_blocks 1 (put_obj o (with_back (o_back ob' ++ [c]) ob') s') in
    inv P s2 /\ cells s2 = zupd (cells s) c (Some (Weak o)) /\ (forall B f, ext B f s s2) /\
    log s2 = log s /\ dying s2 = dying s /\ m_base s2 = m_base s /\ m_top s2 = m_top s /\ m_cap s2 = m_cap s /\
    shape s s2.
Proof.
  intros I Hc Hob Hrc Hnm.
  destruct (i_back _ _ _ I o ob Hob) as (ND & B).
  pose proof (obj_bounds _ _ _ Hob) as OB.
  unfold dec. change (get_obj (write c (Weak o) s) o) with (get_obj s o). rewrite Hob.
  destruct (Z.ltb_spec 0 (o_rc ob)); [| lia].
  eexists. split; [reflexivity |]. rewrite obj_put by auto. rewrite Z.eqb_refl.
  eexists. split; [reflexivity |]. cbn [with_rc o_back].
  set (ob2 := with_back _ _). cbv zeta.
  match goal with |- inv P ?x /\ _ => set (s1 := x) end.
  assert (HM : m_base s1 = m_base s /\ m_top s1 = m_top s /\ m_cap s1 = m_cap s) by auto.
  assert (G : forall p, get_obj s1 p = if p =? o then Some ob2 else get_obj s p).
  { intros p. unfold s1, get_obj, add_blocks, put_obj, set_objs, write, set_cells. cbn [objs].
    rewrite !znth_upd, zlen_upd. destruct (Z.eqb_spec p o); auto. subst.
    destruct (Z.leb_spec 0 o); [| lia]. destruct (Z.ltb_spec o (zlen (objs s))); [| lia]. reflexivity. }
  assert (HC : cells s1 = zupd (cells s) c (Some (Weak o))) by auto.
  assert (HL : zlen (objs s1) = zlen (objs s)).
  { unfold s1, add_blocks, put_obj, set_objs, write, set_cells. cbn [objs]. rewrite !zlen_upd. reflexivity. }
  assert (HO : forall p,
    match get_obj s p, get_obj s1 p with
    | Some ob, Some ob' =>
        o_base ob' = o_base ob /\ o_len ob' = o_len ob /\ o_dtor ob' = o_dtor ob /\
        o_rc ob' = o_rc ob - isS p (Strong o) + isS p (Weak o) + pcount p P - pcount p P /\ (p <> -1 -> 1 <= o_rc ob') /\
        NoDup (o_back ob') /\
        forall d, In d (o_back ob') <-> (d = c /\ Weak o = Weak p) \/ (d <> c /\ In d (o_back ob))
    | None, None => True
    | _, _ => False
    end).
  { intros p. rewrite G. destruct (Z.eqb_spec p o).
    - subst p. rewrite Hob. unfold ob2; cbn. rewrite Z.eqb_refl.
      assert (NI : ~ In c (o_back ob)) by (intros Q; apply B in Q; congruence).
      repeat split; auto; try lia.
      + apply NoDup_snoc; auto.
      + intros Q. apply in_app_or in Q. destruct Q as [Q | [<- | []]]; auto.
        right. split; auto. congruence.
      + intros [[-> _] | [_ Q]]; apply in_or_app; cbn; auto.
    - destruct (get_obj s p) as [obp |] eqn:Ep; auto. cbn. destruct (Z.eqb_spec o p); [congruence |].
      destruct (i_back _ _ _ I p obp Ep) as (NDp & Bp).
      repeat split; auto; try lia. { eapply i_pos; eauto. }
      + intros Q. right. split; auto. intros ->. apply Bp in Q. congruence.
      + intros [[_ Q] | Q]; [congruence | tauto]. }
  split; [| split; [exact HC | split]].
  - eapply step_inv; eauto.
    + unfold s1, add_blocks, put_obj, set_objs, write, set_cells. cbn [objs blocks].
      erewrite wsum_upd.
      2: { rewrite znth_upd, Z.eqb_refl. destruct (Z.leb_spec 0 o); [| lia].
           destruct (Z.ltb_spec o (zlen (objs s))); [| lia]. reflexivity. }
      erewrite wsum_upd by (apply obj_znth; eauto). rewrite (i_blocks _ _ _ I).
      unfold ob2. cbn. rewrite zlen_app, zlen_cons, zlen_nil. lia.
    + cbn. intros q Q. injection Q as <-. exists ob. auto.
    + apply (i_pend _ _ _ I).
    + intros Hm. lia.
  - intros BB f. eapply step_ext; eauto; try congruence.
    pose proof (i_mort _ _ _ I). lia.
  - repeat (split; [reflexivity |]). eapply step_shape; [exact HL | exact HO].
Qed.

Lemma zupd_same {A} (l : list A) i x : znth l i = Some x -> zupd l i x = l.
Proof.
  intros H. pose proof (znth_Some _ _ _ H). apply znth_ext. intros j. rewrite znth_upd.
  destruct (Z.eqb_spec j i); [| reflexivity]. subst.
  destruct (Z.leb_spec 0 i); [| lia]. destruct (Z.ltb_spec i (zlen l)); [| lia]. auto.
Qed.

(** ** Dropping a reference that is not the last *)
Lemma drop_step P s o ob : inv (o :: P) s -> get_obj s o = Some ob -> 1 < o_rc ob ->
  let s' := put_obj o (with_rc (o_rc ob - 1) ob) s in
  dec o s = Ok s' /\ inv P s' /\ (forall B f, ext B f s s') /\ shape s s'.
Proof.
  intros I Hob Hrc s'. pose proof (i_mort _ _ _ I) as M.
  destruct (i_mcell _ _ _ I (m_base s)) as (v & Hc & Hv1 & Hv2); [lia |].
  assert (HC : cells s' = zupd (cells s) (m_base s) (Some v)).
  { symmetry. apply zupd_same, cell_znth; auto. }
  assert (HM : m_base s' = m_base s /\ m_top s' = m_top s /\ m_cap s' = m_cap s) by auto.
  pose proof (obj_bounds _ _ _ Hob) as OB.
  assert (HL : zlen (objs s') = zlen (objs s)) by (unfold s', put_obj, set_objs; cbn [objs]; apply zlen_upd).
  assert (HO : forall p,
    match get_obj s p, get_obj s' p with
    | Some ob, Some ob' =>
        o_base ob' = o_base ob /\ o_len ob' = o_len ob /\ o_dtor ob' = o_dtor ob /\
        o_rc ob' = o_rc ob - isS p v + isS p v + pcount p P - pcount p (o :: P) /\ (p <> -1 -> 1 <= o_rc ob') /\
        NoDup (o_back ob') /\
        forall d, In d (o_back ob') <-> (d = m_base s /\ v = Weak p) \/ (d <> m_base s /\ In d (o_back ob))
    | None, None => True
    | _, _ => False
    end).
  { intros p. unfold s'. rewrite obj_put by auto. rewrite pcount_cons, (Z.eqb_sym o p).
    assert (BB : forall obp, get_obj s p = Some obp -> NoDup (o_back obp) /\
      forall d, In d (o_back obp) <-> (d = m_base s /\ v = Weak p) \/ (d <> m_base s /\ In d (o_back obp))).
    { intros obp Ep. destruct (i_back _ _ _ I p obp Ep) as (NDp & Bp). split; auto. intros d. split.
      - intros Q. right. split; auto. intros ->. apply Bp in Q. rewrite Hc in Q. injection Q as ->.
        destruct (Hv2 p eq_refl).
      - intros [[_ Q] | Q]; [destruct (Hv2 p Q) | tauto]. }
    destruct (Z.eqb_spec p o).
    - subst p. rewrite Hob. destruct (BB ob Hob). cbn. repeat split; auto; try lia; apply H0.
    - destruct (get_obj s p) as [obp |] eqn:Ep; auto. destruct (BB obp eq_refl).
      repeat split; auto; try lia; try apply H0.
      eapply i_pos; eauto. }
  split; [| split; [| split; [| eapply step_shape; [exact HL | exact HO]]]].
  - unfold dec. rewrite Hob. destruct (Z.ltb_spec 0 (o_rc ob)); [reflexivity | lia].
  - eapply step_inv; eauto.
    + unfold s', put_obj, set_objs. cbn [objs blocks]. erewrite wsum_upd by (apply obj_znth; eauto).
      rewrite (i_blocks _ _ _ I). cbn. lia.
    + intros q Q. eapply i_live; eauto.
    + intros q Q. apply (i_pend _ _ _ I). cbn. auto.
  - intros BB f. constructor; auto; try lia.
    + apply Z.le_refl.
    + intros q ob' Hq _. specialize (HO q). rewrite Hq in HO. destruct (get_obj s q) as [obq |]; [| tauto].
      exists obq. tauto.
    + eauto.
    + intros q _. apply (step_live (-1) (o :: P) P s s' (m_base s) v v HO).
    + intros d (Q1 & Q2 & Q3). split; [auto |]. split; [| auto]. intros q Hq.
      apply (step_belongs (-1) (o :: P) P s s' (m_base s) v v HO) in Hq. apply (Q2 q Hq).
    + exists []. rewrite app_nil_r. reflexivity.
Qed.

(** ** Freeing an object *)
Lemma free_backrefs_ok o l : forall s, NoDup l -> (forall c, In c l -> cell s c = Some (Weak o)) ->
  exists s', free_backrefs l s = Ok s' /\ zlen (cells s') = zlen (cells s) /\ objs s' = objs s /\
    blocks s' = blocks s - zlen l /\ m_base s' = m_base s /\ m_top s' = m_top s /\ m_cap s' = m_cap s /\
    dying s' = dying s /\ log s' = log s /\
    (forall p, strong_refs s' p = strong_refs s p) /\
    (forall d, (In d l -> cell s' d = Some Null) /\ (~ In d l -> cell s' d = cell s d)).
Proof.
  induction l as [| c l IH]; intros s ND H; cbn [free_backrefs].
  - exists s. rewrite zlen_nil. repeat split; auto; try lia. intros [].
  - inversion ND as [| ? ? NI ND']; subst. rewrite (H c) by (cbn; auto).
    pose proof (H c (or_introl eq_refl)) as Hc. pose proof (cell_bounds _ _ _ Hc) as B.
    set (s1 := add_blocks (-1) (write c Null s)).
    assert (C1 : forall d, cell s1 d = if d =? c then Some Null else cell s d).
    { intros d. apply (cell_write s c Null d B). }
    destruct (IH s1 ND') as (s' & E & L & O & Bk & M1 & M2 & M3 & D & Lg & R & Cc).
    { intros d Hd. rewrite C1. destruct (Z.eqb_spec d c); [congruence |]. apply H. cbn; auto. }
    exists s'. rewrite L, O, Bk, M1, M2, M3, D, Lg. rewrite zlen_cons. repeat split; auto.
    + unfold s1, add_blocks, write, set_cells. cbn [cells]. apply zlen_upd.
    + unfold s1, add_blocks. cbn. lia.
    + intros p. rewrite R. change (strong_refs s1 p) with (strong_refs (write c Null s) p).
      rewrite (refs_write s c Null _ p Hc). cbn. lia.
    + destruct (Cc d) as (Q1 & Q2). destruct (in_dec Z.eq_dec d l) as [Y | N]; [auto |].
      intros [<- | Y]; [| auto]. rewrite Q2, C1, Z.eqb_refl by auto. reflexivity.
    + intros N. cbn in N. destruct (Cc d) as (Q1 & Q2). rewrite Q2, C1 by tauto.
      destruct (Z.eqb_spec d c); [| reflexivity]. subst. tauto.
Qed.

Definition free_obj (o : Z) (ob : obj) (s : mem) : mem :=
  add_log (EFree o) (add_blocks (-1)
    (set_objs (fun l => zupd l o None)
      (set_cells (fun l => zblit l (o_base ob) (zrep (o_len ob) None)) s))).

Lemma free_step P s o ob : inv (o :: P) s -> get_obj s o = Some ob -> o_rc ob = 1 ->
  (forall c, o_base ob <= c < o_base ob + o_len ob -> cell s c = Some Null) -> ~ In o (dying s) ->
  exists s1, free_backrefs (o_back ob) (put_obj o (with_rc 0 ob) s) = Ok s1 /\
    let s' := free_obj o ob s1 in
    inv P s' /\ (forall B f, ~ In o B -> ext B f s s') /\ m_top s' = m_top s /\ m_base s' = m_base s /\
    log s' = log s ++ [EFree o] /\
    (forall p, get_obj s' p = if p =? o then None else get_obj s p) /\
    (forall d, cell s' d = if (o_base ob <=? d) && (d <? o_base ob + o_len ob) then None
                           else if in_dec Z.eq_dec d (o_back ob) then Some Null else cell s d).
Proof.
  intros I Hob Hrc Hnull Hdy. pose proof (obj_bounds _ _ _ Hob) as OB.
  pose proof (i_rc _ _ _ I o ob Hob) as RC. rewrite pcount_cons, Z.eqb_refl in RC.
  pose proof (refs_nonneg s o) as R0. pose proof (pcount_nonneg o P) as P0.
  destruct (i_back _ _ _ I o ob Hob) as (ND & B). destruct (i_range _ _ _ I o ob Hob) as (Rb & Rl & Rt).
  set (s0 := put_obj o (with_rc 0 ob) s).
  destruct (free_backrefs_ok o (o_back ob) s0 ND) as (s1 & E & L & O & Bk & M1 & M2 & M3 & D & Lg & R & Cc).
  { intros c Hc. apply B. auto. }
  exists s1. split; auto. cbv zeta. set (s' := free_obj o ob s1).
  change (zlen (cells s1) = zlen (cells s)) in L.
  assert (LC : zlen (cells s') = zlen (cells s)).
  { unfold s', free_obj, add_log, add_blocks, set_objs, set_cells. cbn [cells].
    rewrite zlen_blit; [auto | lia | rewrite zlen_rep; lia]. }
  assert (CC : forall d, cell s' d = if (o_base ob <=? d) && (d <? o_base ob + o_len ob) then None
                           else if in_dec Z.eq_dec d (o_back ob) then Some Null else cell s d).
  { intros d. unfold s', free_obj, add_log, add_blocks, set_objs, set_cells, cell at 1. cbn [cells].
    rewrite znth_blit by lia. rewrite zlen_rep, Z.max_r by lia.
    destruct ((o_base ob <=? d) && (d <? o_base ob + o_len ob)) eqn:Ed.
    - rewrite znth_rep. destruct ((0 <=? d - o_base ob) && (d - o_base ob <? o_len ob)); reflexivity.
    - fold (cell s1 d). destruct (Cc d) as (Q1 & Q2).
      destruct (in_dec Z.eq_dec d (o_back ob)) as [Y | N]; auto. }
  assert (GG : forall p, get_obj s' p = if p =? o then None else get_obj s p).
  { intros p. unfold s', free_obj, add_log, add_blocks, set_objs, set_cells, get_obj. cbn [objs].
    rewrite O. unfold s0, put_obj, set_objs. cbn [objs]. rewrite !znth_upd, zlen_upd.
    destruct (Z.eqb_spec p o); auto. subst. destruct (Z.leb_spec 0 o); [| lia].
    destruct (Z.ltb_spec o (zlen (objs s))); [| lia]. reflexivity. }
  assert (SR : forall p, strong_refs s' p = strong_refs s p).
  { intros p. transitivity (strong_refs s1 p); [| apply R].
    unfold strong_refs. unfold s', free_obj, add_log, add_blocks, set_objs, set_cells. cbn [cells].
    rewrite wsum_sub by lia. rewrite (wsum_zero _ (zsub _ _ _)); [lia |].
    intros x Hx. apply In_znth in Hx. destruct Hx as (i & Bi & Hi).
    rewrite zlen_sub in Bi by lia.
    rewrite znth_sub in Hi.
    assert (Hd : cell s1 (o_base ob + i) = Some Null).
    { destruct (Cc (o_base ob + i)) as (Q1 & Q2). destruct (in_dec Z.eq_dec (o_base ob + i) (o_back ob)); auto.
      rewrite Q2 by auto. apply Hnull. lia. }
    apply cell_znth in Hd.
    destruct ((0 <=? i) && (i <? o_len ob)); [| discriminate].
    rewrite Z.max_r in Hi by lia. rewrite Hd in Hi. injection Hi as <-. reflexivity. }
  assert (LV : forall p, p <> o -> live s p -> live s' p).
  { intros p Hp (obp & Q). exists obp. rewrite GG. destruct (Z.eqb_spec p o); [congruence | auto]. }
  assert (BL : forall d p, belongs s' d p <-> p <> o /\ belongs s d p).
  { intros d p. unfold belongs. rewrite GG. destruct (Z.eqb_spec p o).
    - split; [intros (? & ? & _); discriminate | tauto].
    - tauto. }
  assert (NP : ~ In o P). { intros Q. apply pcount_In in Q. lia. }
  assert (OW : forall d, (o_base ob <=? d) && (d <? o_base ob + o_len ob) = true -> belongs s d o).
  { intros d Hd. exists ob. split; auto. lia. }
  assert (KEEP : forall d v, cell s d = Some v -> (forall q, v <> Weak q) -> ~ belongs s d o -> cell s' d = Some v).
  { intros d v Hd Hw Hb. rewrite CC. destruct ((o_base ob <=? d) && (d <? o_base ob + o_len ob)) eqn:Ed.
    - destruct (Hb (OW d Ed)).
    - destruct (in_dec Z.eq_dec d (o_back ob)) as [Y | N]; auto. apply B in Y. rewrite Hd in Y. injection Y as ->.
      destruct (Hw o eq_refl). }
  assert (OLD : forall d v, cell s' d = Some v -> v = Null \/ cell s d = Some v /\ target v <> Some o).
  { intros d v Hd. rewrite CC in Hd. destruct ((o_base ob <=? d) && (d <? o_base ob + o_len ob)); [discriminate |].
    destruct (in_dec Z.eq_dec d (o_back ob)) as [Y | N]; [left; congruence |].
    right. split; auto. destruct v as [| q | q]; cbn; [discriminate | |]; intros Q; injection Q as ->.
    - pose proof (refs_pos _ _ _ Hd). lia.
    - apply N, B. auto. }
  split; [| split; [| split; [| split; [| split; [| split]]]]]; auto.
  - constructor.
    + intros d v q Hd Ht. destruct (OLD d v Hd) as [-> | (Hd' & N)]; [discriminate |].
      apply LV; [congruence | eapply i_live; eauto].
    + intros q Hq. apply LV; [intros ->; auto |]. apply (i_pend _ _ _ I). cbn; auto.
    + intros q obq Hq. rewrite GG in Hq. destruct (Z.eqb_spec q o); [discriminate |].
      rewrite (i_rc _ _ _ I q obq Hq), SR, pcount_cons. destruct (Z.eqb_spec o q); [congruence | lia].
    + intros q obq Hq Hz. rewrite GG in Hq. destruct (Z.eqb_spec q o); [discriminate |]. eapply i_pos; eauto.
    + intros q obq Hq. rewrite GG in Hq. destruct (Z.eqb_spec q o); [discriminate |].
      destruct (i_back _ _ _ I q obq Hq) as (NDq & Bq). split; auto. intros d. rewrite Bq. split.
      * intros Hd. rewrite CC. destruct ((o_base ob <=? d) && (d <? o_base ob + o_len ob)) eqn:Ed.
        -- rewrite Hnull in Hd by lia. discriminate.
        -- destruct (in_dec Z.eq_dec d (o_back ob)) as [Y | N]; auto. apply B in Y. congruence.
      * intros Hd. destruct (OLD _ _ Hd) as [Q | (Q & _)]; [discriminate | auto].
    + intros d q Hd. apply BL in Hd. destruct Hd as (Hn & Hd). destruct (i_own _ _ _ I d q Hd) as (v & Hv).
      rewrite CC. destruct ((o_base ob <=? d) && (d <? o_base ob + o_len ob)) eqn:Ed.
      * destruct Hn. eapply i_disj; eauto.
      * destruct (in_dec Z.eq_dec d (o_back ob)); eauto.
    + intros q obq Hq. rewrite GG in Hq. destruct (Z.eqb_spec q o); [discriminate |]. rewrite LC. eapply i_range; eauto.
    + intros d q q' H1 H2. apply BL in H1, H2. eapply i_disj; [eauto | apply H1 | apply H2].
    + rewrite LC. change (m_base s') with (m_base s1). change (m_top s') with (m_top s1). change (m_cap s') with (m_cap s1).
      rewrite M1, M2, M3. apply (i_mort _ _ _ I).
    + intros d q Hd. apply BL in Hd. change (m_base s') with (m_base s1). change (m_cap s') with (m_cap s1).
      rewrite M1, M3. apply (i_mown _ _ _ I d q). tauto.
    + intros d. change (m_base s') with (m_base s1). change (m_top s') with (m_top s1). change (m_cap s') with (m_cap s1).
      rewrite M1, M2, M3. intros Hd. destruct (i_mcell _ _ _ I d Hd) as (v & Hv & Hv1 & Hv2). exists v.
      split; auto. apply KEEP; auto. intros Hb. apply (i_mown _ _ _ I d o Hb). auto.
    + unfold s', free_obj, add_log, add_blocks, set_objs, set_cells. cbn [blocks objs].
      rewrite Bk, O. unfold s0, put_obj, set_objs. cbn [blocks objs].
      erewrite wsum_upd.
      2: { rewrite znth_upd, Z.eqb_refl. destruct (Z.leb_spec 0 o); [| lia].
           destruct (Z.ltb_spec o (zlen (objs s))); [| lia]. reflexivity. }
      erewrite wsum_upd by (apply obj_znth; eauto). rewrite (i_blocks _ _ _ I). cbn. lia.
  - intros BB f HB. constructor; try lia.
    + unfold s', free_obj, add_log, add_blocks, set_objs, set_cells. cbn [objs]. rewrite O.
      unfold s0, put_obj, set_objs. cbn [objs]. rewrite !zlen_upd. lia.
    + intros q obq Hq _. rewrite GG in Hq. destruct (Z.eqb_spec q o); [discriminate |]. eauto 6.
    + intros d v Hd _. rewrite CC in Hd. destruct ((o_base ob <=? d) && (d <? o_base ob + o_len ob)); [discriminate |].
      destruct (in_dec Z.eq_dec d (o_back ob)) as [Y | N]; eauto. apply B in Y. eauto.
    + exact D.
    + intros q Hq. apply LV. congruence.
    + intros q d Hq Hb Hd. apply KEEP; auto; [congruence |]. intros Hb'.
      assert (q = o) by (eapply i_disj; eauto). congruence.
    + change (m_top s') with (m_top s1). rewrite M2. auto.
    + intros i Hi Ht. change (m_base s') with (m_base s1). rewrite M1. change (m_base s0) with (m_base s).
      pose proof (i_mort _ _ _ I) as M.
      assert (Hd : m_base s <= m_base s + i < m_base s + m_cap s) by lia.
      destruct (i_mcell _ _ _ I (m_base s + i) Hd) as (v & Hv & Hv1 & Hv2). rewrite Hv. apply KEEP; auto.
      intros Hb. apply (i_mown _ _ _ I _ o Hb). auto.
    + intros d ((v & Q1) & Q2 & Q3). unfold var. change (m_base s') with (m_base s1). change (m_cap s') with (m_cap s1).
      rewrite M1, M3. split; [| split; [| auto]].
      * rewrite CC. destruct ((o_base ob <=? d) && (d <? o_base ob + o_len ob)) eqn:Ed; [destruct (Q2 o (OW d Ed)) |].
        destruct (in_dec Z.eq_dec d (o_back ob)); eauto.
      * intros q Hq. apply BL in Hq. apply (Q2 q). tauto.
    + intros q Hq. unfold story, s', free_obj, add_log. cbn [log]. rewrite filter_app.
      rewrite (Lg : log (add_blocks _ (set_objs _ (set_cells _ s1))) = log s). cbn.
      destruct (Z.eqb_spec o q); [congruence |]. apply app_nil_r.
    + exists [EFree o]. unfold s', free_obj, add_log. cbn [log]. f_equal. exact Lg.
  - unfold s', free_obj, add_log. cbn [log]. f_equal. exact Lg.
Qed.
