(** * Every operation keeps the invariant of the object memory *)
From Verif Require Import Base Mem_model Mem_spec Mem_proofs Mem_inv.

(** [B]: the objects whose release has begun. *)
Definition logok (B : list Z) (s : mem) : Prop := forall o,
  In (ESurvive o) (log s) \/
  ((o < 0 \/ zlen (objs s) <= o -> story o s = []) /\
   (forall ob, get_obj s o = Some ob ->
      In o B \/ story o s = [ENew o (o_base ob) (o_len ob) (o_dtor ob)]) /\
   (0 <= o < zlen (objs s) -> get_obj s o = None -> exists c n dt, story o s = whole_life o c n dt)).

Lemma logok_shape B s s' : shape s s' -> log s' = log s -> logok B s -> logok B s'.
Proof.
  intros (L & S) E H o. destruct (H o) as [Q | (Q1 & Q2 & Q3)]; [left; congruence | right].
  assert (ST : story o s' = story o s) by (unfold story; congruence). rewrite ST, L. specialize (S o).
  split; [auto | split].
  - intros ob' Ho. rewrite Ho in S. destruct (get_obj s o) as [ob |]; [| tauto].
    destruct S as (-> & -> & ->). auto.
  - intros Hr Ho. rewrite Ho in S. destruct (get_obj s o) as [ob |]; [tauto | auto].
Qed.

Record ok (P0 P B : list Z) (s : mem) : Prop := mk_ok {
  k_inv : inv P0 s;
  k_dok : dok P s;
  k_incl : incl B P;
  k_log : logok B s
}.

Definition good_rel (rel : Z -> mem -> res) : Prop := forall P B o s,
  ok (o :: P) P B s ->
  post (fun s' => inv P s' /\ logok B s' /\ ext B (m_top s) s s' /\ m_top s' = m_top s) (rel o s).

Lemma dok_ext P B f s s' : ext B f s s' -> dok P s -> dok P s'.
Proof. intros E H o. rewrite (e_dying _ _ _ _ E). apply H. Qed.

(** ** Assignment *)
Lemma assign_ok rel z P B f c old v s :
  good_rel rel ->
  invz z P s -> dok P s -> incl B P -> logok B s -> 0 <= f <= m_top s ->
  cell s c = Some old -> (forall o, v = Some o -> live s o) -> z = -1 \/ v = Some z ->
  ~ (m_base s <= c < m_base s + m_cap s) \/ v = None /\ m_base s + f <= c < m_base s + m_top s ->
  v = None \/ (forall o, In o (dying s) -> ~ belongs s c o) ->
  post (fun s' => inv P s' /\ logok B s' /\ ext B f s s' /\ m_top s' = m_top s /\
      (forall o, v = None -> In o (dying s) -> belongs s c o -> cell s' c = Some Null) /\
      (forall i, v = None -> c = m_base s + i -> 0 <= i < m_top s -> cell s' (m_base s' + i) = Some Null))
   (assign rel c v s).
Proof.
  intros HR I HD HI HL Hf Hc Hv Hz Hm Hd. unfold assign. rewrite Hc.
  destruct (unweaken_step z P s c old I Hc) as (s1 & E1 & I1 & C1 & X1 & S1 & L1 & D1 & B1 & T1 & K1 & SH1).
  rewrite E1. cbn [rbind].
  assert (X1' : ext B f s s1).
  { destruct Hm as [Hm | (_ & Hm)]; [auto |]. rewrite S1; [apply ext_refl |].
    pose proof (i_mort _ _ _ I). intros q ->. destruct (i_mcell _ _ _ I c) as (v' & Q1 & _ & Q2); [lia |].
    rewrite Hc in Q1. injection Q1 as <-. apply (Q2 q eq_refl). }
  pose proof (cell_bounds _ _ _ Hc) as CB.
  assert (Hc1 : cell s1 c = Some (strengthen old)).
  { unfold cell. rewrite C1, znth_upd, Z.eqb_refl. destruct (Z.leb_spec 0 c); [| lia].
    destruct (Z.ltb_spec c (zlen (cells s))); [| lia]. reflexivity. }
  destruct (store_step z P s1 c (strengthen old) v I1 Hc1) as (s2 & E2 & H2).
  { destruct old; discriminate. }
  { intros o Ho. apply (shape_live _ _ _ SH1). auto. }
  { auto. }
  { rewrite B1, T1, K1. intros Q1 Q2. destruct Hm as [Hm | (-> & _)]; [tauto | auto]. }
  change (match v with Some o => inc o s1 | None => Ok s1 end) with (inc_opt v s1). rewrite E2. cbn [rbind].
  change (match v with Some o => Strong o | None => Null end) with (newref v).
  cbv zeta in H2. set (s3 := write c (newref v) s2) in *.
  destruct H2 as (I3 & C3 & X3 & L3 & D3 & B3 & T3 & K3 & SH3).
  assert (X3' : ext B f s s3).
  { apply (ext_trans B f s s1 s3); [lia | auto |]. apply X3.
    - rewrite B1, T1. pose proof (i_mort _ _ _ I). destruct Hm as [Hm | (_ & Hm)]; lia.
    - destruct Hd as [-> | Hd]; auto. right. intros o Ho Hb. rewrite D1 in Ho.
      apply (shape_belongs _ _ _ _ SH1) in Hb. eapply Hd; eauto. }
  assert (SH : shape s s3) by (eapply shape_trans; eauto).
  assert (LK3 : logok B s3) by (apply (logok_shape B s); auto; congruence).
  assert (CN : v = None -> cell s3 c = Some Null).
  { intros ->. unfold cell. rewrite C3, znth_upd, Z.eqb_refl, C1, zlen_upd. destruct (Z.leb_spec 0 c); [| lia].
    destruct (Z.ltb_spec c (zlen (cells s))); [| lia]. reflexivity. }
  replace (target (strengthen old)) with (target old) in I3 by (destruct old; reflexivity).
  destruct (target old) as [o |] eqn:Et; cbn [opt_cons] in I3.
  - eapply post_imp.
    + apply (HR P B o s3). constructor; auto. intros q Hq. apply HD. congruence.
    + intros s' (I' & LK' & X' & T'). cbn beta.
      assert (X'' : ext B f s3 s').
      { apply (ext_weaken B B (m_top s3) f); auto; try lia. apply incl_refl. }
      split; [auto |]. split; [auto |]. split; [| split; [congruence | split]].
      * apply (ext_trans B f s s3 s'); [lia | auto | auto].
      * intros q Hv0 Hq Hb. eapply (e_null _ _ _ _ X' q); [congruence | | auto].
        apply (shape_belongs _ _ _ _ SH). auto.
      * intros i Hv0 Ec Hi. rewrite (e_mort _ _ _ _ X') by lia. rewrite B3, B1, <- Ec. auto.
  - cbn [post]. right. do 3 (split; [auto |]). split; [congruence |]. split.
    + intros; auto.
    + intros i Hv0 Ec Hi. rewrite B3, B1, <- Ec. auto.
Qed.

Ltac rewrite_objs := match goal with E : _ = _ |- _ => rewrite E; reflexivity end.

(** ** States that differ in what the invariant does not see *)
Lemma inv_same z P s s' : cells s' = cells s -> objs s' = objs s -> blocks s' = blocks s ->
  m_base s' = m_base s -> m_top s' = m_top s -> m_cap s' = m_cap s -> invz z P s -> invz z P s'.
Proof.
  intros E1 E2 E3 E4 E5 E6 I. destruct s as [c1 o1 b1 mb1 mt1 mc1 d1 l1], s' as [c2 o2 b2 mb2 mt2 mc2 d2 l2]. cbn in *. subst.
  destruct I. constructor; auto.
Qed.
Lemma ext_same B f s s' : cells s' = cells s -> objs s' = objs s ->
  m_base s' = m_base s -> m_top s' = m_top s -> m_cap s' = m_cap s -> dying s' = dying s ->
  (forall o, In o B -> story o s' = story o s) -> (exists l, log s' = log s ++ l) -> ext B f s s'.
Proof.
  intros E1 E2 E4 E5 E7 E6 St Lg.
  assert (G : forall p, get_obj s' p = get_obj s p) by (intros; unfold get_obj; rewrite_objs).
  assert (C : forall p, cell s' p = cell s p) by (intros; unfold cell; rewrite_objs).
  constructor; auto; try (rewrite ?E1, ?E2, ?E5; lia).
  - intros o ob Ho _. rewrite G in Ho. eauto 6.
  - intros c v Hv _. rewrite C in Hv. eauto.
  - intros o _ (ob & Ho). exists ob. rewrite G. auto.
  - intros o c _ _. rewrite C. auto.
  - intros i _ _. rewrite C, E4. reflexivity.
  - intros c (Q1 & Q2 & Q3). unfold var, root, belongs. rewrite E4, E7, C. split; [auto |]. split; [| auto].
    intros o (ob & Q4 & Q5). rewrite G in Q4. apply (Q2 o). exists ob. auto.
Qed.
Lemma shape_same s s' : objs s' = objs s -> shape s s'.
Proof.
  intros E. assert (G : forall p, get_obj s' p = get_obj s p) by (intros; unfold get_obj; rewrite_objs).
  split; [congruence |]. intros p. rewrite G. destruct (get_obj s p); auto.
Qed.

(** A log entry about an object whose release has begun. *)
Lemma logok_about B e o s : In o B -> (forall q, q <> o -> about q e = false) -> (forall ob, get_obj s o = Some ob -> True) ->
  live s o -> (forall q, e <> ESurvive q) -> logok B s -> logok B (add_log e s).
Proof.
  intros Ho He _ (ob & Hl) Hs H q. destruct (H q) as [Q | (Q1 & Q2 & Q3)].
  { left. cbn. apply in_or_app. auto. }
  destruct (Z.eq_dec q o) as [-> | N].
  - right. change (get_obj (add_log e s)) with (get_obj s). change (objs (add_log e s)) with (objs s).
    pose proof (obj_bounds _ _ _ Hl). split; [lia |]. split; [auto |]. intros _ Q. congruence.
  - right. assert (ST : story q (add_log e s) = story q s).
    { unfold story, add_log. cbn [log]. rewrite filter_app. cbn. rewrite He by auto. apply app_nil_r. }
    rewrite ST. auto.
Qed.
Lemma story_other q e s : about q e = false -> story q (add_log e s) = story q s.
Proof. intros H. unfold story, add_log. cbn [log]. rewrite filter_app. cbn. rewrite H. apply app_nil_r. Qed.
Lemma story_own q e s : about q e = true -> story q (add_log e s) = story q s ++ [e].
Proof. intros H. unfold story, add_log. cbn [log]. rewrite filter_app. cbn. rewrite H. reflexivity. Qed.

(** ** Clearing the fields of an object *)
Lemma clear_fields_ok rel P B o n : good_rel rel -> forall c s,
  ok P P B s -> hd_error (dying s) = Some o -> In o B ->
  (forall d, c <= d < c + Z.of_nat n -> belongs s d o) ->
  (forall q, tainted q -> forall p, tp (rel p q)) ->
  post (fun s' => inv P s' /\ logok B s' /\ ext (remove Z.eq_dec o B) (m_top s) s s' /\ m_top s' = m_top s /\
          story o s' = story o s ++ map (EField o) (span c (Z.of_nat n)) /\
          forall d, belongs s d o -> c <= d < c + Z.of_nat n \/ cell s d = Some Null -> cell s' d = Some Null)
    (clear_fields rel o c n s).
Proof.
  intros HR. induction n as [| n IH]; intros c s K Hdy HB Hown HT; cbn [clear_fields].
  - cbn [post]. right. destruct K. split; [auto |]. split; [auto |]. split; [apply ext_refl |].
    split; [auto |]. split; [cbn; rewrite app_nil_r; auto |]. intros d Hb [Q | Q]; [lia | auto].
  - destruct K as [I HD HI HL]. destruct (Hown c) as (ob & Hob & Hr); [lia |].
    pose proof (i_mort _ _ _ I) as M.
    set (s1 := add_log (EField o c) s).
    assert (I1 : inv P s1) by (apply (inv_same (-1) P s); auto).
    assert (AB : forall q, q <> o -> about q (EField o c) = false).
    { intros q Q. cbn. destruct (Z.eqb_spec o q); congruence. }
    assert (HL1 : logok B s1).
    { apply (logok_about B _ o); auto; try congruence. exists ob; auto. }
    assert (X1 : ext (remove Z.eq_dec o B) (m_top s) s s1).
    { apply ext_same; auto. 2: eexists; reflexivity. intros q Hq. apply story_other, AB.
      apply in_remove in Hq. tauto. }
    assert (Dy : In o (dying s)) by (destruct (dying s); [discriminate | injection Hdy as ->; cbn; auto]).
    assert (Bc : belongs s c o) by (exists ob; auto).
    destruct (i_own _ _ _ I1 c o Bc) as (old & Hc).
    eapply post_bind.
    + apply (assign_ok rel (-1) P B (m_top s) c old None s1); auto; try congruence; try lia.
      * change (m_top s1) with (m_top s). lia.
      * left. apply (i_mown _ _ _ I1 c o Bc).
    + intros q Tq. apply tp_clear_fields; auto.
    + intros s2 (I2 & HL2 & X2 & T2 & N2 & _).
      assert (LV : live s2 o). { apply (i_pend _ _ _ I2). auto. }
      assert (SB : forall d, belongs s d o -> belongs s2 d o).
      { intros d Hd. apply (ext_belongs _ _ _ _ _ _ X2); auto. }
      assert (X12 : ext (remove Z.eq_dec o B) (m_top s) s s2).
      { apply (ext_trans _ _ s s1 s2); auto; try lia. apply (ext_weaken B _ (m_top s) (m_top s)); auto; try lia.
        intros q Hq. apply in_remove in Hq. tauto. }
      eapply post_imp.
      * apply (IH (c + 1) s2); auto.
        -- constructor; auto. apply (dok_ext P _ _ _ _ X12). auto.
        -- rewrite (e_dying _ _ _ _ X12). auto.
        -- intros d Hd. apply SB, Hown. lia.
      * intros s3 (I3 & HL3 & X3 & T3 & S3 & N3). cbn beta.
        change (m_top s1) with (m_top s) in T2. rewrite T2 in *.
        split; [auto |]. split; [auto |]. split; [| split; [congruence | split]].
        -- apply (ext_trans _ _ s s2 s3); auto. lia.
        -- rewrite S3. rewrite (e_story _ _ _ _ X2) by auto. unfold s1. rewrite story_own by (cbn; apply Z.eqb_refl).
           rewrite <- app_assoc. f_equal. unfold span. rewrite !Nat2Z.id. cbn [seq map app Z.of_nat].
           rewrite Z.add_0_r. f_equal. rewrite <- seq_shift, !map_map.
           apply map_ext. intros a. f_equal. lia.
        -- intros d Hd [Hi | Hn].
           ++ apply N3; auto. destruct (Z.eq_dec d c) as [-> | Nd]; [| left; lia].
              right. apply N2 with o; auto.
           ++ apply N3; auto. right. apply (e_null _ _ _ _ X12 o); auto.
Qed.

(** ** Leaving a scope *)
Lemma lower_inv P s top : inv P s -> 0 <= top <= m_top s ->
  (forall i, top <= i < m_top s -> cell s (m_base s + i) = Some Null) ->
  inv P (set_mortal (m_base s) top (m_cap s) s).
Proof.
  intros I Ht Hn. destruct I. constructor; auto; cbn [set_mortal m_base m_top m_cap]; try lia.
  - change (zlen (cells (set_mortal (m_base s) top (m_cap s) s))) with (zlen (cells s)). lia.
  - intros c Hc. change (cell (set_mortal (m_base s) top (m_cap s) s)) with (cell s).
    destruct (i_mcell c Hc) as (v & Q1 & Q2 & Q3). exists v. split; [auto |]. split; [| auto].
    intros Hc'. destruct (Z_lt_dec c (m_base s + m_top s)) as [L | L]; [| apply Q2; lia].
    specialize (Hn (c - m_base s)). replace (m_base s + (c - m_base s)) with c in Hn by lia.
    rewrite Hn in Q1 by lia. congruence.
Qed.
Lemma leave_loop_ok rel P B top n : good_rel rel -> (forall q, tainted q -> forall p, tp (rel p q)) -> forall i s,
  ok P P B s -> 0 <= top <= i -> i <= m_top s ->
  (forall j, top <= j < i -> cell s (m_base s + j) = Some Null) ->
  post (fun s' => inv P s' /\ logok B s' /\ ext B top s s' /\ m_top s' = m_top s /\
          forall j, top <= j < m_top s -> cell s' (m_base s' + j) = Some Null)
    (leave_loop rel n i s).
Proof.
  intros HR HT. induction n as [| n IH]; intros i s K Ht Hi Hn; cbn [leave_loop];
    destruct (Z.ltb_spec i (m_top s)).
  - cbn. auto.
  - cbn. right. destruct K. do 2 (split; [auto |]). split; [apply ext_refl |]. split; auto. intros j Hj. apply Hn. lia.
  - destruct K as [I HD HI HL]. pose proof (i_mort _ _ _ I) as M.
    destruct (i_mcell _ _ _ I (m_base s + i)) as (old & Hc & _); [lia |].
    eapply post_bind.
    + apply (assign_ok rel (-1) P B i (m_base s + i) old None s); auto; try congruence; try lia.
      right. split; [auto | lia].
    + intros q Tq. apply tp_leave_loop; auto.
    + intros s2 (I2 & HL2 & X2 & T2 & _ & N2). eapply post_imp.
      * apply (IH (i + 1) s2); try lia.
        -- constructor; auto. apply (dok_ext P _ _ _ _ X2). auto.
        -- intros j Hj. destruct (Z.eq_dec j i) as [-> | Nj]; [apply N2; auto; lia |].
           rewrite (e_mort _ _ _ _ X2) by lia. apply Hn. lia.
      * intros s3 (I3 & HL3 & X3 & T3 & N3). cbn beta. do 2 (split; [auto |]). split; [| split; [congruence |]].
        -- apply (ext_trans _ _ s s2 s3); auto; try lia. apply (ext_weaken B B i top); auto; try lia. apply incl_refl.
        -- intros j Hj. apply N3. lia.
  - cbn. right. destruct K. do 2 (split; [auto |]). split; [apply ext_refl |]. split; auto. intros j Hj. apply Hn. lia.
Qed.
Lemma leave_ok rel P B top fuel s : good_rel rel -> (forall q, tainted q -> forall p, tp (rel p q)) ->
  ok P P B s -> 0 <= top <= m_top s ->
  post (fun s' => inv P s' /\ logok B s' /\ ext B top s s' /\ m_top s' = top) (leave_scope rel fuel top s).
Proof.
  intros HR HT K Ht. unfold leave_scope. eapply post_bind.
  - apply (leave_loop_ok rel P B top fuel HR HT top s K); try lia.
  - intros q Tq. cbn. apply (tainted_same q); auto.
  - intros s1 (I1 & HL1 & X1 & T1 & N1). cbn [post]. right. rewrite <- T1 in N1, Ht.
    split; [apply lower_inv; auto |].
    split; [apply (logok_shape B s1); auto; apply shape_same; reflexivity |].
    split; [| reflexivity]. apply (ext_trans _ _ s s1 _); auto; try lia.
    constructor; cbn; auto; try lia.
    + intros o ob Ho _. eauto 6.
    + eauto.
    + exists []. rewrite app_nil_r. auto.
Qed.

(** ** New cells *)
Lemma cell_grow s s' n d : cells s' = cells s ++ zrep n (Some Null) ->
  cell s' d = if d <? zlen (cells s) then cell s d
              else if d <? zlen (cells s) + n then Some Null else None.
Proof.
  intros E. unfold cell. rewrite E, znth_app, znth_rep. destruct (Z.ltb_spec d (zlen (cells s))); auto.
  destruct (Z.leb_spec 0 (d - zlen (cells s))); [| lia]. cbn [andb].
  destruct (Z.ltb_spec (d - zlen (cells s)) n); destruct (Z.ltb_spec d (zlen (cells s) + n)); auto; lia.
Qed.
Lemma cell_grow_old s s' n d v : cells s' = cells s ++ zrep n (Some Null) ->
  cell s d = Some v -> cell s' d = Some v.
Proof.
  intros E H. rewrite (cell_grow _ _ _ _ E). pose proof (cell_bounds _ _ _ H).
  destruct (Z.ltb_spec d (zlen (cells s))); [auto | lia].
Qed.
Lemma cell_grow_inv s s' n d v : cells s' = cells s ++ zrep n (Some Null) ->
  cell s' d = Some v -> cell s d = Some v \/ v = Null /\ zlen (cells s) <= d.
Proof.
  intros E H. rewrite (cell_grow _ _ _ _ E) in H. destruct (Z.ltb_spec d (zlen (cells s))); auto.
  destruct (d <? zlen (cells s) + n); [| discriminate]. right. split; [congruence | lia].
Qed.
Lemma refs_grow s s' n o : cells s' = cells s ++ zrep n (Some Null) -> strong_refs s' o = strong_refs s o.
Proof. intros E. unfold strong_refs. rewrite E, wsum_app, (wsum_rep _ n) by auto. lia. Qed.
Lemma len_grow s s' n : cells s' = cells s ++ zrep n (Some Null) -> zlen (cells s') = zlen (cells s) + Z.max 0 n.
Proof. intros E. rewrite E, zlen_app, zlen_rep. reflexivity. Qed.

Lemma grow_inv P n s : inv P s -> inv P (set_cells (fun l => l ++ zrep n (Some Null)) s).
Proof.
  intros I. set (s' := set_cells _ s). assert (E : cells s' = cells s ++ zrep n (Some Null)) by reflexivity.
  pose proof (len_grow _ _ _ E) as L.
  constructor.
  - intros c v o Hc Ht. destruct (cell_grow_inv _ _ _ _ _ E Hc) as [Q | (-> & _)]; [| discriminate].
    apply (i_live _ _ _ I _ _ _ Q Ht).
  - apply (i_pend _ _ _ I).
  - intros o ob Ho. rewrite (refs_grow _ _ _ _ E). apply (i_rc _ _ _ I o ob Ho).
  - apply (i_pos _ _ _ I).
  - intros o ob Ho. destruct (i_back _ _ _ I o ob Ho) as (ND & Bk). split; auto. intros c. rewrite Bk. split.
    + apply (cell_grow_old _ _ _ _ _ E).
    + intros Hc. destruct (cell_grow_inv _ _ _ _ _ E Hc) as [Q | (Q & _)]; [auto | discriminate].
  - intros c o Hb. destruct (i_own _ _ _ I c o Hb) as (v & Hv). exists v. apply (cell_grow_old _ _ _ _ _ E); auto.
  - intros o ob Ho. pose proof (i_range _ _ _ I o ob Ho). lia.
  - apply (i_disj _ _ _ I).
  - pose proof (i_mort _ _ _ I). change (m_base s') with (m_base s). change (m_top s') with (m_top s).
    change (m_cap s') with (m_cap s). lia.
  - apply (i_mown _ _ _ I).
  - intros c Hc. destruct (i_mcell _ _ _ I c Hc) as (v & Hv & Q). exists v. split; auto.
    apply (cell_grow_old _ _ _ _ _ E); auto.
  - apply (i_blocks _ _ _ I).
Qed.
Lemma grow_ext B f n s P : inv P s -> ext B f s (set_cells (fun l => l ++ zrep n (Some Null)) s).
Proof.
  intros I. set (s' := set_cells _ s). assert (E : cells s' = cells s ++ zrep n (Some Null)) by reflexivity.
  pose proof (len_grow _ _ _ E) as L.
  constructor; auto; try lia.
  - apply Z.le_refl.
  - intros o ob Ho _. exists ob. auto.
  - intros c v Hc Hl. destruct (cell_grow_inv _ _ _ _ _ E Hc) as [Q | (_ & Q)]; [eauto | lia].
  - intros o c _ _ Hc. apply (cell_grow_old _ _ _ _ _ E); auto.
  - intros i Hi Ht. pose proof (i_mort _ _ _ I) as M. destruct (i_mcell _ _ _ I (m_base s + i)) as (v & Hv & _); [lia |].
    rewrite Hv. apply (cell_grow_old _ _ _ _ _ E); auto.
  - intros c ((v & Q1) & Q2 & Q3). split; [| auto]. exists v. apply (cell_grow_old _ _ _ _ _ E); auto.
  - exists []. rewrite app_nil_r. reflexivity.
Qed.

(** ** A new object *)
Definition with_new (n : Z) (dt : bool) (s : mem) : mem :=
  add_blocks 1 (set_objs (fun l => l ++ [Some (mk_obj 0 (zlen (cells s)) n [] dt)])
    (set_cells (fun l => l ++ zrep n (Some Null))
      (add_log (ENew (zlen (objs s)) (zlen (cells s)) n dt) s))).

Lemma with_new_obj n dt s p : get_obj (with_new n dt s) p =
  if p =? zlen (objs s) then Some (mk_obj 0 (zlen (cells s)) n [] dt) else get_obj s p.
Proof.
  unfold with_new, get_obj, add_blocks, set_objs, set_cells, add_log. cbn [objs cells].
  rewrite znth_app. destruct (Z.eqb_spec p (zlen (objs s))).
  - subst. destruct (Z.ltb_spec (zlen (objs s)) (zlen (objs s))); [lia |]. rewrite Z.sub_diag. reflexivity.
  - destruct (Z.ltb_spec p (zlen (objs s))); auto.
    rewrite znth_ge by (rewrite zlen_cons, zlen_nil; lia). rewrite znth_ge by lia. reflexivity.
Qed.
Lemma new_ok P B n dt s : 0 <= n -> inv P s -> logok B s -> incl B P ->
  let s' := with_new n dt s in
  invz (zlen (objs s)) P s' /\ logok B s' /\ (forall f, ext B f s s') /\ live s' (zlen (objs s)) /\
  (forall c o, o < zlen (objs s) -> belongs s' c o -> belongs s c o).
Proof.
  intros Hn I HL HB s'. assert (E : cells s' = cells s ++ zrep n (Some Null)) by reflexivity.
  pose proof (len_grow _ _ _ E) as L. rewrite Z.max_r in L by lia.
  pose proof (zlen_nonneg (objs s)) as ON. pose proof (zlen_nonneg (cells s)) as CN.
  pose proof (i_mort _ _ _ I) as M.
  assert (G : forall p, get_obj s' p = if p =? zlen (objs s) then Some (mk_obj 0 (zlen (cells s)) n [] dt) else get_obj s p)
    by apply with_new_obj.
  assert (OL : zlen (objs s') = zlen (objs s) + 1).
  { unfold s', with_new, add_blocks, set_objs. cbn [objs]. rewrite zlen_app. reflexivity. }
  assert (LV : forall p, live s p -> live s' p).
  { intros p (ob & Hp). exists ob. rewrite G. pose proof (obj_bounds _ _ _ Hp).
    destruct (Z.eqb_spec p (zlen (objs s))); [lia | auto]. }
  assert (BL : forall c p, belongs s' c p -> belongs s c p \/ p = zlen (objs s) /\ zlen (cells s) <= c < zlen (cells s) + n).
  { intros c p (ob & Hp & Hr). rewrite G in Hp. destruct (Z.eqb_spec p (zlen (objs s))).
    - injection Hp as <-. cbn in Hr. right. lia.
    - left. exists ob. auto. }
  assert (BLN : forall c p, belongs s c p -> c < zlen (cells s)).
  { intros c p (ob & Hp & Hr). pose proof (i_range _ _ _ I _ _ Hp). lia. }
  assert (R0 : strong_refs s (zlen (objs s)) = 0).
  { pose proof (refs_nonneg s (zlen (objs s))) as R. destruct (Z.eq_dec (strong_refs s (zlen (objs s))) 0) as [| N]; auto.
    destruct (refs_exists s (zlen (objs s))) as (i & Hi); [lia |].
    destruct (i_live _ _ _ I i (Strong (zlen (objs s))) (zlen (objs s))) as (ob & Ho); auto.
    apply obj_bounds in Ho. lia. }
  assert (NP : pcount (zlen (objs s)) P = 0).
  { pose proof (pcount_nonneg (zlen (objs s)) P). destruct (Z.eq_dec (pcount (zlen (objs s)) P) 0); auto.
    assert (Q : In (zlen (objs s)) P) by (apply pcount_In; lia).
    destruct (i_pend _ _ _ I _ Q) as (ob & Ho). apply obj_bounds in Ho. lia. }
  split; [| split; [| split; [| split]]].
  - constructor.
    + intros c v o Hc Ht. destruct (cell_grow_inv _ _ _ _ _ E Hc) as [Q | (-> & _)]; [| discriminate].
      apply LV, (i_live _ _ _ I _ _ _ Q Ht).
    + intros o Ho. apply LV, (i_pend _ _ _ I o Ho).
    + intros o ob Ho. rewrite (refs_grow _ _ _ _ E). rewrite G in Ho. destruct (Z.eqb_spec o (zlen (objs s))).
      * injection Ho as <-. subst o. cbn. lia.
      * apply (i_rc _ _ _ I o ob Ho).
    + intros o ob Ho Hz. rewrite G in Ho. destruct (Z.eqb_spec o (zlen (objs s))); [congruence |].
      apply (i_pos _ _ _ I o ob Ho). apply obj_bounds in Ho. lia.
    + intros o ob Ho. rewrite G in Ho. destruct (Z.eqb_spec o (zlen (objs s))).
      * injection Ho as <-. subst o. cbn. split; [constructor |]. intros c. split; [tauto |].
        intros Hc. destruct (cell_grow_inv _ _ _ _ _ E Hc) as [Q | (Q & _)]; [| discriminate].
        destruct (i_live _ _ _ I c _ (zlen (objs s)) Q eq_refl) as (ob & Ho). apply obj_bounds in Ho. lia.
      * destruct (i_back _ _ _ I o ob Ho) as (ND & Bk). split; auto. intros c. rewrite Bk. split.
        -- apply (cell_grow_old _ _ _ _ _ E).
        -- intros Hc. destruct (cell_grow_inv _ _ _ _ _ E Hc) as [Q | (Q & _)]; [auto | discriminate].
    + intros c o Hb. destruct (BL c o Hb) as [Hb' | (_ & Hr)].
      * destruct (i_own _ _ _ I c o Hb') as (v & Hv). exists v. apply (cell_grow_old _ _ _ _ _ E); auto.
      * exists Null. rewrite (cell_grow _ _ _ _ E). destruct (Z.ltb_spec c (zlen (cells s))); [lia |].
        destruct (Z.ltb_spec c (zlen (cells s) + n)); [auto | lia].
    + intros o ob Ho. rewrite G in Ho. destruct (Z.eqb_spec o (zlen (objs s))).
      * injection Ho as <-. cbn [o_base o_len]. lia.
      * pose proof (i_range _ _ _ I o ob Ho). lia.
    + intros c o o' H1 H2. destruct (BL _ _ H1) as [Q1 | (-> & Q1)], (BL _ _ H2) as [Q2 | (-> & Q2)]; auto.
      * eapply i_disj; eauto.
      * specialize (BLN _ _ Q1). lia.
      * specialize (BLN _ _ Q2). lia.
    + change (m_base s') with (m_base s). change (m_top s') with (m_top s). change (m_cap s') with (m_cap s). lia.
    + intros c o Hb. change (m_base s') with (m_base s). change (m_cap s') with (m_cap s).
      destruct (BL _ _ Hb) as [Q | (_ & Q)]; [apply (i_mown _ _ _ I c o Q) | lia].
    + intros c Hc. destruct (i_mcell _ _ _ I c Hc) as (v & Hv & Q). exists v. split; auto.
      apply (cell_grow_old _ _ _ _ _ E); auto.
    + unfold s', with_new, add_blocks, set_objs, set_cells, add_log. cbn [blocks objs]. rewrite wsum_app.
      cbn [wsum weight o_back]. rewrite (i_blocks _ _ _ I), zlen_nil. lia.
  - intros o. destruct (HL o) as [Q | (Q1 & Q2 & Q3)]; [left; apply in_or_app; auto |]. right. rewrite OL.
    assert (ST : story o s' = if zlen (objs s) =? o then story o s ++ [ENew o (zlen (cells s)) n dt] else story o s).
    { unfold story, s', with_new, add_blocks, set_objs, set_cells, add_log. cbn [log]. rewrite filter_app. cbn.
      destruct (Z.eqb_spec (zlen (objs s)) o); [subst; auto | apply app_nil_r]. }
    rewrite ST, G. rewrite (Z.eqb_sym o). destruct (Z.eqb_spec (zlen (objs s)) o).
    + subst o. split; [lia |]. split; [| discriminate]. intros ob Q. injection Q as <-. cbn. right.
      rewrite Q1 by lia. reflexivity.
    + split; [intros; apply Q1; lia |]. split; [auto |]. intros Hr. apply Q3. lia.
  - intros f. constructor; auto; try lia.
    + intros o ob Ho Hr. rewrite G in Ho. destruct (Z.eqb_spec o (zlen (objs s))); [lia |]. eauto 6.
    + intros c v Hc Hl. destruct (cell_grow_inv _ _ _ _ _ E Hc) as [Q | (_ & Q)]; [eauto | lia].
    + intros o c _ _ Hc. apply (cell_grow_old _ _ _ _ _ E); auto.
    + intros i Hi Ht. destruct (i_mcell _ _ _ I (m_base s + i)) as (v & Hv & _); [lia |].
      rewrite Hv. apply (cell_grow_old _ _ _ _ _ E); auto.
    + intros c ((v & Q1) & Q2 & Q3). split; [| split; [| auto]].
      * exists v. apply (cell_grow_old _ _ _ _ _ E); auto.
      * intros o Hb. apply cell_bounds in Q1. destruct (BL _ _ Hb) as [Q | (_ & Q)]; [apply (Q2 o Q) | lia].
    + intros o Ho. apply HB in Ho. destruct (i_pend _ _ _ I o Ho) as (ob & Ho'). apply obj_bounds in Ho'.
      apply (story_other o (ENew (zlen (objs s)) (zlen (cells s)) n dt) s). cbn.
      destruct (Z.eqb_spec (zlen (objs s)) o); [lia | auto].
    + eexists. reflexivity.
  - eexists. rewrite G, Z.eqb_refl. reflexivity.
  - intros c o Ho Hb. destruct (BL _ _ Hb) as [Q | (Q & _)]; [auto | lia].
Qed.

(** ** The mortal stack *)
Definition widen (s : mem) : mem :=
  if m_top s >=? m_cap s then
    set_mortal (zlen (cells s)) (m_top s) (m_cap s * 2)
      (set_cells (fun l => zblit l (m_base s) (zrep (m_cap s) None) ++ zsub (cells s) (m_base s) (m_cap s) ++
                           zrep (m_cap s) (Some Null)) s)
  else s.

Lemma widen_ok P s : inv P s ->
  let s' := widen s in
  inv P s' /\ (forall B f, ext B f s s') /\ m_top s' = m_top s /\ log s' = log s /\ shape s s' /\
  m_top s < m_cap s' /\ dying s' = dying s /\
  (forall i, 0 <= i < m_top s -> cell s' (m_base s' + i) = cell s (m_base s + i)) /\
  (forall c v, ~ (m_base s <= c < m_base s + m_cap s) -> cell s c = Some v -> cell s' c = Some v).
Proof.
  intros I s'. pose proof (i_mort _ _ _ I) as M. unfold s', widen. rewrite Z.geb_leb.
  destruct (Z.leb_spec (m_cap s) (m_top s)).
  2: { intuition auto using ext_refl, shape_refl. }
  clear s'. set (s' := set_mortal _ _ _ _).
  assert (T : m_top s = m_cap s) by lia. rewrite T in *. clear H.
  pose proof (zlen_nonneg (cells s)) as CN.
  set (cap := m_cap s) in *. set (mb := m_base s) in *. set (n := zlen (cells s)) in *.
  assert (LO : zlen (zsub (cells s) mb cap) = cap) by (rewrite zlen_sub; lia).
  assert (LB : zlen (zblit (cells s) mb (zrep cap None)) = n) by (apply zlen_blit; rewrite ?zlen_rep; lia).
  assert (C : forall d, cell s' d =
    if (mb <=? d) && (d <? mb + cap) then None
    else if d <? n then cell s d
    else if d <? n + cap then cell s (mb + (d - n))
    else if d <? n + cap * 2 then Some Null else None).
  { intros d. unfold cell at 1, s', set_mortal, set_cells. cbn [cells].
    rewrite znth_app, LB. destruct (Z.ltb_spec d n).
    - rewrite znth_blit by lia. rewrite zlen_rep, Z.max_r by lia.
      destruct ((mb <=? d) && (d <? mb + cap)); [| reflexivity].
      rewrite znth_rep. destruct ((0 <=? d - mb) && (d - mb <? cap)); reflexivity.
    - destruct (Z.leb_spec mb d); [| lia]. destruct (Z.ltb_spec d (mb + cap)); [lia |]. cbn [andb].
      rewrite znth_app, LO. destruct (Z.ltb_spec (d - n) cap); destruct (Z.ltb_spec d (n + cap)); try lia.
      + rewrite znth_sub, Z.max_r by lia. destruct (Z.leb_spec 0 (d - n)); [| lia].
        destruct (Z.ltb_spec (d - n) cap); [| lia]. reflexivity.
      + rewrite znth_rep. destruct (Z.leb_spec 0 (d - n - cap)); [| lia]. cbn [andb].
        destruct (Z.ltb_spec (d - n - cap) cap); destruct (Z.ltb_spec d (n + cap * 2)); auto; lia. }
  assert (LC : zlen (cells s') = n + cap * 2).
  { unfold s', set_mortal, set_cells. cbn [cells]. rewrite !zlen_app, LB, LO, zlen_rep. lia. }
  assert (R : forall o, strong_refs s' o = strong_refs s o).
  { intros o. unfold strong_refs, s', set_mortal, set_cells. cbn [cells].
    rewrite !wsum_app, wsum_sub by lia. rewrite (wsum_rep _ cap (Some Null)) by auto. lia. }
  assert (INV : forall d v, cell s' d = Some v -> exists d', cell s d' = Some v /\
     (d < n /\ d' = d /\ ~ (mb <= d < mb + cap) \/ n <= d /\ d' = mb + (d - n) /\ d' < mb + cap) \/ v = Null /\ n + cap <= d < n + cap * 2).
  { intros d v Hd. rewrite C in Hd. destruct (Z.leb_spec mb d), (Z.ltb_spec d (mb + cap)); cbn [andb] in Hd; try discriminate;
    destruct (Z.ltb_spec d n); [exists d; left; split; auto; left; lia | try lia | exists d; left; split; auto; left; lia | lia | exists d; left; split; auto; left; lia | lia ].
    destruct (Z.ltb_spec d (n + cap)).
    - exists (mb + (d - n)). left. split; auto. right. lia.
    - destruct (Z.ltb_spec d (n + cap * 2)); [| discriminate]. exists 0. right. split; [congruence | lia]. }
  assert (KEEP : forall c v, ~ (mb <= c < mb + cap) -> cell s c = Some v -> cell s' c = Some v).
  { intros c v Hc Hv. pose proof (cell_bounds _ _ _ Hv) as Q. rewrite C.
    destruct (Z.leb_spec mb c), (Z.ltb_spec c (mb + cap)); cbn [andb]; try lia; destruct (Z.ltb_spec c n); auto; lia. }
  assert (MC : forall i, 0 <= i < cap -> cell s' (n + i) = cell s (mb + i)).
  { intros i Hi. rewrite C. destruct (Z.leb_spec mb (n + i)); [| lia]. destruct (Z.ltb_spec (n + i) (mb + cap)); [lia |]. cbn [andb].
    destruct (Z.ltb_spec (n + i) n); [lia |]. destruct (Z.ltb_spec (n + i) (n + cap)); [| lia]. f_equal. lia. }
  assert (SH : shape s s') by (apply shape_same; reflexivity).
  split; [| split; [| split; [| split; [| split; [| split; [| split; [| split]]]]]]]; auto; try lia.
  - constructor.
    + intros c v o Hc Ht. destruct (INV c v Hc) as (d' & [(Hd & _) | (-> & _)]); [| discriminate].
      apply (i_live _ _ _ I _ _ _ Hd Ht).
    + apply (i_pend _ _ _ I).
    + intros o ob Ho. rewrite R. apply (i_rc _ _ _ I o ob Ho).
    + apply (i_pos _ _ _ I).
    + intros o ob Ho. destruct (i_back _ _ _ I o ob Ho) as (ND & Bk). split; auto. intros c. rewrite Bk. split.
      * intros Hc. apply KEEP; auto. intros Hm. destruct (i_mcell _ _ _ I c Hm) as (v & Hv & _ & Q).
        rewrite Hc in Hv. injection Hv as <-. apply (Q o eq_refl).
      * intros Hc. destruct (INV c _ Hc) as (d' & [(Hd & [(_ & -> & _) | (Q1 & Q2 & Q3)]) | (Q & _)]); [auto | | discriminate].
        destruct (i_mcell _ _ _ I d') as (v & Hv & _ & Q); [unfold mb, cap in *; lia |].
        rewrite Hd in Hv. injection Hv as <-. destruct (Q o eq_refl).
    + intros c o Hb. destruct (i_own _ _ _ I c o Hb) as (v & Hv). exists v. apply KEEP; auto. apply (i_mown _ _ _ I c o Hb).
    + intros o ob Ho. pose proof (i_range _ _ _ I o ob Ho). lia.
    + apply (i_disj _ _ _ I).
    + rewrite LC. change (m_base s') with n. change (m_top s') with (m_top s); rewrite ?T. change (m_cap s') with (cap * 2). lia.
    + intros c o Hb. change (m_base s') with n. destruct Hb as (ob & Ho & Hr).
      pose proof (i_range _ _ _ I o ob Ho). lia.
    + change (m_base s') with n. change (m_top s') with (m_top s); rewrite ?T. change (m_cap s') with (cap * 2).
      intros c Hc. destruct (Z_lt_dec c (n + cap)) as [Q | Q].
      * specialize (MC (c - n)). replace (n + (c - n)) with c in MC by lia. rewrite MC by lia.
        destruct (i_mcell _ _ _ I (mb + (c - n))) as (v & Hv & _ & Qv); [unfold mb, cap in *; lia |].
        exists v. split; [auto |]. split; [lia | auto].
      * exists Null. rewrite C. destruct (Z.leb_spec mb c); [| lia]. destruct (Z.ltb_spec c (mb + cap)); [lia |]. cbn [andb].
        destruct (Z.ltb_spec c n); [lia |]. destruct (Z.ltb_spec c (n + cap)); [lia |].
        destruct (Z.ltb_spec c (n + cap * 2)); [| lia]. split; [auto |]. split; [auto | congruence].
    + apply (i_blocks _ _ _ I).
  - intros B f. constructor; auto; try lia.
    + apply Z.le_refl.
    + intros o ob Ho _. exists ob. auto.
    + intros c v Hc Hl. destruct (INV c v Hc) as (d' & [(Hd & [(_ & -> & _) | Q]) | (_ & Q)]); [eauto | lia | lia].
    + intros o c _ Hb Hc. apply KEEP; auto. apply (i_mown _ _ _ I c o Hb).
    + intros i Hi Ht. apply MC. lia.
    + intros c ((v & Q1) & Q2 & Q3). split; [| split].
      * exists v. apply KEEP; auto.
      * exact Q2.
      * change (m_base s') with n. apply cell_bounds in Q1. fold n in Q1. lia.
    + exists []. rewrite app_nil_r. reflexivity.
  - change (m_cap s') with (cap * 2). lia.
Qed.

Lemma push_ok rel P B o s : ok P P B s -> live s o ->
  exists s', push_mortal rel o s = Ok s' /\
    inv P s' /\ logok B s' /\ ext B (m_top s) s s' /\ m_top s' = m_top s + 1 /\
    cell s' (m_base s' + m_top s) = Some (Strong o) /\ log s' = log s /\ shape s s' /\
    (forall c v, ~ (m_base s <= c < m_base s + m_cap s) -> cell s c = Some v -> cell s' c = Some v).
Proof.
  intros [I HD HI HL] Ho. unfold push_mortal. fold (widen s).
  destruct (widen_ok P s I) as (I1 & X1 & T1 & L1 & SH1 & C1 & D1 & _ & KP1). set (s1 := widen s) in *.
  assert (CP1 : forall c v, cell s c = Some v -> ~ (m_base s <= c < m_base s + m_cap s) -> c <> m_base s1 + m_top s1).
  { intros c v Hv Hn ->. apply cell_bounds in Hv. unfold s1, widen in *. destruct (m_top s >=? m_cap s) eqn:EE.
    - cbn [m_base set_mortal m_top] in *. pose proof (i_mort _ _ _ I). lia.
    - pose proof (i_mort _ _ _ I). lia. }
  pose proof (i_mort _ _ _ I1) as M.
  destruct (i_mcell _ _ _ I1 (m_base s1 + m_top s1)) as (v & Hc & Hv & _); [lia |].
  rewrite Hv in Hc by lia. clear v Hv.
  unfold assign, unweaken. rewrite Hc. cbn [rbind target].
  set (s2 := set_mortal (m_base s1) (m_top s1 + 1) (m_cap s1) s1).
  assert (I2 : inv P s2).
  { destruct I1. constructor; auto; unfold s2; cbn [set_mortal m_base m_top m_cap].
    - change (zlen (cells (set_mortal (m_base s1) (m_top s1 + 1) (m_cap s1) s1))) with (zlen (cells s1)). lia.
    - intros c Hr. destruct (i_mcell c Hr) as (v & Q1 & Q2 & Q3). exists v. split; [auto |]. split; [| auto].
      intros. apply Q2. lia. }
  apply (shape_live _ _ _ SH1) in Ho.
  destruct (store_step (-1) P s2 (m_base s1 + m_top s1) Null (Some o) I2 Hc) as (s3 & E3 & H3); auto.
  { congruence. }
  { intros q Q. injection Q as <-. exact Ho. }
  { unfold s2. cbn [set_mortal m_base m_top m_cap]. lia. }
  cbn [inc_opt] in E3. cbv zeta in H3.
  destruct H3 as (I3 & C3 & X3 & L3 & D3 & B3 & T3 & K3 & SH3).
  cbn [target opt_cons newref] in *.
  assert (E : inc o s1 = Ok (set_mortal (m_base s1) (m_top s1) (m_cap s1) s3) /\
    set_mortal (m_base s1) (m_top s1 + 1) (m_cap s1) (write (m_base s1 + m_top s1) (Strong o)
       (set_mortal (m_base s1) (m_top s1) (m_cap s1) s3)) = write (m_base s1 + m_top s1) (Strong o) s3).
  { unfold inc in *. change (get_obj s2 o) with (get_obj s1 o) in E3.
    destruct (get_obj s1 o) as [ob |]; [| discriminate]. destruct (0 <=? o_rc ob); [| discriminate].
    injection E3 as <-. destruct s1; split; reflexivity. }
  destruct E as (E & E'). rewrite E. cbn [rbind]. eexists. split; [reflexivity |].
  match goal with |- inv P ?x /\ _ => change x with (set_mortal (m_base s1) (m_top s1 + 1) (m_cap s1) (write (m_base s1 + m_top s1) (Strong o)
       (set_mortal (m_base s1) (m_top s1) (m_cap s1) s3))) end.
  rewrite E'. set (s4 := write _ _ s3) in *.
  assert (CE : forall d, cell s4 d = if d =? m_base s1 + m_top s1 then Some (Strong o) else cell s1 d).
  { intros d. unfold cell. rewrite C3. change (cells s2) with (cells s1). rewrite znth_upd.
    destruct (Z.eqb_spec d (m_base s1 + m_top s1)); auto. subst d.
    destruct (Z.leb_spec 0 (m_base s1 + m_top s1)); [| lia].
    destruct (Z.ltb_spec (m_base s1 + m_top s1) (zlen (cells s1))); [reflexivity | lia]. }
  split; [auto |]. split; [| split; [| split; [| split; [| split; [| split]]]]].
  - apply (logok_shape B s1); [exact SH3 | auto |]. apply (logok_shape B s); auto.
  - apply (ext_trans _ _ s s1 _); [lia | apply X1 |]. apply (ext_trans _ _ s1 s2 _); [lia | |].
    + unfold s2. constructor; cbn [set_mortal m_base m_top m_cap cells objs dying log]; auto; try lia.
      * intros q ob Hq _. exists ob. auto.
      * intros c w Hw _. exists w. auto.
      * exists []. rewrite app_nil_r. reflexivity.
    + apply X3.
      * change (m_base s2) with (m_base s1). lia.
      * right. intros q Hq Hb. change (belongs s1 (m_base s1 + m_top s1) q) in Hb.
        apply (i_mown _ _ _ I1 _ _ Hb). lia.
  - rewrite T3. change (m_top s2) with (m_top s1 + 1). lia.
  - rewrite B3. change (m_base s2) with (m_base s1). rewrite CE, <- T1, Z.eqb_refl. reflexivity.
  - rewrite L3. exact L1.
  - eapply shape_trans; [exact SH1 | exact SH3].
  - intros c v Hn Hv. rewrite CE. destruct (Z.eqb_spec c (m_base s1 + m_top s1)); [destruct (CP1 c v); auto | auto].
Qed.

(** ** Weakening *)
Lemma weaken_ok rel P B f c s : good_rel rel -> ok P P B s -> (exists v, cell s c = Some v) ->
  ~ (m_base s <= c < m_base s + m_cap s) -> f <= m_top s ->
  post (fun s' => inv P s' /\ logok B s' /\ ext B f s s' /\ m_top s' = m_top s) (weaken rel c s).
Proof.
  intros HR [I HD HI HL] (v & Hc) Hm Hf. unfold weaken. rewrite Hc. destruct v as [| o | o].
  1, 3: cbn; right; auto using ext_refl.
  destruct (i_live _ _ _ I c _ o Hc eq_refl) as (ob & Hob). rewrite Hob.
  pose proof (i_rc _ _ _ I o ob Hob). pose proof (refs_pos _ _ _ Hc). pose proof (pcount_nonneg o P).
  destruct (Z.ltb_spec 0 (o_rc ob)); [| lia]. cbn [negb]. destruct (Z.eqb_spec (o_rc ob) 1).
  - destruct (store_step (-1) P s c (Strong o) None I Hc) as (s1 & E1 & HH1); auto; try congruence.
    cbn [inc_opt] in E1. injection E1 as <-. cbn [newref target opt_cons] in HH1. cbv zeta in HH1.
    destruct HH1 as (I1 & _ & X1 & L1 & D1 & B1 & T1 & K1 & SH1).
    assert (X1' : ext B f s (write c Null s)) by (apply X1; auto; pose proof (i_mort _ _ _ I); lia).
    eapply post_imp.
    + apply (HR P B o). constructor; auto.
    + intros s' (I' & HL' & X' & T'). cbn beta. split; [auto |]. split; [auto |]. split; [| congruence].
      apply (ext_trans _ _ s (write c Null s) s'); auto. rewrite T1 in *.
      apply (ext_weaken B B (m_top s) f); auto; try lia. apply incl_refl.
  - destruct (weaken_step P s c o ob I Hc Hob) as (s1 & E1 & ob1 & G1 & I1 & _ & X1 & L1 & D1 & B1 & T1 & K1 & SH1); auto; try lia.
    rewrite E1. cbn [rbind]. rewrite G1. cbn [post]. right. split; [auto |]. split; [| split; auto].
    apply (logok_shape B s); auto.
Qed.

Lemma usable_cell s c : usable s c = true ->
  (exists v, cell s c = Some v) /\ ~ (m_base s <= c < m_base s + m_cap s).
Proof.
  unfold usable. destruct (cell s c) as [v |]; [| discriminate]. cbn [andb]. intros H. split; [eauto |].
  destruct (Z.leb_spec (m_base s) c), (Z.ltb_spec c (m_base s + m_cap s)); cbn in H; try discriminate; lia.
Qed.
Lemma dying_owner_none s c : dying_owner s c = None -> forall o, In o (dying s) -> ~ belongs s c o.
Proof.
  unfold dying_owner. intros H o Ho (ob & Hob & Hr). pose proof (find_none _ _ H o Ho) as Q. cbn in Q.
  rewrite Hob in Q. unfold owns in Q. lia.
Qed.

Lemma exec_ok rel P B fuel floor op s : good_rel rel -> (forall q, tainted q -> forall p, tp (rel p q)) ->
  ok P P B s -> 0 <= floor <= m_top s ->
  post (fun s' => inv P s' /\ logok B s' /\ ext B floor s s') (exec rel fuel floor op s).
Proof.
  intros HR HT K Hf. destruct K as [I HD HI HL] eqn:EK. clear EK.
  destruct op as [n | dst n dt | dst src | dst | c | c | src | top]; cbn [exec].
  - cbn. right. split; [apply grow_inv; auto |]. split; [| apply grow_ext with P; auto].
    apply (logok_shape B s); auto. apply shape_same; reflexivity.
  - destruct (usable s dst && (0 <=? n)) eqn:U; [| cbn; auto using ext_refl].
    apply andb_prop in U. destruct U as (U & Un). apply usable_cell in U. destruct U as ((v & Hv) & Hm).
    unfold note_store. destruct (dying_owner s dst) as [q |] eqn:Dq.
    + apply tp_post, tp_assign; auto. exists q. cbn. rewrite <- app_assoc. apply in_or_app. right. cbn. auto.
    + change (add_blocks 1 _) with (with_new n dt s).
      destruct (new_ok P B n dt s) as (I1 & HL1 & X1 & LV1 & BL1); auto; [lia |].
      set (s1 := with_new n dt s) in *. eapply post_imp.
      * assert (Hv1 : cell s1 dst = Some v) by (apply (cell_grow_old s s1 n); auto).
        apply (assign_ok rel (zlen (objs s)) P B floor dst v (Some (zlen (objs s))) s1); auto.
        -- intros o Q. injection Q as <-. auto.
        -- right. intros o Ho Hb. apply (dying_owner_none _ _ Dq o Ho). apply BL1; auto.
           apply HD in Ho. destruct (i_pend _ _ _ I o Ho) as (ob & Q). apply obj_bounds in Q. lia.
      * intros s' (I' & HL' & X' & T' & _). cbn beta. split; [auto |]. split; [auto |].
        apply (ext_trans _ _ s s1 s'); auto; lia.
  - destruct (usable s dst && usable s src) eqn:U; [| cbn; auto using ext_refl].
    apply andb_prop in U. destruct U as (U & U2). apply usable_cell in U. destruct U as ((v & Hv) & Hm).
    destruct (cell s src) as [w |] eqn:Hw; [| cbn; auto using ext_refl].
    destruct (target w) as [o |] eqn:Ht.
    + unfold note_store. destruct (dying_owner s dst) as [q |] eqn:Dq.
      * apply tp_post, tp_assign; auto. exists q. cbn. apply in_or_app. right. cbn. auto.
      * eapply post_imp; [apply (assign_ok rel (-1) P B floor dst v (Some o) s); auto |].
        -- intros o' Q. injection Q as <-. apply (i_live _ _ _ I src w o Hw Ht).
        -- right. apply (dying_owner_none _ _ Dq).
        -- intros s' (I' & HL' & X' & _). auto.
    + eapply post_imp; [apply (assign_ok rel (-1) P B floor dst v None s); auto; congruence |].
      intros s' (I' & HL' & X' & _). auto.
  - destruct (usable s dst) eqn:U; [| cbn; auto using ext_refl].
    apply usable_cell in U. destruct U as ((v & Hv) & Hm).
    eapply post_imp; [apply (assign_ok rel (-1) P B floor dst v None s); auto; congruence |].
    intros s' (I' & HL' & X' & _). auto.
  - destruct (usable s c) eqn:U; [| cbn; auto using ext_refl].
    apply usable_cell in U. destruct U as (Hv & Hm).
    eapply post_imp; [apply (weaken_ok rel P B floor c s); auto; lia |]. intros s' (I' & HL' & X' & _). auto.
  - destruct (usable s c) eqn:U; [| cbn; auto using ext_refl].
    apply usable_cell in U. destruct U as ((v & Hv) & Hm).
    destruct (unweaken_step (-1) P s c v I Hv) as (s1 & E1 & I1 & _ & X1 & _ & L1 & D1 & _ & _ & _ & SH1).
    rewrite E1. cbn. right. split; [auto |]. split; [| auto]. apply (logok_shape B s); auto.
  - destruct (usable s src); [| cbn; auto using ext_refl].
    destruct (cell s src) as [w |] eqn:Hw; [| cbn; auto using ext_refl].
    destruct (target w) as [o |] eqn:Ht; [| cbn; auto using ext_refl].
    destruct (push_ok rel P B o s) as (s' & E' & I' & HL' & X' & T' & _); auto; [apply (i_live _ _ _ I src w o Hw Ht) |].
    rewrite E'. cbn [post]. right. split; [auto |]. split; [auto |].
    apply (ext_weaken B B (m_top s) floor); auto; try lia. apply incl_refl.
  - destruct ((floor <=? top) && (top <=? m_top s)) eqn:U; [| cbn; auto using ext_refl].
    eapply post_imp; [apply (leave_ok rel P B top fuel s); auto; lia |].
    intros s' (I' & HL' & X' & T'). cbn beta. split; [auto |]. split; [auto |].
    apply (ext_weaken B B top floor); auto; try lia. apply incl_refl.
Qed.

Lemma run_ok rel P B fuel floor : good_rel rel -> (forall q, tainted q -> forall p, tp (rel p q)) -> forall ops s,
  ok P P B s -> 0 <= floor <= m_top s ->
  post (fun s' => inv P s' /\ logok B s' /\ ext B floor s s') (run rel fuel floor ops s).
Proof.
  intros HR HT. induction ops as [| op ops IH]; intros s K Hf; cbn [run].
  - destruct K. cbn. auto using ext_refl.
  - eapply post_bind; [apply (exec_ok rel P B fuel floor op s); auto | |].
    + intros q Tq. apply tp_run; auto.
    + intros s1 (I1 & HL1 & X1). destruct K as [I HD HI HL].
      pose proof (e_top _ _ _ _ X1). eapply post_imp; [apply IH |].
      * constructor; auto. apply (dok_ext P _ _ _ _ X1). auto.
      * lia.
      * intros s2 (I2 & HL2 & X2). cbn beta. split; [auto |]. split; [auto |].
        apply (ext_trans _ _ s s1 s2); auto; lia.
Qed.

(** ** Calling DESTROY *)
Lemma destroy_ok dtor rel P B fuel o s :
  good_rel rel -> (forall q, tainted q -> forall p, tp (rel p q)) ->
  ok (o :: P) (o :: P) (o :: B) s -> ~ In o B ->
  post (fun s' => inv (o :: P) s' /\ logok (o :: B) s' /\ ext B (m_top s) s s' /\ m_top s' = m_top s /\
          story o s' = story o s ++ [EDestroy o (strong_refs s o)])
    (call_destroy dtor rel fuel o s).
Proof.
  intros HR HT [I HD HI HL] NB. unfold call_destroy.
  assert (LV : live s o) by (apply (i_pend _ _ _ I); cbn; auto).
  pose proof (i_mort _ _ _ I) as M.
  set (e := EDestroy o (strong_refs s o)).
  set (s1 := set_cells (fun l => l ++ [Some Null]) (add_log e s)).
  set (self := zlen (cells s)).
  assert (Ia : inv (o :: P) (add_log e s)) by (apply (inv_same (-1) (o :: P) s); auto).
  assert (AB : forall q, q <> o -> about q e = false).
  { intros q Q. cbn. destruct (Z.eqb_spec o q); congruence. }
  assert (La : logok (o :: B) (add_log e s)).
  { apply (logok_about _ _ o); auto; try congruence; [cbn; auto |]. unfold e. congruence. }
  assert (Xa : ext B (m_top s) s (add_log e s)).
  { apply ext_same; auto. 2: eexists; reflexivity. intros q Hq. apply story_other, AB. congruence. }
  change (fun l : list (option ref) => l ++ [Some Null]) with (fun l => l ++ zrep 1 (Some Null)) in s1.
  assert (I1 : inv (o :: P) s1) by (apply grow_inv; auto).
  assert (L1 : logok (o :: B) s1).
  { apply (logok_shape _ (add_log e s)); auto. apply shape_same; reflexivity. }
  assert (X1' : forall B', ext B' (m_top s) (add_log e s) s1) by (intros; apply grow_ext with (o :: P); auto).
  assert (St1 : story o s1 = story o s ++ [e]).
  { change (story o s1) with (story o (add_log e s)). apply story_own. cbn. apply Z.eqb_refl. }
  assert (C1 : cell s1 self = Some Null).
  { rewrite (cell_grow (add_log e s) s1 1) by reflexivity. change (zlen (cells (add_log e s))) with self.
    destruct (Z.ltb_spec self self); [lia |]. destruct (Z.ltb_spec self (self + 1)); [auto | lia]. }
  assert (Rt : var s1 self).
  { split; [eauto |]. split.
    - intros q (ob & Q1 & Q2). pose proof (i_range _ _ _ Ia q ob Q1). change (zlen (cells (add_log e s))) with self in *. lia.
    - change (m_base s1) with (m_base s). change (m_cap s1) with (m_cap s). unfold self. lia. }
  assert (X1 : ext B (m_top s) s s1).
  { apply (ext_trans _ _ s (add_log e s) s1); auto; lia. }
  assert (HD1 : dok (o :: P) s1) by (apply (dok_ext _ _ _ _ _ X1); auto).
  assert (INC : incl B (o :: B)) by (intros q Hq; cbn; auto).
  change (m_top s) with (m_top s1) in *.
  eapply post_bind.
  - apply (assign_ok rel (-1) (o :: P) (o :: B) (m_top s1) self Null (Some o) s1); auto.
    + lia.
    + intros q Q. injection Q as <-. apply (i_pend _ _ _ I1). cbn; auto.
    + left. apply Rt.
    + right. intros q _. apply Rt.
  - intros q Tq. apply tp_bind; [apply tp_run; auto |]. intros q2 Tq2.
    apply tp_bind; [apply tp_leave; auto |]. intros q3 Tq3. apply tp_assign; auto.
  - intros s2 (I2 & L2 & X2 & T2 & _).
    assert (HD2 : dok (o :: P) s2) by (apply (dok_ext _ _ _ _ _ X2); auto).
    eapply post_bind.
    + apply (run_ok rel (o :: P) (o :: B) fuel (m_top s1) HR HT (dtor s2 o self) s2); [constructor; auto | lia].
    + intros q2 Tq2. apply tp_bind; [apply tp_leave; auto |]. intros q3 Tq3. apply tp_assign; auto.
    + intros s3 (I3 & L3 & X3).
      assert (HD3 : dok (o :: P) s3) by (apply (dok_ext _ _ _ _ _ X3); auto).
      pose proof (e_top _ _ _ _ X3) as T3.
      eapply post_bind.
      * apply (leave_ok rel (o :: P) (o :: B) (m_top s1) fuel s3 HR HT); [constructor; auto | lia].
      * intros q3 Tq3. apply tp_assign; auto.
      * intros s4 (I4 & L4 & X4 & T4).
        assert (HD4 : dok (o :: P) s4) by (apply (dok_ext _ _ _ _ _ X4); auto).
        assert (V4 : var s4 self).
        { apply (e_var _ _ _ _ X4), (e_var _ _ _ _ X3), (e_var _ _ _ _ X2). auto. }
        destruct V4 as ((v & Hv) & Q4 & M4).
        eapply post_imp.
        -- apply (assign_ok rel (-1) (o :: P) (o :: B) (m_top s1) self v None s4); auto; [lia | congruence].
        -- intros s5 (I5 & L5 & X5 & T5 & _). cbn beta.
           assert (X15 : ext (o :: B) (m_top s1) s1 s5).
           { apply (ext_trans _ _ s1 s2 s5); [lia | auto |]. apply (ext_trans _ _ s2 s3 s5); [lia | auto |].
             apply (ext_trans _ _ s3 s4 s5); [lia | auto | auto]. }
           split; [auto |]. split; [auto |]. split; [| split; [congruence |]].
           ++ apply (ext_trans _ _ s s1 s5); auto; [change (m_top s1) with (m_top s); lia |].
              apply (ext_weaken (o :: B) B (m_top s1) (m_top s1)); auto; lia.
           ++ rewrite (e_story _ _ _ _ X15) by (cbn; auto). auto.
Qed.

(** ** Releasing an object *)
Lemma NoDup_dec_remove B o : ~ In o B -> remove Z.eq_dec o (o :: B) = B.
Proof.
  intros H. cbn. destruct (Z.eq_dec o o); [| congruence]. apply notin_remove. auto.
Qed.

Lemma release_good dtor fuel : good_rel (release dtor fuel).
Proof.
  induction fuel as [| fuel IH]; intros P B o s K; [cbn; auto |].
  assert (HT : forall q, tainted q -> forall p, tp (release dtor fuel p q)) by (intros; apply tp_release; auto).
  set (rel := release dtor fuel) in *.
  destruct K as [I HD HI HL]. destruct (i_pend _ _ _ I o) as (ob & Hob); [cbn; auto |].
  pose proof (i_rc _ _ _ I o ob Hob) as RC. rewrite pcount_cons, Z.eqb_refl in RC.
  pose proof (refs_nonneg s o) as R0. pose proof (pcount_nonneg o P) as P0.
  cbn [release]. fold rel. rewrite Hob. destruct (Z.ltb_spec 0 (o_rc ob)); [| lia]. cbn [negb].
  destruct (Z.ltb_spec 1 (o_rc ob)) as [H1 | H1].
  { destruct (drop_step P s o ob I Hob H1) as (E & I' & X' & SH). rewrite E. cbn [post]. right.
    split; [auto |]. split; [apply (logok_shape B s); auto |]. split; auto. }
  assert (Rz : strong_refs s o = 0) by lia. assert (Pz : pcount o P = 0) by lia.
  assert (NP : ~ In o P) by (rewrite pcount_In; lia).
  assert (NB : ~ In o B) by auto. assert (ND : ~ In o (dying s)) by auto.
  assert (HI' : incl (o :: B) (o :: P)).
  { intros q [-> | Q]; cbn; auto. }
  assert (HL' : logok (o :: B) s).
  { intros q. destruct (HL q) as [Q | (Q1 & Q2 & Q3)]; auto. right. split; [auto |]. split; [| auto].
    intros obq Hq. destruct (Q2 obq Hq) as [Q | Q]; cbn; auto. }
  assert (HD' : dok (o :: P) s) by (intros q Q; cbn; auto).
  assert (ST : In (ESurvive o) (log s) \/ story o s = [ENew o (o_base ob) (o_len ob) (o_dtor ob)]).
  { destruct (HL o) as [Q | (_ & Q & _)]; auto. destruct (Q ob Hob) as [Q' | Q']; auto. tauto. }
  pose proof (i_mort _ _ _ I) as M.
  pose proof (obj_bounds _ _ _ Hob) as OBN.
  pose proof (i_range _ _ _ I o ob Hob) as RG.
  assert (REM : remove Z.eq_dec o (o :: B) = B) by (apply NoDup_dec_remove; auto).
  (* DESTROY *)
  eapply (post_bind (fun s1 => inv (o :: P) s1 /\ logok (o :: B) s1 /\ ext B (m_top s) s s1 /\ m_top s1 = m_top s /\
     story o s1 = story o s ++ (if o_dtor ob then [EDestroy o 0] else []))).
  { destruct (o_dtor ob).
    - rewrite <- Rz. apply destroy_ok; auto. constructor; auto.
    - cbn. right. rewrite app_nil_r. do 2 (split; [auto |]). split; [apply ext_refl | auto]. }
  { intros q Tq. apply tp_bind; [apply tp_clear_fields; auto |].
    intros q2 Tq2. apply tp_bind; [apply tp_dec; auto |].
    intros q3 Tq3. destruct (get_obj q3 o) as [obq |]; [| cbn; auto]. destruct (o_rc obq =? 0).
    - apply tp_bind; [apply tp_free_backrefs; auto |]. intros q4 Tq4. cbn. apply add_log_tainted. auto.
    - cbn. apply add_log_tainted. auto. }
  intros s1 (I1 & L1 & X1 & T1 & St1).
  destruct (i_pend _ _ _ I1 o) as (ob1 & Hob1); [cbn; auto |].
  destruct (e_obj _ _ _ _ X1 o ob1 Hob1) as (ob' & Q & F1 & F2 & F3); [lia |].
  rewrite Hob in Q. injection Q as <-.
  pose proof (e_dying _ _ _ _ X1) as D1.
  set (s2 := set_dying (o :: dying s1) s1).
  assert (I2 : inv (o :: P) s2) by (apply (inv_same (-1) (o :: P) s1); auto).
  assert (L2 : logok (o :: B) s2) by (apply (logok_shape _ s1); auto; apply shape_same; reflexivity).
  assert (K2 : ok (o :: P) (o :: P) (o :: B) s2).
  { constructor; auto. unfold s2. intros q [<- | Q]; [cbn; auto |]. right. apply HD. congruence. }
  eapply post_bind.
  { apply (clear_fields_ok rel (o :: P) (o :: B) o (Z.to_nat (o_len ob)) IH (o_base ob) s2); auto.
    - cbn; auto.
    - intros d Hd. exists ob1. split; [auto |]. lia. }
  { intros q2 Tq2. apply tp_bind; [apply tp_dec; auto |].
    intros q3 Tq3. destruct (get_obj q3 o) as [obq |]; [| cbn; auto]. destruct (o_rc obq =? 0).
    - apply tp_bind; [apply tp_free_backrefs; auto |]. intros q4 Tq4. cbn. apply add_log_tainted. auto.
    - cbn. apply add_log_tainted. auto. }
  intros s3 (I3 & L3 & X3 & T3 & St3 & N3). rewrite REM in X3. rewrite Z2Nat.id in St3, N3 by lia.
  assert (D3 : dying s3 = o :: dying s) by (rewrite (e_dying _ _ _ _ X3); cbn; rewrite D1; auto).
  set (s4 := set_dying (tl (dying s3)) s3).
  assert (D4 : dying s4 = dying s) by (unfold s4; cbn; rewrite D3; auto).
  assert (I4 : inv (o :: P) s4) by (apply (inv_same (-1) (o :: P) s3); auto).
  assert (L4 : logok (o :: B) s4) by (apply (logok_shape _ s3); auto; apply shape_same; reflexivity).
  destruct (i_pend _ _ _ I4 o) as (ob4 & Hob4); [cbn; auto |].
  destruct (e_obj _ _ _ _ X3 o ob4 Hob4) as (ob2 & Q & G1 & G2 & G3).
  { pose proof (e_objs _ _ _ _ X1). change (objs s2) with (objs s1). lia. }
  change (get_obj s2 o) with (get_obj s1 o) in Q. rewrite Hob1 in Q. injection Q as <-.
  change (m_top s2) with (m_top s1) in *. change (story o s2) with (story o s1) in *.
  (* s -> s4, with the list of dying objects as at the beginning *)
  assert (X4 : ext B (m_top s) s s4).
  { apply (ext_trans _ _ s s1 s4); [lia | auto |]. rewrite T1 in X3. destruct X3. constructor; auto.
    - rewrite D4. auto.
    - intros q Hq. apply e_pend. cbn; auto.
    - intros q c Hq. apply e_null. cbn; auto. }
  assert (St4 : story o s4 = story o s ++ (if o_dtor ob then [EDestroy o 0] else []) ++
                               map (EField o) (span (o_base ob) (o_len ob))).
  { change (story o s4) with (story o s3). rewrite St3, St1, app_assoc. reflexivity. }
  assert (SV : In (ESurvive o) (log s) -> In (ESurvive o) (log s4)).
  { destruct (e_log _ _ _ _ X4) as (l & ->). intros Q. apply in_or_app. auto. }
  destruct (Z_lt_dec 1 (o_rc ob4)) as [SURV | NS].
  - destruct (drop_step P s4 o ob4 I4 Hob4 SURV) as (E & I5 & X5 & SH5). rewrite E. cbn [rbind].
    rewrite obj_put by (apply (obj_bounds _ _ _ Hob4)). rewrite Z.eqb_refl. cbn [with_rc o_rc].
    destruct (Z.eqb_spec (o_rc ob4 - 1) 0); [lia |]. cbn [post]. right.
    set (s5 := put_obj o _ s4) in *.
    split; [apply (inv_same (-1) P s5); auto |]. split; [| split].
    + intros q. destruct (Z.eq_dec q o) as [-> | Nq].
      * left. cbn. apply in_or_app. right. cbn; auto.
      * pose proof (logok_shape _ s4 s5 SH5 eq_refl L4 q) as Lq. destruct Lq as [Q | (Q1 & Q2 & Q3)].
        { left. cbn. apply in_or_app. auto. }
        right. rewrite (story_other q) by (cbn; destruct (Z.eqb_spec o q); congruence).
        split; [auto |]. split; [| auto]. intros obq Hq. destruct (Q2 obq Hq) as [[Q | Q] | Q]; auto. congruence.
    + apply (ext_trans _ _ s s4 _); [lia | auto |]. apply (ext_trans _ _ s4 s5 _); [| auto |].
      * apply (e_top _ _ _ _ X4). lia.
      * apply ext_same; auto. 2: eexists; reflexivity. intros q Hq.
        apply story_other. cbn. destruct (Z.eqb_spec o q); congruence.
    + change (m_top s3 = m_top s). congruence.
  - assert (R4 : o_rc ob4 = 1).
    { pose proof (i_pos _ _ _ I4 o ob4 Hob4). lia. }
    destruct (free_step P s4 o ob4 I4 Hob4 R4) as (s5 & E5 & H5).
    { intros c Hc. change (cell s3 c = Some Null). apply N3.
      - exists ob1. split; [auto | lia].
      - left. lia. }
    { rewrite D4. auto. }
    assert (E : dec o s4 = Ok (put_obj o (with_rc 0 ob4) s4)).
    { unfold dec. rewrite Hob4. destruct (Z.ltb_spec 0 (o_rc ob4)); [| lia]. rewrite R4. reflexivity. }
    rewrite E. cbn [rbind]. rewrite obj_put by (apply (obj_bounds _ _ _ Hob4)). rewrite Z.eqb_refl.
    change (o_rc (with_rc 0 ob4) =? 0) with true. cbn beta iota.
    change (o_back (with_rc 0 ob4)) with (o_back ob4). rewrite E5. cbn [rbind post]. right.
    change (o_base (with_rc 0 ob4)) with (o_base ob4). change (o_len (with_rc 0 ob4)) with (o_len ob4).
    fold (free_obj o ob4 s5). cbv zeta in H5. set (s6 := free_obj o ob4 s5) in *.
    destruct H5 as (I6 & X6 & T6 & B6 & L6 & G6 & C6).
    split; [auto |]. split; [| split].
    + assert (ST6 : story o s6 = story o s4 ++ [EFree o]).
      { unfold story. rewrite L6, filter_app. cbn. rewrite Z.eqb_refl. reflexivity. }
      assert (OL : zlen (objs s6) = zlen (objs s4)).
      { assert (Q : objs s5 = objs (put_obj o (with_rc 0 ob4) s4)).
        { destruct (free_backrefs_ok o (o_back ob4) (put_obj o (with_rc 0 ob4) s4)) as (s5' & E5' & _ & Q & _).
          - apply (i_back _ _ _ I4 o ob4 Hob4).
          - intros c Hc. apply (i_back _ _ _ I4 o ob4 Hob4). auto.
          - rewrite E5 in E5'. injection E5' as <-. auto. }
        unfold s6, free_obj, add_log, add_blocks, set_objs, set_cells. cbn [objs]. rewrite Q.
        unfold put_obj, set_objs. cbn [objs]. rewrite !zlen_upd. reflexivity. }
      intros q. destruct (Z.eq_dec q o) as [-> | Nq].
      * destruct ST as [Q | ST]; [left; rewrite L6; apply in_or_app; auto |]. right.
        pose proof (e_objs _ _ _ _ X4). rewrite G6, Z.eqb_refl, OL.
        split; [lia |]. split; [discriminate |]. intros _ _. exists (o_base ob), (o_len ob), (o_dtor ob).
        rewrite ST6, St4, ST. unfold whole_life. rewrite <- !app_assoc. reflexivity.
      * destruct (L4 q) as [Q | (Q1 & Q2 & Q3)]; [left; rewrite L6; apply in_or_app; auto |]. right.
        assert (STq : story q s6 = story q s4).
        { unfold story. rewrite L6, filter_app. cbn. destruct (Z.eqb_spec o q); [congruence |]. apply app_nil_r. }
        rewrite STq, G6, OL. destruct (Z.eqb_spec q o); [congruence |].
        split; [auto |]. split; [| auto]. intros obq Hq. destruct (Q2 obq Hq) as [[Q | Q] | Q]; auto. congruence.
    + apply (ext_trans _ _ s s4 _); [lia | auto |]. apply X6. auto.
    + rewrite T6. change (m_top s3 = m_top s). congruence.
Qed.
