(** * Programs whose destructors do nothing: every operation ends, and changes
    nothing but what it should *)
From Verif Require Import Base Mem_model Mem_spec Mem_proofs Mem_inv Mem_safe.

(** [D]: the cells that were assigned. *)
Record fr (D : Z -> Prop) (s s' : mem) : Prop := mk_fr {
  f_len : zlen (objs s') = zlen (objs s);
  f_cells : zlen (cells s) <= zlen (cells s');
  f_nt : tainted s' -> tainted s;
  f_m : m_base s' = m_base s /\ m_cap s' = m_cap s;
  f_obj : forall o ob', get_obj s' o = Some ob' ->
            exists ob, get_obj s o = Some ob /\ o_base ob' = o_base ob /\ o_len ob' = o_len ob;
  f_dead : forall c, 0 <= c < zlen (cells s) -> cell s c = None -> cell s' c = None;
  f_gone : forall c v, cell s c = Some v -> cell s' c = None -> exists q, belongs s c q /\ ~ live s' q;
  f_cell : forall c v v', cell s c = Some v -> cell s' c = Some v' ->
            D c \/ v' = v \/ exists q, v = Weak q /\ ~ live s' q /\ v' = Null;
  f_new : forall c v, zlen (cells s) <= c -> cell s' c = Some v -> D c \/ v = Null;
  f_own : forall c q, belongs s c q -> ~ live s' q -> 0 <= c < zlen (cells s) -> cell s' c = None
}.

Lemma own_same s s' : (forall o, live s o -> live s' o) ->
  forall c q, belongs s c q -> ~ live s' q -> 0 <= c < zlen (cells s) -> cell s' c = None.
Proof. intros H c q (ob & Q & _) N. destruct N. apply H. exists ob. auto. Qed.

Lemma fr_refl D s : fr D s s.
Proof. constructor; auto; try lia; try congruence; eauto.
  - intros. right. left. congruence.
  - intros c v H Hc. apply cell_bounds in Hc. lia.
  - apply own_same. auto.
Qed.

Lemma fr_live D s s' o : fr D s s' -> live s' o -> live s o.
Proof. intros F (ob & H). destruct (f_obj _ _ _ F o ob H) as (ob1 & Q & _). exists ob1. auto. Qed.
Lemma fr_belongs D s s' c o : fr D s s' -> belongs s' c o -> belongs s c o.
Proof.
  intros F (ob & H & R). destruct (f_obj _ _ _ F o ob H) as (ob1 & Q & E1 & E2). exists ob1. split; auto. lia.
Qed.

Lemma fr_trans (D : Z -> Prop) s1 s2 s3 : fr D s1 s2 -> fr D s2 s3 -> fr D s1 s3.
Proof.
  intros F G. constructor.
  - rewrite (f_len _ _ _ G). apply (f_len _ _ _ F).
  - pose proof (f_cells _ _ _ F). pose proof (f_cells _ _ _ G). lia.
  - intros T. apply (f_nt _ _ _ F), (f_nt _ _ _ G), T.
  - destruct (f_m _ _ _ F), (f_m _ _ _ G). split; congruence.
  - intros o ob3 H3. destruct (f_obj _ _ _ G o ob3 H3) as (ob2 & H2 & E1 & E2).
    destruct (f_obj _ _ _ F o ob2 H2) as (ob1 & H1 & E3 & E4). exists ob1. split; auto. split; congruence.
  - intros c Hc H1. apply (f_dead _ _ _ G); [pose proof (f_cells _ _ _ F); lia | apply (f_dead _ _ _ F); auto].
  - intros c v H1 H3. destruct (cell s2 c) as [v2 |] eqn:E2.
    + destruct (f_gone _ _ _ G c v2 E2 H3) as (q & Q1 & Q2). exists q. split; auto. apply (fr_belongs D s1 s2); auto.
    + destruct (f_gone _ _ _ F c v H1 E2) as (q & Q1 & Q2). exists q. split; auto. intros Q. apply Q2. apply (fr_live D s2 s3); auto.
  - intros c v v3 H1 H3. pose proof (cell_bounds _ _ _ H1) as CB. destruct (cell s2 c) as [v2 |] eqn:E2.
    + destruct (f_cell _ _ _ F c v v2 H1 E2) as [Q | [-> | (q & -> & Q1 & ->)]]; auto.
      * apply (f_cell _ _ _ G c v v3); auto.
      * destruct (f_cell _ _ _ G c Null v3 E2 H3) as [Q | [-> | (q' & Q & _)]]; [auto | | discriminate].
        right. right. exists q. split; auto. split; [| auto]. intros Q. apply Q1. apply (fr_live D s2 s3); auto.
    + rewrite (f_dead _ _ _ G c) in H3; [discriminate | | auto]. pose proof (f_cells _ _ _ F). lia.
  - intros c v Hl H3. destruct (Z_lt_dec c (zlen (cells s2))) as [L | L]; [| apply (f_new _ _ _ G); auto; lia].
    pose proof (zlen_nonneg (cells s1)).
    destruct (cell s2 c) as [v2 |] eqn:E2; [| rewrite (f_dead _ _ _ G c) in H3; [discriminate | lia | auto]].
    destruct (f_new _ _ _ F c v2 Hl E2) as [Q | ->]; auto.
    destruct (f_cell _ _ _ G c Null v E2 H3) as [Q | [-> | (q' & Q & _)]]; [auto | auto | discriminate].
  - intros c q (ob & Hq & Hr) N B. pose proof (f_cells _ _ _ F) as L. destruct (get_obj s2 q) as [ob2 |] eqn:E2.
    + apply (f_own _ _ _ G c q); auto; [| lia]. exists ob2. split; auto.
      destruct (f_obj _ _ _ F q ob2 E2) as (ob1 & H1 & E3 & E4). rewrite Hq in H1. injection H1 as <-. lia.
    + apply (f_dead _ _ _ G); [lia |]. apply (f_own _ _ _ F c q); auto; [exists ob; auto |].
      intros (ob2 & Q). congruence.
Qed.
Lemma fr_mono (D D' : Z -> Prop) s s' :
  (forall c v, cell s' c = Some v -> D c -> D' c \/ zlen (cells s) <= c /\ v = Null) -> fr D s s' -> fr D' s s'.
Proof.
  intros H F. destruct F. constructor; auto.
  - intros c v v' Hc Hv. destruct (f_cell0 c v v' Hc Hv) as [Q | Q]; auto.
    destruct (H c v' Hv Q) as [Q' | (Q' & _)]; auto. apply cell_bounds in Hc. lia.
  - intros c v Hc Hv. destruct (f_new0 c v Hc Hv) as [Q | Q]; auto. destruct (H c v Hv Q) as [Q' | (_ & Q')]; auto.
Qed.

Lemma fr_step s s' c old new : cell s c = Some old -> cells s' = zupd (cells s) c (Some new) -> shape s s' ->
  m_base s' = m_base s -> m_cap s' = m_cap s -> (tainted s' -> tainted s) -> fr (eq c) s s'.
Proof.
  intros Hc HC (SL & SH) M1 M2 T. pose proof (cell_bounds _ _ _ Hc) as CB.
  assert (C : forall d, cell s' d = if d =? c then Some new else cell s d).
  { intros d. unfold cell. rewrite HC, znth_upd. destruct (Z.eqb_spec d c); auto. subst.
    destruct (Z.leb_spec 0 c); [| lia]. destruct (Z.ltb_spec c (zlen (cells s))); [auto | lia]. }
  constructor; auto.
  - rewrite HC, zlen_upd. lia.
  - intros o ob' Ho. specialize (SH o). rewrite Ho in SH. destruct (get_obj s o) as [ob |]; [| tauto]. exists ob. tauto.
  - intros d Hd. rewrite C. destruct (Z.eqb_spec d c); subst; congruence.
  - intros d v Hd. rewrite C. destruct (Z.eqb_spec d c); congruence.
  - intros d v v' Hd. rewrite C. destruct (Z.eqb_spec d c); [auto |]. intros Q. right. left. congruence.
  - intros d v Hd. rewrite C. destruct (Z.eqb_spec d c); [auto |]. intros Q. apply cell_bounds in Q. lia.
  - apply own_same. intros o. apply (shape_live s s' o). split; auto.
Qed.

(** ** How many objects may still be released *)
Definition avail (s : mem) (P : list Z) : Z :=
  zlen (filter (fun o => match get_obj s (Z.of_nat o) with
                         | Some _ => if in_dec Z.eq_dec (Z.of_nat o) P then false else true
                         | None => false end) (seq 0 (length (objs s)))).

Lemma filter_le {A} (f g : A -> bool) l : (forall x, f x = true -> g x = true) -> zlen (filter f l) <= zlen (filter g l).
Proof.
  intros H. induction l as [| x l IH]; cbn [filter]; [lia |]. specialize (H x).
  destruct (f x), (g x); rewrite ?zlen_cons; try lia.
Qed.
Lemma filter_lt {A} (f g : A -> bool) l x : (forall y, f y = true -> g y = true) ->
  In x l -> f x = false -> g x = true -> zlen (filter f l) < zlen (filter g l).
Proof.
  intros H. induction l as [| y l IH]; cbn [filter]; intros Hx Hf Hg; [destruct Hx |].
  destruct Hx as [-> | Hx].
  - rewrite Hf, Hg, zlen_cons. pose proof (filter_le f g l H). lia.
  - specialize (IH Hx Hf Hg). specialize (H y). destruct (f y), (g y); rewrite ?zlen_cons; try lia.
Qed.
Lemma avail_nonneg s P : 0 <= avail s P.
Proof. apply zlen_nonneg. Qed.
Lemma avail_le s P : avail s P <= zlen (objs s).
Proof.
  unfold avail. etransitivity; [apply filter_le with (g := fun _ => true); auto |].
  generalize (seq 0 (length (objs s))) (seq_length (length (objs s)) 0). intros l L.
  unfold zlen. rewrite <- L. assert (forall l : list nat, filter (fun _ => true) l = l) as ->; [| lia].
  intros l'. induction l'; cbn; congruence.
Qed.
Lemma avail_mono D s s' P P' : fr D s s' -> incl P P' -> avail s' P' <= avail s P.
Proof.
  intros F HP. unfold avail. pose proof (f_len _ _ _ F) as L. unfold zlen in L.
  replace (length (objs s')) with (length (objs s)) by lia. apply filter_le. intros n.
  destruct (get_obj s' (Z.of_nat n)) as [ob' |] eqn:E'; [| discriminate].
  destruct (f_obj _ _ _ F _ _ E') as (ob & -> & _).
  destruct (in_dec Z.eq_dec (Z.of_nat n) P'); [discriminate |].
  destruct (in_dec Z.eq_dec (Z.of_nat n) P); auto.
Qed.
Lemma avail_cons s P o : live s o -> ~ In o P -> avail s (o :: P) < avail s P.
Proof.
  intros (ob & Ho) HP. pose proof (obj_bounds _ _ _ Ho) as B. unfold avail. apply filter_lt with (x := Z.to_nat o).
  - intros n. destruct (get_obj s (Z.of_nat n)); [| discriminate].
    destruct (in_dec Z.eq_dec (Z.of_nat n) (o :: P)) as [Q | Q]; [discriminate |].
    destruct (in_dec Z.eq_dec (Z.of_nat n) P); auto. cbn in Q. tauto.
  - apply in_seq. unfold zlen in B. lia.
  - rewrite Z2Nat.id by lia. rewrite Ho. destruct (in_dec Z.eq_dec o (o :: P)) as [| Q]; auto. cbn in Q. tauto.
  - rewrite Z2Nat.id by lia. rewrite Ho. destruct (in_dec Z.eq_dec o P); tauto.
Qed.

(** ** The operations *)
Definition quiet_rel (rel : Z -> mem -> res) (N : Z) : Prop := forall P B o s,
  ok (o :: P) P B s -> ~ tainted s -> avail s P < N ->
  exists s', rel o s = Ok s' /\ fr (fun _ => False) s s'.

Lemma post_Ok Q r s' : post Q r -> r = Ok s' -> ~ tainted s' -> Q s'.
Proof. intros H -> N. destruct H; tauto. Qed.

Lemma nottainted_log s s' : log s' = log s -> tainted s' -> tainted s.
Proof. intros E (o & H). exists o. congruence. Qed.

Lemma quiet_assign rel N z P B c old v s :
  quiet_rel rel N ->
  invz z P s -> dok P s -> incl B P -> logok B s -> ~ tainted s -> avail s P < N ->
  cell s c = Some old -> (forall o, v = Some o -> live s o) -> z = -1 \/ v = Some z ->
  ~ (m_base s <= c < m_base s + m_cap s) \/ v = None ->
  exists s', assign rel c v s = Ok s' /\ fr (eq c) s s' /\
    (cell s' c = Some (newref v) \/ cell s' c = None).
Proof.
  intros HQ I HD HI HL HT HA Hc Hv Hz Hm. unfold assign. rewrite Hc.
  destruct (unweaken_step z P s c old I Hc) as (s1 & E1 & I1 & C1 & _ & _ & L1 & D1 & B1 & T1 & K1 & SH1).
  rewrite E1. cbn [rbind].
  pose proof (cell_bounds _ _ _ Hc) as CB.
  assert (Hc1 : cell s1 c = Some (strengthen old)).
  { unfold cell. rewrite C1, znth_upd, Z.eqb_refl. destruct (Z.leb_spec 0 c); [| lia].
    destruct (Z.ltb_spec c (zlen (cells s))); [| lia]. reflexivity. }
  assert (F1 : fr (eq c) s s1).
  { apply (fr_step s s1 c old (strengthen old)); auto. apply nottainted_log; auto. }
  destruct (store_step z P s1 c (strengthen old) v I1 Hc1) as (s2 & E2 & H2).
  { destruct old; discriminate. }
  { intros o Ho. apply (shape_live _ _ _ SH1). auto. }
  { auto. }
  { rewrite B1, T1, K1. intros Q1 Q2. destruct Hm as [Hm | ->]; [tauto | auto]. }
  change (match v with Some o => inc o s1 | None => Ok s1 end) with (inc_opt v s1). rewrite E2. cbn [rbind].
  change (match v with Some o => Strong o | None => Null end) with (newref v).
  cbv zeta in H2. set (s3 := write c (newref v) s2) in *.
  destruct H2 as (I3 & C3 & _ & L3 & D3 & B3 & T3 & K3 & SH3).
  assert (F3 : fr (eq c) s1 s3).
  { apply (fr_step s1 s3 c (strengthen old) (newref v)); auto. apply nottainted_log; auto. }
  assert (F13 : fr (eq c) s s3) by (eapply fr_trans; eauto).
  assert (Hc3 : cell s3 c = Some (newref v)).
  { unfold cell. rewrite C3, znth_upd, Z.eqb_refl, C1, zlen_upd. destruct (Z.leb_spec 0 c); [| lia].
    destruct (Z.ltb_spec c (zlen (cells s))); [| lia]. reflexivity. }
  replace (target (strengthen old)) with (target old) in I3 by (destruct old; reflexivity).
  destruct (target old) as [o |]; cbn [opt_cons] in I3.
  - destruct (HQ P B o s3) as (s' & E' & F').
    + constructor; auto.
      * intros q Q. apply HD. congruence.
      * apply (logok_shape B s); [eapply shape_trans; eauto | congruence | auto].
    + intros T. apply HT. apply (f_nt _ _ _ F13 T).
    + pose proof (avail_mono _ _ _ P P F13 (incl_refl P)). lia.
    + exists s'. split; [auto |]. split.
      * eapply fr_trans; [eauto |]. apply (fr_mono (fun _ => False)); auto. tauto.
      * destruct (cell s' c) as [w |] eqn:Ew; [left | auto].
        destruct (f_cell _ _ _ F' c _ w Hc3 Ew) as [[] | [-> | (q & Q & _)]]; auto. destruct v; discriminate.
  - exists s3. auto.
Qed.

Lemma quiet_clear rel N P B o n : good_rel rel -> (forall q, tainted q -> forall p, tp (rel p q)) -> quiet_rel rel N ->
  forall c s,
  ok P P B s -> hd_error (dying s) = Some o -> In o B -> ~ tainted s -> avail s P < N ->
  (forall d, c <= d < c + Z.of_nat n -> belongs s d o) ->
  exists s', clear_fields rel o c n s = Ok s' /\ fr (fun d => belongs s d o) s s'.
Proof.
  intros HR HT HQ. induction n as [| n IH]; intros c s K Hdy HB Tn HA Hown; cbn [clear_fields].
  - exists s. auto using fr_refl.
  - destruct K as [I HD HI HL]. destruct (Hown c) as (ob & Hob & Hr); [lia |].
    set (s1 := add_log (EField o c) s).
    assert (I1 : inv P s1) by (apply (inv_same (-1) P s); auto).
    assert (AB : forall q, q <> o -> about q (EField o c) = false).
    { intros q Q. cbn. destruct (Z.eqb_spec o q); congruence. }
    assert (HL1 : logok B s1).
    { apply (logok_about B _ o); auto; try congruence. exists ob; auto. }
    assert (Tn1 : tainted s1 -> tainted s).
    { intros (q & Q). exists q. cbn in Q. apply in_app_or in Q. destruct Q as [Q | [Q | []]]; [auto | discriminate]. }
    assert (F1 : fr (fun d => belongs s d o) s s1).
    { constructor; auto; try (change (cells s1) with (cells s); lia).
      - intros q obq Q. exists obq. auto.
      - intros d v Q1 Q2. change (cell s1 d) with (cell s d) in Q2. congruence.
      - intros d v v' Q1 Q2. change (cell s1 d) with (cell s d) in Q2. right. left. congruence.
      - intros d v Q1 Q2. change (cell s1 d) with (cell s d) in Q2. apply cell_bounds in Q2. lia.
      - apply own_same. auto. }
    assert (Bc : belongs s c o) by (exists ob; auto).
    destruct (i_own _ _ _ I1 c o Bc) as (old & Hc).
    assert (HA1 : avail s1 P < N) by (pose proof (avail_mono _ _ _ P P F1 (incl_refl P)); lia).
    destruct (quiet_assign rel N (-1) P B c old None s1) as (s2 & E2 & F2 & _); auto; try congruence.
    rewrite E2. cbn [rbind].
    assert (Nt2 : ~ tainted s2) by (intros Q; apply Tn, Tn1, (f_nt _ _ _ F2 Q)).
    pose proof (i_mort _ _ _ I1) as M.
    assert (A2 := assign_ok rel (-1) P B (m_top s1) c old None s1 HR I1 HD HI HL1 ltac:(lia) Hc
       ltac:(congruence) (or_introl eq_refl) (or_introl (i_mown _ _ _ I1 c o Bc)) (or_introl eq_refl)).
    apply (post_Ok _ _ _ A2 E2) in Nt2 as (I2 & HL2 & X2 & T2 & _).
    assert (LV : live s2 o) by (apply (i_pend _ _ _ I2); auto).
    assert (SB : forall d, belongs s d o -> belongs s2 d o).
    { intros d Hd. apply (ext_belongs _ _ _ _ _ _ X2); auto. }
    destruct (IH (c + 1) s2) as (s3 & E3 & F3).
    + constructor; auto. apply (dok_ext P _ _ _ _ X2). auto.
    + rewrite (e_dying _ _ _ _ X2). auto.
    + auto.
    + intros Q. apply Tn, Tn1, (f_nt _ _ _ F2 Q).
    + pose proof (avail_mono _ _ _ P P F2 (incl_refl P)). lia.
    + intros d Hd. apply SB, Hown. lia.
    + exists s3. split; auto. eapply fr_trans; [exact F1 |]. eapply fr_trans.
      * apply (fr_mono (eq c)); [| exact F2]. intros d v _ <-. auto.
      * apply (fr_mono (fun d => belongs s2 d o)); [| exact F3]. intros d v _ Q. left.
        apply (fr_belongs _ _ _ _ _ F2). auto.
Qed.

Lemma leave_loop_done rel n i s : m_top s <= i -> leave_loop rel n i s = Ok s.
Proof. intros H. destruct n; cbn; destruct (Z.ltb_spec i (m_top s)); auto; lia. Qed.
Lemma set_mortal_same s : set_mortal (m_base s) (m_top s) (m_cap s) s = s.
Proof. destruct s. reflexivity. Qed.

Lemma quiet_destroy rel N P B fuel o s :
  good_rel rel -> (forall q, tainted q -> forall p, tp (rel p q)) -> quiet_rel rel N ->
  ok (o :: P) (o :: P) (o :: B) s -> ~ tainted s -> avail s (o :: P) < N ->
  exists s', call_destroy no_body rel fuel o s = Ok s' /\ fr (fun _ => False) s s'.
Proof.
  intros HR HT HQ [I HD HI HL] Tn HA. unfold call_destroy, no_body. cbn [run].
  assert (LV : live s o) by (apply (i_pend _ _ _ I); cbn; auto).
  pose proof (i_mort _ _ _ I) as M.
  set (e := EDestroy o (strong_refs s o)).
  set (s1 := set_cells (fun l => l ++ [Some Null]) (add_log e s)).
  set (self := zlen (cells s)).
  assert (Ia : inv (o :: P) (add_log e s)) by (apply (inv_same (-1) (o :: P) s); auto).
  assert (La : logok (o :: B) (add_log e s)).
  { apply (logok_about _ _ o); auto; [cbn; auto | | unfold e; congruence].
    intros q Q. cbn. destruct (Z.eqb_spec o q); congruence. }
  change (fun l : list (option ref) => l ++ [Some Null]) with (fun l => l ++ zrep 1 (Some Null)) in s1.
  assert (I1 : inv (o :: P) s1) by (apply grow_inv; auto).
  assert (L1 : logok (o :: B) s1).
  { apply (logok_shape _ (add_log e s)); auto. apply shape_same; reflexivity. }
  assert (E1 : cells s1 = cells s ++ zrep 1 (Some Null)) by reflexivity.
  assert (F1 : fr (fun c => c = self) s s1).
  { constructor; auto.
    - rewrite (len_grow _ _ _ E1). lia.
    - intros (q & Q). exists q. cbn in Q. apply in_app_or in Q. destruct Q as [Q | [Q | []]]; [auto | discriminate].
    - intros q obq Q. exists obq. auto.
    - intros d Hd Q. rewrite (cell_grow _ _ _ _ E1). destruct (Z.ltb_spec d (zlen (cells s))); [auto | lia].
    - intros d v Q1 Q2. rewrite (cell_grow_old _ _ _ _ _ E1 Q1) in Q2. discriminate.
    - intros d v v' Q1 Q2. rewrite (cell_grow_old _ _ _ _ _ E1 Q1) in Q2. right. left. congruence.
    - intros d v Q1 Q2. destruct (cell_grow_inv _ _ _ _ _ E1 Q2) as [Q | (Q & _)]; [| auto]. apply cell_bounds in Q. lia.
    - apply own_same. auto. }
  assert (C1 : cell s1 self = Some Null).
  { rewrite (cell_grow s s1 1) by reflexivity. fold self.
    destruct (Z.ltb_spec self self); [lia |]. destruct (Z.ltb_spec self (self + 1)); [auto | lia]. }
  assert (Rt : var s1 self).
  { split; [eauto |]. split.
    - intros q (ob & Q1 & Q2). pose proof (i_range _ _ _ Ia q ob Q1). change (zlen (cells (add_log e s))) with self in *. lia.
    - change (m_base s1) with (m_base s). change (m_cap s1) with (m_cap s). unfold self. lia. }
  assert (Tn1 : ~ tainted s1) by (intros Q; apply Tn, (f_nt _ _ _ F1 Q)).
  assert (HD1 : dok (o :: P) s1) by exact HD.
  assert (Ho1 : forall q, Some o = Some q -> live s1 q).
  { intros q Q. injection Q as <-. apply (i_pend _ _ _ I1). cbn; auto. }
  destruct (quiet_assign rel N (-1) (o :: P) (o :: B) self Null (Some o) s1) as (s2 & E2 & F2 & _); auto.
  { left. apply Rt. }
  assert (Tn2 : ~ tainted s2) by (intros Q; apply Tn1, (f_nt _ _ _ F2 Q)).
  assert (A2 := assign_ok rel (-1) (o :: P) (o :: B) (m_top s1) self Null (Some o) s1 HR I1 HD1 HI L1
    (ltac:(change (m_top s1) with (m_top s); lia)) C1 Ho1 (or_introl eq_refl)
    (or_introl (proj2 (proj2 Rt))) (or_intror (fun q _ => proj1 (proj2 Rt) q))).
  apply (post_Ok _ _ _ A2 E2) in Tn2 as (I2 & L2 & X2 & T2 & _).
  rewrite E2. cbn [rbind]. unfold leave_scope. rewrite leave_loop_done by (change (m_top s1) with (m_top s) in T2; lia).
  cbn [rbind]. change (m_top s) with (m_top s1). rewrite <- T2, set_mortal_same.
  destruct (e_var _ _ _ _ X2 self Rt) as ((v & Hv) & Q4 & M4).
  destruct (quiet_assign rel N (-1) (o :: P) (o :: B) self v None s2) as (s3 & E3 & F3 & Z3); auto; try congruence.
  { apply (dok_ext _ _ _ _ _ X2). auto. }
  { intros Q. apply Tn1, (f_nt _ _ _ F2 Q). }
  { pose proof (avail_mono _ _ _ (o :: P) (o :: P) F1 (incl_refl _)).
    pose proof (avail_mono _ _ _ (o :: P) (o :: P) F2 (incl_refl _)). lia. }
  exists s3. split; [auto |]. apply (fr_mono (fun c => c = self)).
  { intros c w Hc ->. right. unfold self at 1. split; [lia |]. destruct Z3; cbn [newref] in *; congruence. }
  eapply fr_trans; [exact F1 |]. eapply fr_trans.
  - apply (fr_mono (eq self)); [| exact F2]. auto.
  - apply (fr_mono (eq self)); [| exact F3]. auto.
Qed.

Lemma release_quiet fuel : quiet_rel (release no_body fuel) (Z.of_nat fuel).
Proof.
  induction fuel as [| fuel IH]; intros P B o s K Tn HA.
  { pose proof (avail_nonneg s P). lia. }
  pose proof (release_good no_body fuel) as HR.
  assert (HT : forall q, tainted q -> forall p, tp (release no_body fuel p q)) by (intros; apply tp_release; auto).
  pose proof (release_good no_body (S fuel) P B o s K) as WHOLE.
  set (rel := release no_body fuel) in *.
  destruct K as [I HD HI HL]. destruct (i_pend _ _ _ I o) as (ob & Hob); [cbn; auto |].
  pose proof (i_rc _ _ _ I o ob Hob) as RC. rewrite pcount_cons, Z.eqb_refl in RC.
  pose proof (refs_nonneg s o) as R0. pose proof (pcount_nonneg o P) as P0.
  cbn [release] in *. fold rel in WHOLE |- *. rewrite Hob in *. destruct (Z.ltb_spec 0 (o_rc ob)); [| lia]. cbn [negb] in *.
  destruct (Z.ltb_spec 1 (o_rc ob)) as [H1 | H1].
  { destruct (drop_step P s o ob I Hob H1) as (E & I' & X' & SH). rewrite E. eexists. split; [reflexivity |].
    set (s' := put_obj o _ s) in *. constructor; auto.
    - apply SH.
    - change (cells s') with (cells s). lia.
    - intros q ob' Q. destruct (e_obj _ _ _ _ (X' [] 0) q ob' Q) as (obq & Q1 & Q2 & Q3 & _); [| eauto].
      apply obj_bounds in Q. destruct SH as (SL & _). lia.
    - intros c v Q1 Q2. change (cell s' c) with (cell s c) in Q2. congruence.
    - intros c v v' Q1 Q2. change (cell s' c) with (cell s c) in Q2. right. left. congruence.
    - intros c v Q1 Q2. change (cell s' c) with (cell s c) in Q2. apply cell_bounds in Q2. lia.
    - apply own_same. intros q. apply (shape_live s s' q SH). }
  assert (Rz : strong_refs s o = 0) by lia. assert (Pz : pcount o P = 0) by lia.
  assert (NP : ~ In o P) by (rewrite pcount_In; lia).
  assert (NB : ~ In o B) by auto. assert (ND : ~ In o (dying s)) by auto.
  assert (HI' : incl (o :: B) (o :: P)).
  { intros q [-> | Q]; cbn; auto. }
  assert (HL' : logok (o :: B) s).
  { intros q. destruct (HL q) as [Q | (Q1 & Q2 & Q3)]; auto. right. split; [auto |]. split; [| auto].
    intros obq Hq. destruct (Q2 obq Hq) as [Q | Q]; cbn; auto. }
  assert (HD' : dok (o :: P) s) by (intros q Q; cbn; auto).
  assert (LV : live s o) by (exists ob; auto).
  pose proof (avail_cons s P o LV NP) as AC.
  pose proof (i_range _ _ _ I o ob Hob) as RG. pose proof (obj_bounds _ _ _ Hob) as OBN.
  assert (K0 : ok (o :: P) (o :: P) (o :: B) s) by (constructor; auto).
  (* DESTROY *)
  assert (exists s1, (if o_dtor ob then call_destroy no_body rel fuel o s else Ok s) = Ok s1 /\ fr (fun _ => False) s s1 /\
     inv (o :: P) s1 /\ logok (o :: B) s1 /\ ext B (m_top s) s s1) as (s1 & E1 & F1 & I1 & L1 & X1).
  { destruct (o_dtor ob).
    - destruct (quiet_destroy rel (Z.of_nat fuel) P B fuel o s) as (s1 & E1 & F1); auto; [lia |].
      exists s1. split; [auto |]. split; [auto |].
      pose proof (destroy_ok no_body rel P B fuel o s HR HT K0 NB) as Q.
      apply (post_Ok _ _ s1) in Q; [| auto | intros T; apply Tn, (f_nt _ _ _ F1 T)]. cbn beta in Q. tauto.
    - exists s. auto using fr_refl, ext_refl. }
  rewrite E1 in *. cbn [rbind] in *.
  assert (Tn1 : ~ tainted s1) by (intros Q; apply Tn, (f_nt _ _ _ F1 Q)).
  destruct (i_pend _ _ _ I1 o) as (ob1 & Hob1); [cbn; auto |].
  destruct (e_obj _ _ _ _ X1 o ob1 Hob1) as (ob' & Q & G1 & G2 & _); [lia |].
  rewrite Hob in Q. injection Q as <-.
  pose proof (e_dying _ _ _ _ X1) as D1.
  set (s2 := set_dying (o :: dying s1) s1) in *.
  assert (I2 : inv (o :: P) s2) by (apply (inv_same (-1) (o :: P) s1); auto).
  assert (L2 : logok (o :: B) s2) by (apply (logok_shape _ s1); auto; apply shape_same; reflexivity).
  assert (K2 : ok (o :: P) (o :: P) (o :: B) s2).
  { constructor; auto. unfold s2. intros q [<- | Q]; [cbn; auto |]. right. apply HD. congruence. }
  assert (F2 : fr (fun _ => False) s1 s2).
  { constructor; auto; try (change (cells s2) with (cells s1); lia).
    - intros q obq Q. exists obq. auto.
    - intros d v Q1 Q2. change (cell s2 d) with (cell s1 d) in Q2. congruence.
    - intros d v v' Q1 Q2. change (cell s2 d) with (cell s1 d) in Q2. right. left. congruence.
    - intros d v Q1 Q2. change (cell s2 d) with (cell s1 d) in Q2. apply cell_bounds in Q2. lia.
    - apply own_same. auto. }
  assert (F02 : fr (fun _ => False) s s2) by (eapply fr_trans; eauto).
  assert (Ow2 : forall d, o_base ob <= d < o_base ob + Z.of_nat (Z.to_nat (o_len ob)) -> belongs s2 d o).
  { intros d Hd. exists ob1. split; [auto |]. lia. }
  destruct (quiet_clear rel (Z.of_nat fuel) (o :: P) (o :: B) o (Z.to_nat (o_len ob)) HR HT IH (o_base ob) s2)
    as (s3 & E3 & F3); auto.
  { cbn; auto. }
  { pose proof (avail_mono _ _ _ (o :: P) (o :: P) F02 (incl_refl _)). lia. }
  rewrite E3 in *. cbn [rbind] in *.
  assert (Tn3 : ~ tainted s3) by (intros Q; apply Tn, (f_nt _ _ _ F02), (f_nt _ _ _ F3), Q).
  assert (A3 := clear_fields_ok rel (o :: P) (o :: B) o (Z.to_nat (o_len ob)) HR (o_base ob) s2 K2 eq_refl
                  (or_introl eq_refl) Ow2 HT).
  apply (post_Ok _ _ _ A3 E3) in Tn3 as (I3 & L3 & X3 & T3 & _ & N3).
  set (s4 := set_dying (tl (dying s3)) s3) in *.
  assert (I4 : inv (o :: P) s4) by (apply (inv_same (-1) (o :: P) s3); auto).
  destruct (i_pend _ _ _ I4 o) as (ob4 & Hob4); [cbn; auto |].
  destruct (e_obj _ _ _ _ X3 o ob4 Hob4) as (ob2 & Q & G3 & G4 & _).
  { pose proof (e_objs _ _ _ _ X1). change (objs s2) with (objs s1). lia. }
  change (get_obj s2 o) with (get_obj s1 o) in Q. rewrite Hob1 in Q. injection Q as <-.
  assert (D4 : ~ In o (dying s4)).
  { unfold s4. cbn. rewrite (e_dying _ _ _ _ X3). cbn. rewrite D1. auto. }
  (* no strong reference to the object has appeared *)
  assert (F34 : fr (fun d => belongs s d o) s s4).
  { eapply fr_trans; [apply (fr_mono (fun _ => False)); [tauto | exact F02] |].
    eapply fr_trans; [apply (fr_mono (fun d => belongs s2 d o)); [| exact F3] |].
    - intros c v _ Q. left. apply (fr_belongs _ _ _ _ _ F02). auto.
    - constructor; auto; try (change (cells s4) with (cells s3); lia).
      + intros q obq Q. exists obq. auto.
      + intros d v Q1 Q2. change (cell s4 d) with (cell s3 d) in Q2. congruence.
      + intros d v v' Q1 Q2. change (cell s4 d) with (cell s3 d) in Q2. right. left. congruence.
      + intros d v Q1 Q2. change (cell s4 d) with (cell s3 d) in Q2. apply cell_bounds in Q2. lia.
      + apply own_same. auto. }
  assert (R4 : o_rc ob4 = 1).
  { rewrite (i_rc _ _ _ I4 o ob4 Hob4), pcount_cons, Z.eqb_refl, Pz.
    pose proof (refs_nonneg s4 o). destruct (Z_lt_dec 0 (strong_refs s4 o)) as [Q | Q]; [| lia].
    destruct (refs_exists s4 o Q) as (c & Hc). exfalso.
    assert (NO : ~ belongs s c o).
    { intros Hb. destruct Hb as (obx & Hx & Hr). rewrite Hob in Hx. injection Hx as <-.
      assert (Q2 : cell s4 c = Some Null); [| congruence].
      change (cell s3 c = Some Null). apply N3; [apply Ow2; lia | left; lia]. }
    destruct (Z_lt_dec c (zlen (cells s))) as [Lc | Lc].
    2: { destruct (f_new _ _ _ F34 c (Strong o)) as [Q2 | Q2]; [lia | auto | tauto | discriminate]. }
    pose proof (cell_bounds _ _ _ Hc) as CB.
    destruct (cell s c) as [v |] eqn:Ec.
    - destruct (f_cell _ _ _ F34 c v (Strong o) Ec Hc) as [Q2 | [<- | (q & _ & _ & Q2)]]; [tauto | | discriminate].
      pose proof (refs_pos _ _ _ Ec). lia.
    - rewrite (f_dead _ _ _ F34 c) in Hc; [discriminate | lia | auto]. }
  destruct (free_step P s4 o ob4 I4 Hob4 R4) as (s5 & E5 & H5); [| auto |].
  { intros c Hc. change (cell s3 c = Some Null). apply N3; [apply Ow2; lia | left; lia]. }
  assert (E : dec o s4 = Ok (put_obj o (with_rc 0 ob4) s4)).
  { unfold dec. rewrite Hob4. destruct (Z.ltb_spec 0 (o_rc ob4)); [| lia]. rewrite R4. reflexivity. }
  rewrite E in *. cbn [rbind] in *. rewrite obj_put by (apply (obj_bounds _ _ _ Hob4)). rewrite Z.eqb_refl.
  change (o_rc (with_rc 0 ob4) =? 0) with true. cbn beta iota.
  change (o_back (with_rc 0 ob4)) with (o_back ob4). rewrite E5. cbn [rbind].
  change (o_base (with_rc 0 ob4)) with (o_base ob4). change (o_len (with_rc 0 ob4)) with (o_len ob4).
  fold (free_obj o ob4 s5). cbv zeta in H5. set (s6 := free_obj o ob4 s5) in *.
  destruct H5 as (I6 & X6 & T6 & B6 & L6 & G6 & C6).
  exists s6. split; [reflexivity |].
  destruct (free_backrefs_ok o (o_back ob4) (put_obj o (with_rc 0 ob4) s4)) as (s5' & E5' & CL & OO & _ & M1 & _ & M3 & _).
  { apply (i_back _ _ _ I4 o ob4 Hob4). }
  { intros c Hc. apply (i_back _ _ _ I4 o ob4 Hob4). auto. }
  rewrite E5 in E5'. injection E5' as <-.
  assert (DO : ~ live s6 o). { intros (obx & Q). rewrite G6, Z.eqb_refl in Q. discriminate. }
  assert (F46 : fr (fun _ => False) s4 s6).
  { constructor.
    - unfold s6, free_obj, add_log, add_blocks, set_objs, set_cells. cbn [objs]. rewrite OO.
      unfold put_obj, set_objs. cbn [objs]. rewrite !zlen_upd. reflexivity.
    - apply (e_cells _ _ _ _ (X6 B 0 NB)).
    - intros (q & Q). rewrite L6 in Q. apply in_app_or in Q. exists q. destruct Q as [Q | [Q | []]]; [auto | discriminate].
    - split; [exact M1 | exact M3].
    - intros q obq Q. rewrite G6 in Q. destruct (q =? o); [discriminate |]. exists obq. auto.
    - intros c _ Q. rewrite C6. destruct ((o_base ob4 <=? c) && (c <? o_base ob4 + o_len ob4)); auto.
      destruct (in_dec Z.eq_dec c (o_back ob4)) as [Y | N]; auto.
      apply (i_back _ _ _ I4 o ob4 Hob4) in Y. congruence.
    - intros c v Q1 Q2. rewrite C6 in Q2.
      destruct ((o_base ob4 <=? c) && (c <? o_base ob4 + o_len ob4)) eqn:Ec.
      + exists o. split; [| auto]. exists ob4. split; [auto | lia].
      + destruct (in_dec Z.eq_dec c (o_back ob4)); congruence.
    - intros c v v' Q1 Q2. right. rewrite C6 in Q2.
      destruct ((o_base ob4 <=? c) && (c <? o_base ob4 + o_len ob4)); [discriminate |].
      destruct (in_dec Z.eq_dec c (o_back ob4)) as [Y | N]; [| left; congruence].
      right. exists o. apply (i_back _ _ _ I4 o ob4 Hob4) in Y. split; [congruence |]. split; [auto | congruence].
    - intros c v Hc Q. rewrite C6 in Q.
      destruct ((o_base ob4 <=? c) && (c <? o_base ob4 + o_len ob4)); [discriminate |].
      destruct (in_dec Z.eq_dec c (o_back ob4)) as [Y | N]; [right; congruence |].
      apply cell_bounds in Q. lia.
    - intros c q (obq & Q1 & Q2) Q3 _. destruct (Z.eqb_spec q o) as [-> | N].
      + rewrite Hob4 in Q1. injection Q1 as <-. rewrite C6.
        destruct (Z.leb_spec (o_base ob4) c); [| lia]. destruct (Z.ltb_spec c (o_base ob4 + o_len ob4)); [reflexivity | lia].
      + destruct Q3. exists obq. rewrite G6. destruct (Z.eqb_spec q o); congruence. }
  apply (fr_mono (fun d => belongs s d o)).
  - intros c v Hv (obx & Hx & Hr). rewrite Hob in Hx. injection Hx as <-. exfalso. rewrite C6 in Hv.
    destruct (Z.leb_spec (o_base ob4) c); [| lia]. destruct (Z.ltb_spec c (o_base ob4 + o_len ob4)); [| lia].
    discriminate.
  - eapply fr_trans; [exact F34 |]. apply (fr_mono (fun _ => False)); [tauto | exact F46].
Qed.
