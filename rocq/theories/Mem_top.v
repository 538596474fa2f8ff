(** * Whole programs on the object memory *)
From Verif Require Import Base Mem_model Mem_spec Mem_proofs Mem_inv Mem_safe Mem_quiet.

(** Between the operations of a program nothing is being released. *)
Record top (s : mem) : Prop := mk_top { t_inv : inv [] s; t_log : logok [] s; t_dying : dying s = [] }.

Lemma top_ok s : top s -> ok [] [] [] s.
Proof. intros [I L D]. constructor; auto; [intros o; rewrite D; auto | apply incl_refl]. Qed.

Lemma top_init : top mem_init.
Proof.
  assert (NO : forall o, get_obj mem_init o = None).
  { intros o. unfold get_obj. change (znth (objs mem_init) o) with (znth (@nil (option obj)) o).
    destruct (Z_lt_dec o 0); [rewrite znth_neg by lia | rewrite znth_ge by (zlen_nils; lia)]; reflexivity. }
  assert (CE : forall c v, cell mem_init c = Some v -> c = 0 /\ v = Null).
  { intros c v H. pose proof (cell_bounds _ _ _ H) as B. change (zlen (cells mem_init)) with 1 in B.
    assert (c = 0) by lia. subst. lazy in H. split; congruence. }
  assert (NB : forall c o, ~ belongs mem_init c o).
  { intros c o (ob & Q & _). rewrite NO in Q. discriminate. }
  constructor; [| | reflexivity].
  - constructor; try (intros; rewrite NO in *; discriminate); try (intros; exfalso; eapply NB; eauto; fail).
    + intros c v o H T. apply CE in H as (_ & ->). discriminate.
    + intros o [].
    + change (zlen (cells mem_init)) with 1. cbn. lia.
    + intros c Hc. cbn in Hc. assert (c = 0) by lia. subst. exists Null. cbn. split; auto. split; auto. discriminate.
    + reflexivity.
  - intros o. right. split; [reflexivity |]. split.
    + intros ob H. rewrite NO in H. discriminate.
    + intros H _. change (zlen (objs mem_init)) with 0 in H. lia.
Qed.

Lemma top_post f s r : top s ->
  post (fun s' => inv [] s' /\ logok [] s' /\ ext [] f s s') r ->
  post (fun s' => top s' /\ ext [] f s s') r.
Proof.
  intros T H. eapply post_imp; [exact H |]. intros s' (I & L & X). split; [| auto].
  constructor; auto. rewrite (e_dying _ _ _ _ X). apply (t_dying _ T).
Qed.

Lemma top_exec dtor fuel floor op s : top s -> 0 <= floor <= m_top s ->
  post (fun s' => top s' /\ ext [] floor s s') (exec (release dtor fuel) fuel floor op s).
Proof.
  intros T F. apply top_post; auto. apply exec_ok; auto using release_good, top_ok.
  intros; apply tp_release; auto.
Qed.
Lemma top_run dtor fuel floor ops s : top s -> 0 <= floor <= m_top s ->
  post (fun s' => top s' /\ ext [] floor s s') (run (release dtor fuel) fuel floor ops s).
Proof.
  intros T F. apply top_post; auto. apply run_ok; auto using release_good, top_ok.
  intros; apply tp_release; auto.
Qed.
Lemma top_top s : top s -> 0 <= m_top s.
Proof. intros T. pose proof (i_mort _ _ _ (t_inv _ T)). lia. Qed.

(** ** Objects and the references that keep them *)
Lemma belongs_dec s c : (exists o, belongs s c o) \/ root s c.
Proof.
  assert (H : forall n, (exists o, 0 <= o < Z.of_nat n /\ belongs s c o) \/ forall o, 0 <= o < Z.of_nat n -> ~ belongs s c o).
  { induction n as [| n IH].
    - right. intros o Ho. lia.
    - destruct IH as [(o & Ho & Q) | IH]; [left; exists o; split; [lia | auto] |].
      destruct (get_obj s (Z.of_nat n)) as [ob |] eqn:E.
      + destruct (Z_le_dec (o_base ob) c) as [L1 | L1]; [destruct (Z_lt_dec c (o_base ob + o_len ob)) as [L2 | L2] |].
        * left. exists (Z.of_nat n). split; [lia |]. exists ob. auto.
        * right. intros o Ho. destruct (Z.eq_dec o (Z.of_nat n)) as [-> | N]; [| apply IH; lia].
          intros (ob' & Q & R). rewrite E in Q. injection Q as <-. lia.
        * right. intros o Ho. destruct (Z.eq_dec o (Z.of_nat n)) as [-> | N]; [| apply IH; lia].
          intros (ob' & Q & R). rewrite E in Q. injection Q as <-. lia.
      + right. intros o Ho. destruct (Z.eq_dec o (Z.of_nat n)) as [-> | N]; [| apply IH; lia].
        intros (ob' & Q & R). congruence. }
  destruct (H (length (objs s))) as [(o & _ & Q) | Q]; [left; eauto | right].
  intros o (ob & Ho & R). apply (Q o); [| exists ob; auto]. apply obj_bounds in Ho. unfold zlen in Ho. lia.
Qed.

Lemma bounded_list l : forall n, NoDup l -> (forall o, In o l -> 0 <= o < n) -> zlen l <= Z.max 0 n.
Proof.
  intros n ND H.
  assert (L : (length l <= length (map Z.of_nat (seq 0 (Z.to_nat n))))%nat).
  { apply NoDup_incl_length; auto. intros o Ho. apply H in Ho. apply in_map_iff. exists (Z.to_nat o).
    split; [lia |]. apply in_seq. lia. }
  rewrite map_length, seq_length in L. unfold zlen. lia.
Qed.

(** Walking back along strong references either reaches a variable or goes
    round a cycle. *)
Lemma walk s : inv [] s -> forall k h l, zlen (objs s) - zlen l <= Z.of_nat k ->
  NoDup (h :: l) -> (forall p, In p (h :: l) -> live s p) -> (forall p, In p l -> chain s h p) ->
  reach s h \/ exists x, chain s x x /\ chain s x h.
Proof.
  intros I. induction k as [| k IH]; intros h l Hk ND HL HC.
  - exfalso. assert (zlen (h :: l) <= Z.max 0 (zlen (objs s))).
    { apply bounded_list; auto. intros o Ho. destruct (HL o Ho) as (ob & Q). apply (obj_bounds _ _ _ Q). }
    rewrite zlen_cons in H. pose proof (zlen_nonneg l). lia.
  - destruct (HL h) as (ob & Ho); [cbn; auto |].
    pose proof (i_rc _ _ _ I h ob Ho) as RC. change (pcount h []) with 0 in RC.
    pose proof (obj_bounds _ _ _ Ho) as OB.
    pose proof (i_pos _ _ _ I h ob Ho ltac:(lia)) as PO.
    destruct (refs_exists s h) as (c & Hc); [lia |].
    destruct (belongs_dec s c) as [(p & Hp) | Hr]; [| left; eapply reach_root; eauto].
    assert (Hs : chain s p h) by (eapply chain_one; eauto).
    destruct (Z.eq_dec p h) as [-> | N]; [right; eauto |].
    destruct (in_dec Z.eq_dec p l) as [Y | NI].
    { right. exists h. assert (chain s h h) by (eapply chain_more; [apply HC, Y | auto]). auto. }
    destruct (IH p (h :: l)) as [Q | (x & Q1 & Q2)].
    + rewrite zlen_cons. lia.
    + constructor; auto. cbn. intros [Q | Q]; [apply N; auto | tauto].
    + intros q [<- | Q]; [destruct Hp as (obp & Q & _); exists obp; auto | apply HL, Q].
    + intros q [<- | Q]; [auto |]. eapply chain_more; [exact Hs | apply HC, Q].
    + left. eapply reach_field; eauto.
    + right. exists x. split; [auto |]. eapply chain_more; eauto.
Qed.

Lemma live_reach s o : inv [] s -> live s o -> reach s o \/ exists x, chain s x x /\ chain s x o.
Proof.
  intros I Ho. apply (walk s I (length (objs s)) o []).
  - zlen_nils. unfold zlen. lia.
  - constructor; [intros [] | constructor].
  - intros p [<- | []]. auto.
  - intros p [].
Qed.
Lemma reach_live s o : inv [] s -> reach s o -> live s o.
Proof. intros I H. destruct H; eapply (i_live _ _ _ I); eauto. Qed.

(** ** What is released when cells are changed *)
Section Collect.
  Variables (D : Z -> Prop) (s s' t : mem).
  Hypothesis (I : inv [] s) (I' : inv [] s') (F : fr D s s').
  Hypothesis (HD : forall c, D c \/ ~ D c).
  Hypothesis (HO : objs t = objs s).
  Hypothesis (HK : forall c, ~ D c -> cell t c = cell s c).
  Hypothesis (HC : forall c, D c -> cell s' c = cell t c \/ cell s' c = None).
  Hypothesis (HS : forall c v, cell t c = Some v -> exists v', cell s c = Some v').

  Lemma t_belongs c o : belongs t c o <-> belongs s c o.
  Proof using HO. unfold belongs, get_obj. rewrite HO. tauto. Qed.
  Lemma t_root c : root t c <-> root s c.
  Proof using HO. unfold root. setoid_rewrite t_belongs. tauto. Qed.

  Lemma keep c o : cell t c = Some (Strong o) -> (forall q, belongs s c q -> live s' q) -> live s' o.
  Proof using I' F HD HK HC HS.
    intros Hc Hq. destruct (HS c _ Hc) as (v & Hv).
    assert (N : cell s' c <> None).
    { intros Q. destruct (f_gone _ _ _ F c v Hv Q) as (q & Q1 & Q2). auto. }
    apply (i_live _ _ _ I' c (Strong o)); [| reflexivity].
    destruct (HD c) as [Y | Y]; [destruct (HC c Y); congruence |].
    rewrite (HK c Y) in Hc. destruct (cell s' c) as [v' |] eqn:E; [| tauto].
    destruct (f_cell _ _ _ F c _ _ Hc E) as [Q | [-> | (q & Q & _)]]; [tauto | auto | discriminate].
  Qed.

  Lemma collect_keeps o : reach t o -> live s' o.
  Proof using All.
    induction 1 as [c o Hr Hc | o c o' _ IH Hb Hc].
    - apply (keep c); auto. intros q Q. apply t_root in Hr. destruct (Hr q Q).
    - apply (keep c); auto. intros q Q. apply t_belongs in Hb. rewrite (i_disj _ _ _ I c q o Q Hb). auto.
  Qed.

  Lemma strong_back c o : cell s' c = Some (Strong o) -> cell t c = Some (Strong o).
  Proof using F HD HK HC.
    intros Hc. destruct (HD c) as [Y | Y]; [destruct (HC c Y); congruence |].
    rewrite (HK c Y). pose proof (cell_bounds _ _ _ Hc) as CB.
    destruct (Z_lt_dec c (zlen (cells s))) as [L | L].
    2: { destruct (f_new _ _ _ F c _ ltac:(lia) Hc) as [Q | Q]; [tauto | discriminate]. }
    destruct (cell s c) as [v |] eqn:E.
    - destruct (f_cell _ _ _ F c v _ E Hc) as [Q | [-> | (q & _ & _ & Q)]]; [tauto | auto | discriminate].
    - rewrite (f_dead _ _ _ F c) in Hc; [discriminate | lia | auto].
  Qed.
  Lemma belongs_back c o : belongs s' c o -> belongs t c o.
  Proof using F HO. intros H. apply t_belongs. apply (fr_belongs _ _ _ _ _ F H). Qed.
  Lemma chain_back o o' : chain s' o o' -> chain t o o'.
  Proof using F HD HK HC HO.
    induction 1 as [o c o' Hb Hc | o o1 o2 _ IH1 _ IH2].
    - eapply chain_one; [apply belongs_back; eauto | apply strong_back; auto].
    - eapply chain_more; eauto.
  Qed.
  Lemma reach_back o : reach s' o -> reach t o.
  Proof using F HD HK HC HO HS.
    induction 1 as [c o Hr Hc | o c o' _ IH Hb Hc].
    - apply (reach_root t c o); [| apply strong_back; auto]. apply t_root. intros q Hq.
      destruct (HS c _ (strong_back c o Hc)) as (v & Hv).
      destruct (get_obj s' q) as [ob |] eqn:E.
      + apply (Hr q). exists ob. split; auto. destruct (f_obj _ _ _ F q ob E) as (ob1 & Q1 & E1 & E2).
        destruct Hq as (obq & Q2 & R). rewrite Q1 in Q2. injection Q2 as <-. lia.
      + rewrite (f_own _ _ _ F c q Hq) in Hc; [discriminate | | apply (cell_bounds _ _ _ Hv)].
        intros (ob & Q). congruence.
    - eapply reach_field; [exact IH | apply belongs_back; eauto | apply strong_back; auto].
  Qed.
  Lemma collect_frees o : live s' o -> reach t o \/ exists x, chain t x x /\ chain t x o.
  Proof using I' F HD HK HC HO HS.
    intros Ho. destruct (live_reach s' o I' Ho) as [Q | (x & Q1 & Q2)].
    - left. apply reach_back. auto.
    - right. exists x. split; apply chain_back; auto.
  Qed.
End Collect.

(** ** Programs whose destructors do nothing *)
Definition room (fuel : nat) (s : mem) : Prop := zlen (objs s) + m_top s + 1 < Z.of_nat fuel.

Lemma fr_same D s s' : cells s' = cells s -> objs s' = objs s -> m_base s' = m_base s -> m_cap s' = m_cap s ->
  log s' = log s -> fr D s s'.
Proof.
  intros E1 E2 E3 E4 E5.
  assert (C : forall c, cell s' c = cell s c) by (intros; unfold cell; rewrite E1; reflexivity).
  assert (G : forall o, get_obj s' o = get_obj s o) by (intros; unfold get_obj; rewrite E2; reflexivity).
  constructor; auto; try congruence.
  - rewrite E1. lia.
  - apply nottainted_log. auto.
  - intros o ob'. rewrite G. eauto.
  - intros c v v'. rewrite C. intros. right. left. congruence.
  - intros c v H. rewrite C. intros Q. apply cell_bounds in Q. lia.
  - apply own_same. intros o (ob & Q). exists ob. rewrite G. auto.
Qed.

Section Quiet.
  Variables (fuel : nat) (s : mem).
  Hypothesis (T : top s) (N : ~ tainted s) (R : room fuel s).
  Let rel := release no_body fuel.

  Lemma avail_room P : avail s P < Z.of_nat fuel.
  Proof using T R. pose proof (avail_le s P). pose proof (top_top s T). unfold room in R. lia. Qed.

  Lemma q_assign c old v : cell s c = Some old -> (forall o, v = Some o -> live s o) ->
    ~ (m_base s <= c < m_base s + m_cap s) ->
    exists s', assign rel c v s = Ok s' /\ fr (eq c) s s' /\ (cell s' c = Some (newref v) \/ cell s' c = None) /\
      ~ tainted s' /\ m_top s' = m_top s.
  Proof using All.
    intros Hc Hv Hm. destruct (top_ok s T) as [I DK IN L].
    destruct (quiet_assign rel (Z.of_nat fuel) (-1) [] [] c old v s) as (s' & E & F & Z0); auto using avail_room.
    { apply release_quiet. }
    assert (N' : ~ tainted s') by (intros Q; apply N, (f_nt _ _ _ F Q)).
    exists s'. split; [auto |]. split; [auto |]. split; [auto |]. split; [auto |].
    assert (A := assign_ok rel (-1) [] [] 0 c old v s (release_good _ _) I DK IN L
        ltac:(pose proof (top_top s T); lia) Hc Hv (or_introl eq_refl) (or_introl Hm)
        ltac:(right; rewrite (t_dying _ T); intros o [])).
    apply (post_Ok _ _ _ A E) in N'. tauto.
  Qed.

  Lemma note_same c : note_store c s = s.
  Proof using T. unfold note_store, dying_owner. rewrite (t_dying _ T). reflexivity. Qed.

  Lemma q_undef c : usable s c = true ->
    exists s', mem_exec no_body fuel (MUndef c) s = Ok s' /\ fr (eq c) s s' /\
      (cell s' c = Some Null \/ cell s' c = None) /\ ~ tainted s' /\ m_top s' = m_top s.
  Proof using All.
    intros U. unfold mem_exec. cbn [exec]. rewrite U. apply usable_cell in U as ((v & Hv) & Hm).
    apply (q_assign c v None); auto. discriminate.
  Qed.

  Lemma q_copy dst src w : usable s dst = true -> usable s src = true -> cell s src = Some w ->
    exists s', mem_exec no_body fuel (MCopy dst src) s = Ok s' /\ fr (eq dst) s s' /\
      (cell s' dst = Some (newref (target w)) \/ cell s' dst = None) /\ ~ tainted s' /\ m_top s' = m_top s.
  Proof using All.
    intros U1 U2 Hw. unfold mem_exec. cbn [exec]. rewrite U1, U2, Hw. cbn [andb].
    apply usable_cell in U1 as ((v & Hv) & Hm). destruct (target w) as [o |] eqn:Ht.
    - rewrite note_same. apply (q_assign dst v (Some o)); auto.
      intros q Q. injection Q as <-. apply (i_live _ _ _ (t_inv _ T) src w o Hw Ht).
    - apply (q_assign dst v None); auto. discriminate.
  Qed.

  Lemma q_weaken c o : usable s c = true -> cell s c = Some (Strong o) ->
    exists s', mem_exec no_body fuel (MWeaken c) s = Ok s' /\ fr (eq c) s s' /\
      (strong_refs s o = 1 -> cell s' c = Some Null \/ cell s' c = None) /\
      (1 < strong_refs s o -> cells s' = zupd (cells s) c (Some (Weak o)) /\ shape s s') /\
      ~ tainted s' /\ m_top s' = m_top s.
  Proof using All.
    intros U Hc. unfold mem_exec. cbn [exec]. rewrite U. unfold weaken. rewrite Hc.
    apply usable_cell in U as (_ & Hm). destruct (top_ok s T) as [I DK IN L].
    destruct (i_live _ _ _ I c _ o Hc eq_refl) as (ob & Ho). rewrite Ho.
    pose proof (i_rc _ _ _ I o ob Ho) as RC. change (pcount o []) with 0 in RC.
    pose proof (refs_pos _ _ _ Hc) as RP. destruct (Z.ltb_spec 0 (o_rc ob)); [cbn [negb] | lia].
    destruct (Z.eqb_spec (o_rc ob) 1) as [E1 | E1].
    - destruct (q_assign c (Strong o) None Hc) as (s' & E & F & Z0 & N' & T'); [discriminate | auto |].
      unfold assign in E. rewrite Hc in E. unfold unweaken in E. rewrite Hc in E. cbn [rbind target] in E.
      exists s'. split; [exact E |]. split; [auto |]. split; [auto |]. split; [lia | auto].
    - destruct (weaken_step [] s c o ob I Hc Ho ltac:(lia) Hm) as (s1 & E & ob' & G & H2).
      fold rel. rewrite E. cbn [rbind]. rewrite G. eexists. split; [reflexivity |]. cbv zeta in H2.
      destruct H2 as (I2 & C2 & X2 & L2 & D2 & B2 & T2 & K2 & SH).
      split; [eapply fr_step; eauto; apply nottainted_log; auto |]. split; [lia |]. split; [auto |].
      split; [| auto]. intros Q. apply N. revert Q. apply nottainted_log. auto.
  Qed.

  Lemma q_unweaken c v : usable s c = true -> cell s c = Some v ->
    exists s', mem_exec no_body fuel (MUnweaken c) s = Ok s' /\ fr (eq c) s s' /\
      cells s' = zupd (cells s) c (Some (strengthen v)) /\ shape s s' /\ ~ tainted s' /\ m_top s' = m_top s.
  Proof using All.
    intros U Hc. unfold mem_exec. cbn [exec]. rewrite U. apply usable_cell in U as (_ & Hm).
    destruct (unweaken_step (-1) [] s c v (t_inv _ T) Hc) as (s' & E & I' & C' & X' & S' & L' & D' & B' & T' & K' & SH).
    exists s'. split; [auto |]. split; [eapply fr_step; eauto; apply nottainted_log; auto |].
    split; [auto |]. split; [auto |]. split; [| auto]. intros Q. apply N. revert Q. apply nottainted_log. auto.
  Qed.
End Quiet.

Lemma fr_room D s s' fuel : fr D s s' -> m_top s' = m_top s -> room fuel s -> room fuel s'.
Proof. intros F E. unfold room. rewrite E, (f_len _ _ _ F). auto. Qed.

Lemma q_leave_loop fuel lo n : forall i s,
  top s -> ~ tainted s -> room fuel s -> 0 <= lo <= i -> i <= m_top s -> m_top s - i <= Z.of_nat n ->
  exists s', leave_loop (release no_body fuel) n i s = Ok s' /\
    fr (fun c => m_base s + lo <= c < m_base s + m_top s) s s' /\ ~ tainted s'.
Proof.
  induction n as [| n IH]; intros i s T N R Hi Hm Hn.
  - rewrite leave_loop_done by lia. exists s. auto using fr_refl.
  - cbn [leave_loop]. destruct (Z.ltb_spec i (m_top s)); [| exists s; auto using fr_refl].
    destruct (top_ok s T) as [I DK IN L]. pose proof (i_mort _ _ _ I) as MO.
    destruct (i_mcell _ _ _ I (m_base s + i)) as (v & Hv & _); [lia |].
    destruct (quiet_assign (release no_body fuel) (Z.of_nat fuel) (-1) [] [] (m_base s + i) v None s)
      as (s1 & E1 & F1 & _); auto using avail_room, release_quiet; try discriminate.
    assert (N1 : ~ tainted s1) by (intros Q; apply N, (f_nt _ _ _ F1 Q)).
    assert (A := assign_ok (release no_body fuel) (-1) [] [] lo (m_base s + i) v None s (release_good _ _) I DK IN L
        ltac:(lia) Hv ltac:(discriminate) (or_introl eq_refl)
        ltac:(right; split; [reflexivity | lia]) (or_introl eq_refl)).
    apply (post_Ok _ _ _ A E1) in N1 as (I1 & L1 & X1 & T1 & _).
    rewrite E1. cbn [rbind]. destruct (f_m _ _ _ F1) as (B1 & K1).
    destruct (IH (i + 1) s1) as (s2 & E2 & F2 & N2); try lia.
    + constructor; auto. rewrite (e_dying _ _ _ _ X1). apply (t_dying _ T).
    + intros Q; apply N, (f_nt _ _ _ F1 Q).
    + apply (fr_room _ _ _ _ F1); auto.
    + exists s2. split; [auto |]. split; [| auto]. eapply fr_trans.
      * apply (fr_mono (eq (m_base s + i))); [| exact F1]. intros c w _ <-. left. lia.
      * rewrite B1, T1 in F2. exact F2.
Qed.

Lemma q_leave fuel lo s : top s -> ~ tainted s -> room fuel s -> 0 <= lo <= m_top s ->
  exists s', mem_exec no_body fuel (MLeave lo) s = Ok s' /\
    fr (fun c => m_base s + lo <= c < m_base s + m_top s) s s' /\
    (forall c, m_base s + lo <= c < m_base s + m_top s -> cell s' c = Some Null) /\
    ~ tainted s' /\ m_top s' = lo.
Proof.
  intros T N R Hlo. unfold mem_exec. cbn [exec].
  destruct (Z.leb_spec 0 lo); [| lia]. destruct (Z.leb_spec lo (m_top s)); [| lia]. cbn [andb]. unfold leave_scope.
  destruct (q_leave_loop fuel lo fuel lo s) as (s1 & E1 & F1 & N1); auto; try lia.
  { unfold room in R. pose proof (zlen_nonneg (objs s)). lia. }
  rewrite E1. cbn [rbind]. eexists. split; [reflexivity |].
  destruct (top_ok s T) as [I DK IN L].
  assert (A := leave_loop_ok (release no_body fuel) [] [] lo fuel (release_good _ _)
    ltac:(intros; apply tp_release; auto) lo s (top_ok s T) ltac:(lia) ltac:(lia) ltac:(intros; lia)).
  pose proof (post_Ok _ _ _ A E1 N1) as (I1 & L1 & X1 & T1 & Z1). destruct (f_m _ _ _ F1) as (B1 & K1).
  split; [eapply fr_trans; [exact F1 |]; apply fr_same; reflexivity |].
  split; [| split; [| reflexivity]].
  - intros c Hc. change (cell s1 c = Some Null). rewrite <- (Z1 (c - m_base s)) by lia. f_equal. lia.
  - intros Q. apply N1. revert Q. apply nottainted_log. reflexivity.
Qed.

Lemma q_new fuel dst n dt s : top s -> ~ tainted s -> room fuel s -> usable s dst = true -> 0 <= n ->
  exists s', mem_exec no_body fuel (MNew dst n dt) s = Ok s' /\ fr (eq dst) (with_new n dt s) s' /\
    (cell s' dst = Some (Strong (zlen (objs s))) \/ cell s' dst = None) /\
    ~ tainted s' /\ m_top s' = m_top s.
Proof.
  intros T N R U Hn. unfold mem_exec. cbn [exec]. rewrite U. destruct (Z.leb_spec 0 n); [| lia]. cbn [andb].
  rewrite note_same by auto. fold (with_new n dt s). destruct (top_ok s T) as [I DK IN L].
  destruct (new_ok [] [] n dt s Hn I L IN) as (I1 & L1 & X1 & LV & BB). set (s1 := with_new n dt s) in *.
  apply usable_cell in U as ((v & Hv) & Hm).
  assert (Hv1 : cell s1 dst = Some v) by (apply (cell_grow_old s s1 n dst v); auto).
  assert (N1 : ~ tainted s1).
  { intros (q & Q). apply N. exists q. cbn in Q. apply in_app_or in Q. destruct Q as [Q | [Q | []]]; [auto | discriminate]. }
  assert (LN : zlen (objs s1) = zlen (objs s) + 1).
  { unfold s1, with_new. cbn [objs add_blocks set_objs set_cells add_log]. rewrite zlen_app. reflexivity. }
  assert (DK1 : dok [] s1) by exact DK.
  assert (HV : forall o, Some (zlen (objs s)) = Some o -> live s1 o) by (intros o Q; injection Q as <-; auto).
  destruct (quiet_assign (release no_body fuel) (Z.of_nat fuel) (zlen (objs s)) [] [] dst v (Some (zlen (objs s))) s1)
      as (s2 & E2 & F2 & Z2); auto using release_quiet.
  { pose proof (avail_le s1 []). unfold room in R. pose proof (top_top s T). lia. }
  rewrite E2. exists s2. split; [reflexivity |]. split; [auto |]. split; [exact Z2 |].
  assert (N2 : ~ tainted s2) by (intros Q; apply N1, (f_nt _ _ _ F2 Q)). split; [auto |].
  assert (A := assign_ok (release no_body fuel) (zlen (objs s)) [] [] 0 dst v (Some (zlen (objs s))) s1 (release_good _ _)
     I1 DK1 IN L1 ltac:(change (m_top s1) with (m_top s); pose proof (top_top s T); lia) Hv1 HV
     (or_intror eq_refl) (or_introl Hm) ltac:(right; intros o Q; change (dying s1) with (dying s) in Q;
       rewrite (t_dying _ T) in Q; destruct Q)).
  apply (post_Ok _ _ _ A E2) in N2. tauto.
Qed.

Lemma q_push fuel src s o v : top s -> usable s src = true -> cell s src = Some v -> target v = Some o ->
  exists s', mem_exec no_body fuel (MPush src) s = Ok s' /\ log s' = log s /\ shape s s' /\ m_top s' = m_top s + 1 /\
    cell s' (m_base s' + m_top s) = Some (Strong o).
Proof.
  intros T U Hv Ht. unfold mem_exec. cbn [exec]. rewrite U, Hv, Ht.
  destruct (push_ok (release no_body fuel) [] [] o s (top_ok s T)) as (s' & E & I & L & X & T' & C & LG & SH & K).
  { apply (i_live _ _ _ (t_inv _ T) src v o Hv Ht). }
  exists s'. auto.
Qed.

(** Every operation ends. *)
Lemma q_exec fuel op s : top s -> ~ tainted s -> room fuel s ->
  exists s', mem_exec no_body fuel op s = Ok s' /\ ~ tainted s' /\ top s' /\
    zlen (objs s') <= zlen (objs s) + 1 /\ m_top s' <= m_top s + 1.
Proof.
  intros T N R.
  assert (exists s', mem_exec no_body fuel op s = Ok s' /\ ~ tainted s' /\
    zlen (objs s') <= zlen (objs s) + 1 /\ m_top s' <= m_top s + 1) as (s' & E & N' & H).
  { assert (SELF : exists s', Ok s = Ok s' /\ ~ tainted s' /\
      zlen (objs s') <= zlen (objs s) + 1 /\ m_top s' <= m_top s + 1).
    { exists s. split; [auto |]. split; [auto | lia]. }
    destruct op as [n | dst n dt | dst src | dst | c | c | src | lo].
    - eexists. split; [reflexivity |]. split; [auto |]. cbn. lia.
    - destruct (usable s dst) eqn:U; [destruct (Z_le_dec 0 n) as [Hn | Hn] |].
      + destruct (q_new fuel dst n dt s) as (s' & E & F & _ & N' & T'); auto.
        exists s'. split; [auto |]. split; [auto |]. pose proof (f_len _ _ _ F) as LL.
        unfold with_new in LL. cbn [objs add_blocks set_objs set_cells add_log] in LL. rewrite zlen_app in LL.
        rewrite zlen_cons in LL. zlen_nils. lia.
      + unfold mem_exec. cbn [exec]. rewrite U. destruct (Z.leb_spec 0 n); [lia | exact SELF].
      + unfold mem_exec. cbn [exec]. rewrite U. exact SELF.
    - destruct (usable s dst) eqn:U1; [destruct (usable s src) eqn:U2 |].
      + destruct (usable_cell s src U2) as ((w & Hw) & _).
        destruct (q_copy fuel s T N R dst src w) as (s' & E & F & _ & N' & T'); auto.
        exists s'. split; [auto |]. split; [auto |]. rewrite (f_len _ _ _ F). lia.
      + unfold mem_exec. cbn [exec]. rewrite U1, U2. exact SELF.
      + unfold mem_exec. cbn [exec]. rewrite U1. exact SELF.
    - destruct (usable s dst) eqn:U.
      + destruct (q_undef fuel s T N R dst U) as (s' & E & F & _ & N' & T').
        exists s'. split; [auto |]. split; [auto |]. rewrite (f_len _ _ _ F). lia.
      + unfold mem_exec. cbn [exec]. rewrite U. exact SELF.
    - destruct (usable s c) eqn:U.
      + destruct (usable_cell s c U) as ((v & Hv) & _). destruct v as [| o | o].
        * unfold mem_exec. cbn [exec]. rewrite U. unfold weaken. rewrite Hv. exact SELF.
        * destruct (q_weaken fuel s T N R c o U Hv) as (s' & E & F & _ & _ & N' & T').
          exists s'. split; [auto |]. split; [auto |]. rewrite (f_len _ _ _ F). lia.
        * unfold mem_exec. cbn [exec]. rewrite U. unfold weaken. rewrite Hv. exact SELF.
      + unfold mem_exec. cbn [exec]. rewrite U. exact SELF.
    - destruct (usable s c) eqn:U.
      + destruct (usable_cell s c U) as ((v & Hv) & _).
        destruct (q_unweaken fuel s T N R c v U Hv) as (s' & E & F & _ & _ & N' & T').
        exists s'. split; [auto |]. split; [auto |]. rewrite (f_len _ _ _ F). lia.
      + unfold mem_exec. cbn [exec]. rewrite U. exact SELF.
    - destruct (usable s src) eqn:U.
      + destruct (usable_cell s src U) as ((v & Hv) & _). destruct (target v) as [o |] eqn:Ht.
        * destruct (q_push fuel src s o v T U Hv Ht) as (s' & E & LG & SH & T' & _).
          exists s'. split; [auto |]. split; [intros Q; apply N; revert Q; apply nottainted_log; auto |].
          destruct SH as (SL & _). lia.
        * unfold mem_exec. cbn [exec]. rewrite U, Hv, Ht. exact SELF.
      + unfold mem_exec. cbn [exec]. rewrite U. exact SELF.
    - destruct (Z_le_dec 0 lo) as [L1 | L1]; [destruct (Z_le_dec lo (m_top s)) as [L2 | L2] |].
      + destruct (q_leave fuel lo s T N R) as (s' & E & F & _ & N' & T'); [lia |].
        exists s'. split; [auto |]. split; [auto |]. rewrite (f_len _ _ _ F). lia.
      + unfold mem_exec. cbn [exec]. destruct (Z.leb_spec lo (m_top s)); [lia |]. rewrite andb_false_r. exact SELF.
      + unfold mem_exec. cbn [exec]. destruct (Z.leb_spec 0 lo); [lia |]. exact SELF. }
  exists s'. split; [auto |]. split; [auto |]. split; [| auto].
  pose proof (top_exec no_body fuel 0 op s T ltac:(pose proof (top_top s T); lia)) as A.
  apply (post_Ok _ _ _ A E) in N'. tauto.
Qed.

Lemma q_run fuel ops : forall s, top s -> ~ tainted s ->
  zlen (objs s) + m_top s + 2 * zlen ops + 1 < Z.of_nat fuel ->
  exists s', mem_run no_body fuel ops s = Ok s' /\ ~ tainted s' /\ top s' /\
    zlen (objs s') <= zlen (objs s) + zlen ops /\ m_top s' <= m_top s + zlen ops.
Proof.
  unfold mem_run. induction ops as [| op ops IH]; intros s T N R; cbn [run].
  - exists s. split; [auto |]. split; [auto |]. split; [auto |]. zlen_nils. lia.
  - rewrite zlen_cons in *. pose proof (zlen_nonneg ops).
    destruct (q_exec fuel op s T N) as (s1 & E1 & N1 & T1 & L1 & M1); [unfold room; lia |].
    unfold mem_exec in E1. rewrite E1. cbn [rbind].
    destruct (IH s1 T1 N1) as (s2 & E2 & N2 & T2 & L2 & M2); [lia |].
    exists s2. split; [auto |]. split; [auto |]. split; [auto |]. lia.
Qed.

Lemma frame_of_fr D s s' c v : fr D s s' -> ~ D c -> cell s c = Some v ->
  (forall v', cell s' c = Some v' -> v' = v \/ exists q, v = Weak q /\ ~ live s' q /\ v' = Null) /\
  (cell s' c = None -> exists q, belongs s c q /\ ~ live s' q).
Proof.
  intros F Hc Hv. split.
  - intros v' Hv'. destruct (f_cell _ _ _ F c v v' Hv Hv') as [Q | Q]; tauto.
  - apply (f_gone _ _ _ F c v Hv).
Qed.

Lemma q_frame fuel op s s' : top s -> ~ tainted s -> room fuel s -> mem_exec no_body fuel op s = Ok s' ->
  forall c v, ~ writes op s c -> cell s c = Some v ->
  (forall v', cell s' c = Some v' -> v' = v \/ exists q, v = Weak q /\ ~ live s' q /\ v' = Null) /\
  (cell s' c = None -> exists q, belongs s c q /\ ~ live s' q).
Proof.
  intros T N R E c v W Hc.
  assert (SELF : s' = s -> (forall v', cell s' c = Some v' -> v' = v \/ exists q, v = Weak q /\ ~ live s' q /\ v' = Null) /\
    (cell s' c = None -> exists q, belongs s c q /\ ~ live s' q)).
  { intros ->. split; [intros v' Q; left; congruence | congruence]. }
  assert (NE : forall a : Z, c <> a -> ~ a = c) by (intros; congruence).
  destruct op as [n | dst n dt | dst src | dst | d | d | src | lo]; cbn [writes] in W.
  - injection E as <-. match goal with |- (forall v', cell ?x c = _ -> _) /\ _ => assert (Q : cell x c = Some v) end.
    { eapply cell_grow_old; [reflexivity | auto]. }
    rewrite Q. split; [intros v' Q'; left; congruence | congruence].
  - destruct (usable s dst) eqn:U; [destruct (Z_le_dec 0 n) as [Hn | Hn] |].
    + destruct (q_new fuel dst n dt s T N R U Hn) as (s1 & E1 & F & _). rewrite E in E1. injection E1 as <-.
      assert (C1 : cell (with_new n dt s) c = Some v) by (eapply cell_grow_old; [reflexivity | auto]).
      destruct (frame_of_fr _ _ _ c v F (NE dst W) C1) as (P1 & P2). split; [auto |].
      intros Q. destruct (P2 Q) as (q & Q1 & Q2). exists q. split; [| auto].
      destruct (top_ok s T) as [I DK IN L]. destruct (new_ok [] [] n dt s Hn I L IN) as (_ & _ & _ & _ & BB).
      apply BB; auto. destruct Q1 as (obq & Q3 & Q4). rewrite with_new_obj in Q3.
      destruct (Z.eqb_spec q (zlen (objs s))) as [-> | Nq].
      * injection Q3 as <-. cbn [o_base o_len] in Q4. apply cell_bounds in Hc. lia.
      * apply obj_bounds in Q3. lia.
    + unfold mem_exec in E. cbn [exec] in E. rewrite U in E. destruct (Z.leb_spec 0 n); [lia |]. apply SELF. cbn in E. congruence.
    + unfold mem_exec in E. cbn [exec] in E. rewrite U in E. apply SELF. cbn in E. congruence.
  - destruct (usable s dst) eqn:U1; [destruct (usable s src) eqn:U2 |].
    + destruct (usable_cell s src U2) as ((w & Hw) & _).
      destruct (q_copy fuel s T N R dst src w) as (s1 & E1 & F & _); auto. rewrite E in E1. injection E1 as <-.
      apply (frame_of_fr _ _ _ c v F (NE dst W) Hc).
    + unfold mem_exec in E. cbn [exec] in E. rewrite U1, U2 in E. apply SELF. cbn in E. congruence.
    + unfold mem_exec in E. cbn [exec] in E. rewrite U1 in E. apply SELF. cbn in E. congruence.
  - destruct (usable s dst) eqn:U.
    + destruct (q_undef fuel s T N R dst U) as (s1 & E1 & F & _). rewrite E in E1. injection E1 as <-.
      apply (frame_of_fr _ _ _ c v F (NE dst W) Hc).
    + unfold mem_exec in E. cbn [exec] in E. rewrite U in E. apply SELF. congruence.
  - destruct (usable s d) eqn:U.
    + destruct (usable_cell s d U) as ((w & Hw) & _). destruct w as [| o | o].
      * unfold mem_exec in E. cbn [exec] in E. rewrite U in E. unfold weaken in E. rewrite Hw in E. apply SELF. congruence.
      * destruct (q_weaken fuel s T N R d o U Hw) as (s1 & E1 & F & _). rewrite E in E1. injection E1 as <-.
        apply (frame_of_fr _ _ _ c v F (NE d W) Hc).
      * unfold mem_exec in E. cbn [exec] in E. rewrite U in E. unfold weaken in E. rewrite Hw in E. apply SELF. congruence.
    + unfold mem_exec in E. cbn [exec] in E. rewrite U in E. apply SELF. congruence.
  - destruct (usable s d) eqn:U.
    + destruct (usable_cell s d U) as ((w & Hw) & _).
      destruct (q_unweaken fuel s T N R d w U Hw) as (s1 & E1 & F & _). rewrite E in E1. injection E1 as <-.
      apply (frame_of_fr _ _ _ c v F (NE d W) Hc).
    + unfold mem_exec in E. cbn [exec] in E. rewrite U in E. apply SELF. congruence.
  - unfold mem_exec in E. cbn [exec] in E. destruct (usable s src) eqn:U; [| apply SELF; congruence].
    destruct (usable_cell s src U) as ((w & Hw) & _). rewrite Hw in E.
    destruct (target w) as [o |] eqn:Ht; [| apply SELF; congruence].
    destruct (push_ok (release no_body fuel) [] [] o s (top_ok s T)) as (s1 & E1 & _ & _ & _ & _ & _ & _ & _ & K).
    { apply (i_live _ _ _ (t_inv _ T) src w o Hw Ht). }
    rewrite E in E1. injection E1 as <-. rewrite (K c v W Hc). split; [intros v' Q; left; congruence | congruence].
  - destruct (Z_le_dec 0 lo) as [L1 | L1]; [destruct (Z_le_dec lo (m_top s)) as [L2 | L2] |].
    + destruct (q_leave fuel lo s T N R) as (s1 & E1 & F & _); [lia |]. rewrite E in E1. injection E1 as <-.
      apply (frame_of_fr _ _ _ c v F W Hc).
    + unfold mem_exec in E. cbn [exec] in E. destruct (Z.leb_spec lo (m_top s)); [lia |]. rewrite andb_false_r in E. apply SELF. congruence.
    + unfold mem_exec in E. cbn [exec] in E. destruct (Z.leb_spec 0 lo); [lia |]. apply SELF. cbn in E. congruence.
Qed.

(** ** Any destructors: weakening and unweakening *)
Lemma any_weaken dtor fuel s c o : top s -> usable s c = true -> cell s c = Some (Strong o) -> 1 < strong_refs s o ->
  exists s', mem_exec dtor fuel (MWeaken c) s = Ok s' /\ cells s' = zupd (cells s) c (Some (Weak o)) /\ shape s s'.
Proof.
  intros T U Hc H1. unfold mem_exec. cbn [exec]. rewrite U. unfold weaken. rewrite Hc.
  apply usable_cell in U as (_ & Hm). pose proof (t_inv _ T) as I.
  destruct (i_live _ _ _ I c _ o Hc eq_refl) as (ob & Ho). rewrite Ho.
  pose proof (i_rc _ _ _ I o ob Ho) as RC. change (pcount o []) with 0 in RC.
  destruct (Z.ltb_spec 0 (o_rc ob)); [cbn [negb] | lia]. destruct (Z.eqb_spec (o_rc ob) 1) as [E1 | E1]; [lia |].
  destruct (weaken_step [] s c o ob I Hc Ho ltac:(lia) Hm) as (s1 & E & ob' & G & H2).
  rewrite E. cbn [rbind]. rewrite G. eexists. split; [reflexivity |]. cbv zeta in H2. tauto.
Qed.
Lemma any_unweaken dtor fuel s c o : top s -> usable s c = true -> cell s c = Some (Weak o) ->
  exists s', mem_exec dtor fuel (MUnweaken c) s = Ok s' /\ cells s' = zupd (cells s) c (Some (Strong o)) /\ shape s s'.
Proof.
  intros T U Hc. unfold mem_exec. cbn [exec]. rewrite U.
  destruct (unweaken_step (-1) [] s c _ (t_inv _ T) Hc) as (s' & E & _ & C' & _ & _ & _ & _ & _ & _ & _ & SH).
  exists s'. auto.
Qed.
Lemma any_push dtor fuel src s o v : top s -> usable s src = true -> cell s src = Some v -> target v = Some o ->
  exists s', mem_exec dtor fuel (MPush src) s = Ok s' /\ shape s s' /\ m_top s' = m_top s + 1 /\
    cell s' (m_base s' + m_top s) = Some (Strong o) /\
    (forall i, 0 <= i < m_top s -> cell s' (m_base s' + i) = cell s (m_base s + i)) /\
    (forall c w, ~ (m_base s <= c < m_base s + m_cap s) -> cell s c = Some w -> cell s' c = Some w).
Proof.
  intros T U Hv Ht. unfold mem_exec. cbn [exec]. rewrite U, Hv, Ht.
  destruct (push_ok (release dtor fuel) [] [] o s (top_ok s T)) as (s' & E & I & L & X & T' & C & LG & SH & K).
  { apply (i_live _ _ _ (t_inv _ T) src v o Hv Ht). }
  exists s'. split; [auto |]. split; [auto |]. split; [auto |]. split; [auto |]. split; [| auto].
  intros i Hi. apply (e_mort _ _ _ _ X); lia.
Qed.

Lemma cells_upd_cell s s' c v old d : cell s c = Some old -> cells s' = zupd (cells s) c (Some v) ->
  cell s' d = if d =? c then Some v else cell s d.
Proof.
  intros Hc E. pose proof (cell_bounds _ _ _ Hc) as CB. unfold cell. rewrite E, znth_upd.
  destruct (Z.eqb_spec d c); auto. subst.
  destruct (Z.leb_spec 0 c); [| lia]. destruct (Z.ltb_spec c (zlen (cells s))); [auto | lia].
Qed.
Lemma cells_upd_refs s s' c v old o : cell s c = Some old -> cells s' = zupd (cells s) c (Some v) ->
  strong_refs s' o = strong_refs s o - isS o old + isS o v.
Proof.
  intros Hc E. rewrite <- (refs_write s c v old o Hc). unfold strong_refs. rewrite E. reflexivity.
Qed.

(** ** Reached states *)
Lemma reached_top dtor fuel ops s : mem_run dtor fuel ops mem_init = Ok s -> ~ tainted s -> top s.
Proof.
  intros E N. pose proof (top_run dtor fuel 0 ops mem_init top_init ltac:(cbn; lia)) as A.
  pose proof (post_Ok _ _ _ A E N) as H. cbn beta in H. tauto.
Qed.
Lemma not_bad dtor fuel ops s : mem_run dtor fuel ops mem_init = Bad s -> tainted s.
Proof.
  intros E. pose proof (top_run dtor fuel 0 ops mem_init top_init ltac:(cbn; lia)) as A.
  unfold mem_run in E. rewrite E in A. exact A.
Qed.
Lemma plain_run ops fuel : 2 * zlen ops + 1 < Z.of_nat fuel ->
  exists s, mem_run no_body fuel ops mem_init = Ok s /\ ~ tainted s /\ top s /\
    zlen (objs s) <= zlen ops /\ m_top s <= zlen ops.
Proof.
  intros H. destruct (q_run fuel ops mem_init top_init) as (s & E & N & T & L & M).
  - intros (o & []).
  - change (zlen (objs mem_init)) with 0. change (m_top mem_init) with 0. lia.
  - exists s. split; [auto |]. split; [auto |]. split; [auto |].
    change (zlen (objs mem_init)) with 0 in L. change (m_top mem_init) with 0 in M. lia.
Qed.
