(** * Proofs about switch *)

From Coq Require Import Permutation.
From Verif Require Import Base Array_proofs Switch_model.

Definition val_at (l : list case) (i v : Z) : Prop := exists t, znth l i = Some (v, t).

(** Values before position [i] are sorted and at most all later ones. *)
Definition prefix_sorted (l : list case) (i : Z) : Prop :=
  forall p q vp vq, 0 <= p < i -> p < q -> val_at l p vp -> val_at l q vq -> vp <= vq.

Lemma val_at_upd2 l i j ci cj q v : 0 <= i < j -> j < zlen l ->
  znth l i = Some ci -> znth l j = Some cj ->
  val_at (zupd (zupd l i cj) j ci) q v ->
  val_at l (if q =? j then i else if q =? i then j else q) v.
Proof.
  intros I J Hi Hj (t & H). rewrite !znth_upd, zlen_upd in H.
  unfold val_at.
  destruct (Z.eqb_spec q j) as [-> | N]; [| destruct (Z.eqb_spec q i) as [-> | N']].
  - destruct (Z.leb_spec 0 j); [| lia]. destruct (Z.ltb_spec j (zlen l)); [| lia].
    cbn [andb] in H. exists t. congruence.
  - destruct (Z.leb_spec 0 i); [| lia]. destruct (Z.ltb_spec i (zlen l)); [| lia].
    cbn [andb] in H. exists t. congruence.
  - cbn [andb] in H. eauto.
Qed.

Lemma sort_inner_spec f : forall l i j,
  0 <= i < j -> j <= zlen l -> (Z.to_nat (zlen l - j) < f)%nat ->
  prefix_sorted l i ->
  (forall q v w, i < q < j -> val_at l i v -> val_at l q w -> v <= w) ->
  exists l', sort_inner f l i j = Ret l' /\ Permutation l l' /\ prefix_sorted l' (i + 1).
Proof.
  induction f as [| f IH]; intros l i j I J F P M; [lia |].
  cbn [sort_inner]. destruct (Z.ltb_spec j (zlen l)) as [L | L].
  - destruct (znth_lt l i ltac:(lia)) as ((vi & ti) & Hi). destruct (znth_lt l j ltac:(lia)) as ((vj & tj) & Hj).
    rewrite Hi, Hj. cbn [fst].
    destruct (Z.ltb_spec vj vi) as [S | S].
    + set (l1 := zupd (zupd l i (vj, tj)) j (vi, ti)).
      assert (Z1 : zlen l1 = zlen l) by (unfold l1; rewrite !zlen_upd; auto).
      assert (V : forall q v, val_at l1 q v ->
                val_at l (if q =? j then i else if q =? i then j else q) v)
        by (intros q v; apply val_at_upd2; auto; lia).
      assert (Vi : forall v, val_at l1 i v -> v = vj).
      { intros v Hv. apply V in Hv. destruct (Z.eqb_spec i j); [lia |]. rewrite Z.eqb_refl in Hv.
        destruct Hv as (t & Hv). congruence. }
      destruct (IH l1 i (j + 1)) as (l' & E & Pm & Ps); try lia.
      * intros p q vp vq Hp Hq Vp Vq. apply V in Vp. apply V in Vq.
        destruct (Z.eqb_spec p j); [lia |]. destruct (Z.eqb_spec p i); [lia |].
        destruct (Z.eqb_spec q j); [| destruct (Z.eqb_spec q i)]; refine (P p _ vp vq Hp _ Vp Vq); lia.
      * intros q v w Hq Hv Hw. apply Vi in Hv. subst v. apply V in Hw.
        destruct (Z.eqb_spec q j); [| destruct (Z.eqb_spec q i); [lia |]].
        -- destruct Hw as (t & Hw). assert (w = vi) by congruence. lia.
        -- assert (vi <= w) by (eapply (M q); eauto; [lia | exists ti; auto]). lia.
      * exists l'. split; [exact E |]. split; [| exact Ps].
        eapply Permutation_trans; [| exact Pm]. apply (swap_perm l i j (vi, ti) (vj, tj)); auto.
    + destruct (IH l i (j + 1)) as (l' & E & Pm & Ps); try lia; auto.
      * intros q v w Hq Hv Hw. destruct (Z.eq_dec q j) as [-> | N]; [| eapply (M q); eauto; lia].
        destruct Hv as (t1 & Hv), Hw as (t2 & Hw).
        assert (v = vi) by congruence. assert (w = vj) by congruence. lia.
      * eauto.
  - exists l. split; [reflexivity |]. split; [apply Permutation_refl |].
    intros p q vp vq Hp Hq Vp Vq.
    destruct (Z.eq_dec p i) as [-> | N]; [| eapply (P p q); eauto; lia].
    eapply (M q); eauto. destruct Vq as (t & Vq). apply znth_Some in Vq. lia.
Qed.

Lemma Permutation_zlen {A} (l l' : list A) : Permutation l l' -> zlen l = zlen l'.
Proof. intros P. apply Permutation_length in P. unfold zlen. lia. Qed.

Lemma sort_outer_spec f : forall l i,
  0 <= i -> (Z.to_nat (zlen l - i) < f)%nat -> prefix_sorted l i ->
  exists l', sort_outer f l i = Ret l' /\ Permutation l l' /\ prefix_sorted l' (zlen l').
Proof.
  induction f as [| f IH]; intros l i I F P; [lia |].
  cbn [sort_outer]. destruct (Z.ltb_spec i (zlen l)) as [L | L].
  - destruct (sort_inner_spec (S (length l)) l i (i + 1)) as (l1 & E & Pm & Ps); try lia; auto.
    { unfold zlen. lia. }
    rewrite E. cbn [obind]. pose proof (Permutation_zlen _ _ Pm).
    destruct (IH l1 (i + 1)) as (l' & E' & Pm' & Ps'); try lia; auto.
    exists l'. split; [exact E' |]. split; [eapply Permutation_trans; eauto | auto].
  - exists l. split; [reflexivity |]. split; [apply Permutation_refl |].
    intros p q vp vq Hp Hq Vp Vq. eapply (P p q); eauto. lia.
Qed.

(** Neighbours checked: either two cases are equal, or the list is strictly
    increasing. *)
Lemma dup_loop_spec f : forall l i,
  0 <= i -> (Z.to_nat (zlen l - i) < f)%nat -> prefix_sorted l (zlen l) ->
  exists d, dup_loop f l i = Ret d /\
   (d = true -> exists p q v, i <= p < q /\ val_at l p v /\ val_at l q v) /\
   (d = false -> forall p q vp vq, i <= p < q -> val_at l p vp -> val_at l q vq -> vp < vq).
Proof.
  induction f as [| f IH]; intros l i I F P; [lia |].
  cbn [dup_loop]. destruct (Z.ltb_spec i (zlen l - 1)) as [L | L].
  - destruct (znth_lt l i ltac:(lia)) as ((vi & ti) & Hi).
    destruct (znth_lt l (i + 1) ltac:(lia)) as ((vj & tj) & Hj).
    rewrite Hi, Hj. destruct (IH l (i + 1)) as (d & E & D1 & D2); try lia; auto.
    rewrite E. cbn [obind fst]. eexists. split; [reflexivity |].
    destruct (Z.eqb_spec vi vj) as [-> | N]; cbn [orb].
    + split; [intros _ | discriminate]. exists i, (i + 1), vj.
      repeat split; try lia; eexists; eauto.
    + split.
      * intros Hd. destruct (D1 Hd) as (p & q & v & B & V1 & V2). exists p, q, v.
        repeat split; auto; lia.
      * intros Hd p q vp vq B Vp Vq.
        destruct (Z.eq_dec p i) as [-> | Np]; [| eapply (D2 Hd p q); eauto; lia].
        destruct Vp as (t & Vp). assert (vp = vi) by congruence. subst vp.
        assert (vi < vj).
        { assert (vi <= vj); [| lia]. eapply (P i (i + 1)); try lia; eexists; eauto. }
        destruct (Z.eq_dec q (i + 1)) as [-> | Nq].
        { destruct Vq as (t' & Vq). assert (vq = vj) by congruence. lia. }
        assert (vj < vq); [| lia]. eapply (D2 Hd (i + 1) q); eauto; [lia | eexists; eauto].
  - exists false. split; [reflexivity |]. split; [discriminate |].
    intros _ p q vp vq B (t & Vp) (t' & Vq). apply znth_Some in Vp. apply znth_Some in Vq. lia.
Qed.

Definition strictly_sorted (l : list case) : Prop :=
  forall p q vp vq, 0 <= p < q -> val_at l p vp -> val_at l q vq -> vp < vq.

Lemma check_switch_spec cases :
  (NoDup (map fst cases) /\ exists l, check_switch cases = Ret l /\ Permutation cases l /\ strictly_sorted l) \/
  (~ NoDup (map fst cases) /\ check_switch cases = Die DUPLICATED).
Proof.
  unfold check_switch.
  destruct (sort_outer_spec (S (length cases)) cases 0) as (l & E & Pm & Ps); try lia.
  { unfold zlen. lia. }
  { intros p q vp vq Hp. lia. }
  rewrite E. cbn [obind].
  destruct (dup_loop_spec (S (length l)) l 0) as (d & E' & D1 & D2); auto; try lia.
  { unfold zlen. lia. }
  rewrite E'. cbn [obind].
  assert (PM : Permutation (map fst cases) (map fst l)) by (apply Permutation_map; auto).
  destruct d.
  - right. split; [| reflexivity]. intros N.
    assert (N' : NoDup (map fst l)) by (eapply Permutation_NoDup; eauto).
    destruct (D1 eq_refl) as (p & q & v & B & (t1 & V1) & (t2 & V2)).
    pose proof (znth_Some _ _ _ V1). pose proof (znth_Some _ _ _ V2).
    rewrite NoDup_nth_error in N'.
    assert (Z.to_nat p = Z.to_nat q); [| lia].
    apply N'.
    + rewrite map_length. unfold zlen in *. lia.
    + unfold znth in V1, V2. destruct (Z.ltb_spec p 0); [lia |]. destruct (Z.ltb_spec q 0); [lia |].
      rewrite !nth_error_map, V1, V2. reflexivity.
  - left. split; [| exists l; split; [reflexivity |]; split; [auto | exact (D2 eq_refl)]].
    eapply Permutation_NoDup; [apply Permutation_sym; eauto |].
    rewrite NoDup_nth_error. intros a b A Eab. rewrite map_length in A.
    rewrite !nth_error_map in Eab.
    destruct (nth_error l a) as [(va & ta) |] eqn:Ha; [| apply nth_error_None in Ha; lia].
    destruct (nth_error l b) as [(vb & tb) |] eqn:Hb; [| discriminate].
    cbn in Eab. injection Eab as ->.
    assert (Va : val_at l (Z.of_nat a) vb).
    { exists ta. unfold znth. destruct (Z.ltb_spec (Z.of_nat a) 0); [lia |]. rewrite Nat2Z.id. auto. }
    assert (Vb : val_at l (Z.of_nat b) vb).
    { exists tb. unfold znth. destruct (Z.ltb_spec (Z.of_nat b) 0); [lia |]. rewrite Nat2Z.id. auto. }
    destruct (Nat.lt_trichotomy a b) as [L | [L | L]]; auto; exfalso.
    + assert (vb < vb); [| lia]. eapply (D2 eq_refl (Z.of_nat a) (Z.of_nat b)); eauto; lia.
    + assert (vb < vb); [| lia]. eapply (D2 eq_refl (Z.of_nat b) (Z.of_nat a)); eauto; lia.
Qed.

Lemma wrap32_u32 z : in_i32 z -> wrap32 (u32 z) = z.
Proof.
  unfold in_i32, wrap32, wrap, u32. intros H. change (2 * 2147483648) with 4294967296.
  rewrite Zplus_mod_idemp_l, Z.mod_small; lia.
Qed.

(** The program around the switch opcode. *)
Section Lookup.
  Variables (pre post : list opcode) (var dflt : Z) (l : list case).
  Let ops := pre ++ emit_switch var dflt l ++ post.
  Let pc := zlen pre.
  Hypothesis sorted : strictly_sorted l.
  Hypothesis small : zlen l <= INT32_MAX.
  Hypothesis ints : Forall (fun c => in_i32 (fst c) /\ in_i32 (snd c)) l.

  Lemma ops_case i v t : znth l i = Some (v, t) ->
    exists o, znth ops (pc + 1 + i) = Some o /\ wrap32 (op1 o) = v /\ wrap32 (op2 o) = t.
  Proof using ints.
    clear sorted small.
    intros H. pose proof (znth_Some _ _ _ H). unfold ops, pc.
    rewrite znth_app. destruct (Z.ltb_spec (zlen pre + 1 + i) (zlen pre)); [lia |].
    unfold emit_switch. rewrite znth_app, zlen_cons, zlen_map.
    destruct (Z.ltb_spec (zlen pre + 1 + i - zlen pre) (1 + zlen l)); [| lia].
    rewrite znth_cons. destruct (Z.eqb_spec (zlen pre + 1 + i - zlen pre) 0); [lia |].
    replace (zlen pre + 1 + i - zlen pre - 1) with i by lia.
    rewrite znth_map, H. cbn [option_map]. eexists. split; [reflexivity |]. cbn [op1 op2 fst snd].
    rewrite Forall_forall in ints. destruct (ints (v, t) (znth_In _ _ _ H)) as (I1 & I2). cbn in I1, I2.
    rewrite !wrap32_u32 by auto. auto.
  Qed.

  Definition dest (v : Z) (r : Z) : Prop :=
    In (v, r) l \/ ((forall t, ~ In (v, t) l) /\ r = dflt).

  Lemma search_spec v f : forall lo hi,
    0 <= lo -> hi < zlen l -> hi - lo + 1 < Z.of_nat f -> (0 < f)%nat ->
    (forall i w, val_at l i w -> i < lo -> w < v) ->
    (forall i w, val_at l i w -> hi < i -> v < w) ->
    exists r, search f ops pc v dflt lo hi = Ret r /\ dest v r.
  Proof using sorted ints.
    clear small.
    induction f as [| f IH]; intros lo hi L H F P A B; [lia |].
    cbn [search]. destruct (Z.ltb_spec hi lo) as [E | E].
    - exists dflt. split; [reflexivity |]. right. split; [| reflexivity].
      intros t I. apply In_znth in I. destruct I as (i & R & N).
      assert (V : val_at l i v) by (eexists; eauto).
      specialize (A i v V). specialize (B i v V). lia.
    - set (half := lo + Z.quot (hi - lo) 2).
      assert (HB : lo <= half <= hi).
      { unfold half. rewrite Z.quot_div_nonneg by lia.
        assert (0 <= (hi - lo) / 2 <= hi - lo); [| lia].
        split; [apply Z.div_pos; lia |]. apply Z.div_le_upper_bound; lia. }
      destruct (znth_lt l half ltac:(lia)) as ((w & t) & N).
      destruct (ops_case half w t N) as (o & -> & -> & ->).
      assert (Vh : val_at l half w) by (eexists; eauto).
      destruct (Z.ltb_spec w v); [| destruct (Z.ltb_spec v w)].
      + apply IH; try lia.
          -- intros i w' V' I. destruct (Z_lt_ge_dec i half) as [LT | GE].
             { assert (i < 0 \/ 0 <= i) as [? | ?] by lia.
               - destruct V' as (? & V'). apply znth_Some in V'. lia.
               - assert (w' < w) by (eapply (sorted i half); eauto; lia). lia. }
             { assert (i = half) by lia. subst i.
               destruct Vh as (? & ?), V' as (? & ?). assert (w' = w) by congruence. lia. }
          -- intros i w' V' I. eapply B; eauto.
      + assert (HI : forall i w', val_at l i w' -> half - 1 < i -> v < w').
        { intros i w' V' I. destruct (Z.eq_dec i half) as [-> | NE].
          - destruct Vh as (? & ?), V' as (? & ?). assert (w' = w) by congruence. lia.
          - assert (w < w') by (eapply (sorted half i); eauto; lia). lia. }
        apply IH; try lia; auto.
      + exists t. split; [reflexivity |]. left. assert (w = v) by lia. subst w.
        eapply znth_In; eauto.
  Qed.

  Hypothesis dflt_int : in_i32 dflt.

  Lemma lookup_spec v : exists r, lookup_switch ops pc v = Ret r /\ dest v r.
  Proof using sorted small ints dflt_int.
    unfold lookup_switch.
    assert (HS : znth ops pc = Some {| op_id := ID_LOOKUP_SWITCH; op0 := u32 var; op1 := u32 dflt; op2 := u32 (zlen l) |}).
    { unfold ops, pc, emit_switch. rewrite znth_app, Z.ltb_irrefl, Z.sub_diag. reflexivity. }
    rewrite HS. cbn [op1 op2].
    pose proof (zlen_nonneg l).
    rewrite (wrap32_u32 dflt), (wrap32_u32 (zlen l)) by (auto; unfold in_i32; lia).
    destruct (Z.ltb_spec 0 (zlen l)) as [L | L].
    - destruct (znth_lt l 0 ltac:(lia)) as ((v0 & t0) & H0).
      destruct (znth_lt l (zlen l - 1) ltac:(lia)) as ((v1 & t1) & H1).
      destruct (ops_case 0 v0 t0 H0) as (o0 & -> & -> & _).
      destruct (ops_case (zlen l - 1) v1 t1 H1) as (o1 & E1 & W1 & _).
      replace (pc + 1 + zlen l - 1) with (pc + 1 + (zlen l - 1)) by lia. rewrite E1, W1.
      assert (V0 : val_at l 0 v0) by (eexists; eauto).
      assert (V1 : val_at l (zlen l - 1) v1) by (eexists; eauto).
      destruct (Z.leb_spec v0 v), (Z.leb_spec v v1); cbn [andb].
      + apply search_spec; try lia.
        * intros i w (t & V) I. apply znth_Some in V. lia.
        * intros i w (t & V) I. apply znth_Some in V. lia.
      + exists dflt. split; [reflexivity |]. right. split; [| reflexivity].
        intros t I. apply In_znth in I. destruct I as (i & R & N).
        destruct (Z.eq_dec i (zlen l - 1)) as [-> | NE].
        { assert (v = v1) by congruence. lia. }
        assert (v < v1); [| lia]. eapply (sorted i (zlen l - 1)); eauto; [lia | eexists; eauto].
      + exists dflt. split; [reflexivity |]. right. split; [| reflexivity].
        intros t I. apply In_znth in I. destruct I as (i & R & N).
        destruct (Z.eq_dec i 0) as [-> | NE].
        { assert (v = v0) by congruence. lia. }
        assert (v0 < v); [| lia]. eapply (sorted 0 i); eauto; [lia | eexists; eauto].
      + exists dflt. split; [reflexivity |]. right. split; [| reflexivity].
        intros t I. apply In_znth in I. destruct I as (i & R & N).
        destruct (Z.eq_dec i 0) as [-> | NE].
        { assert (v = v0) by congruence. lia. }
        assert (v0 < v); [| lia]. eapply (sorted 0 i); eauto; [lia | eexists; eauto].
    - exists dflt. split; [reflexivity |]. right. split; [| reflexivity].
      intros t I. apply In_znth in I. destruct I as (i & R & N). lia.
  Qed.
End Lookup.
