From Verif Require Import Base NList_model NList_spec.

Record nl_inv (l : nlist) (s : list Z) : Prop := {
  nli_cap : 0 < nl_capacity l <= INT32_MAX;
  nli_vals : zlen (nl_values l) = nl_capacity l;
  nli_len : nl_length l = zlen s;
  nli_fit : zlen s <= nl_capacity l;
  nli_abs : ztake (zlen s) (nl_values l) = s
}.

Lemma slot_get_take vals s i v :
  ztake (zlen s) vals = s -> znth s i = Some v -> slot_get vals i = Ret v.
Proof.
  intros A H. unfold slot_get. pose proof (znth_Some _ _ _ H).
  rewrite <- A in H. rewrite znth_take in H. replace (i <? zlen s) with true in H by lia.
  rewrite H; auto.
Qed.

Lemma abs_pt (vals s : list Z) :
  ztake (zlen s) vals = s -> forall i, i < zlen s -> znth vals i = znth s i.
Proof.
  intros A i B. rewrite <- A at 1. rewrite znth_take.
  destruct (Z.ltb_spec i (zlen s)); [auto | lia].
Qed.

Ltac zabs A := pose proof (abs_pt _ _ A) as P; zext; try (rewrite P by lia; try zfin).

Lemma maybe_extend_spec l s :
  nl_inv l s -> zlen s <= 1073741823 ->
  exists l', nl_maybe_extend l = Ret l' /\ nl_inv l' s /\ zlen s < nl_capacity l'.
Proof.
  intros [C V L F A] B. unfold nl_maybe_extend. rewrite Z.geb_leb.
  destruct (Z.leb_spec (nl_capacity l) (nl_length l)).
  - rewrite wrap32_id by (unfold in_i32; lia).
    replace (nl_capacity l * 2 <=? 0) with false by lia.
    unfold slots_copy. rewrite zlen_rep.
    replace (_ && _) with true by lia. cbn [obind].
    eexists; split; [reflexivity |]. split; [| cbn; lia].
    assert (zlen s = nl_capacity l) as Q by lia.
    split; cbn; auto; try lia.
    + rewrite zlen_blit; rewrite ?zlen_rep, ?zlen_sub; lia.
    + zlen_facts. zabs A.
  - exists l. split; auto. split; [split; auto | lia].
Qed.

Lemma shift_loop_spec n : forall i vals,
  0 <= i -> i + Z.of_nat n < zlen vals ->
  nl_shift_loop n i vals = Ret (zblit vals i (zsub vals (i + 1) (Z.of_nat n))).
Proof.
  induction n as [| n IH]; intros i vals I B.
  - cbn. f_equal. zext.
  - cbn [nl_shift_loop]. destruct (znth_lt vals (i + 1)) as [v Hv]; [lia |].
    unfold slot_get. rewrite Hv. cbn [obind]. unfold slot_set.
    replace (_ && _) with true by lia. cbn [obind].
    rewrite IH; [| lia |]. 2:{ rewrite zlen_upd; lia. }
    f_equal. zext.
    all: subst; try lia.
    all: try (rewrite <- Hv; f_equal; lia).
Qed.

Lemma step_spec l s op s' out :
  nl_inv l s -> zlen s <= 1073741823 -> seq_step s op = Some (s', out) ->
  exists l', nl_step l op = Ret (l', out) /\ nl_inv l' s' /\ zlen s' <= zlen s + 1.
Proof.
  intros I B H. destruct op as [v | v | i | i v | | | |]; cbn [seq_step nl_step] in *.
  - inversion H; subst. destruct (maybe_extend_spec l s I B) as (l1 & E & I1 & C1).
    unfold nl_push. rewrite E. cbn [obind]. destruct I1 as [C V L F A]. zlen_facts.
    unfold slot_set. replace (_ && _) with true by lia. cbn [obind].
    eexists; split; [reflexivity |]. rewrite zlen_app, zlen_cons, zlen_nil. split; [| lia].
    rewrite L. rewrite wrap32_id by (unfold in_i32; lia).
    split; cbn; rewrite ?zlen_upd, ?zlen_app, ?zlen_cons, ?zlen_nil; auto; try lia.
    zabs A.
  - inversion H; subst. destruct (maybe_extend_spec l s I B) as (l1 & E & I1 & C1).
    unfold nl_unshift. rewrite E. cbn [obind]. destruct I1 as [C V L F A]. zlen_facts.
    unfold slots_copy. replace (_ && _) with true by lia. cbn [obind].
    unfold slot_set. rewrite zlen_blit by (rewrite ?zlen_sub; lia).
    replace (_ && _) with true by lia. cbn [obind].
    eexists; split; [reflexivity |]. rewrite zlen_cons. split; [| lia].
    rewrite L. rewrite wrap32_id by (unfold in_i32; lia).
    split; cbn; rewrite ?zlen_upd, ?zlen_cons; auto; try lia.
    + rewrite zlen_blit; rewrite ?zlen_sub; lia.
    + zabs A.
  - destruct (znth s i) as [v |] eqn:Hv; [| discriminate]. inversion H; subst.
    pose proof (znth_Some _ _ _ Hv). unfold nl_get. rewrite (nli_len _ _ I).
    replace (_ && _) with true by lia.
    rewrite (slot_get_take _ s' i v) by (auto; apply I). cbn [obind].
    exists l. split; auto. split; auto; try lia.
  - destruct ((0 <=? i) && (i <? zlen s)) eqn:Hb; [| discriminate]. inversion H; subst.
    unfold nl_set. destruct I as [C V L F A]. rewrite L.
    replace ((i >=? 0) && _) with true by lia.
    unfold slot_set. replace (_ && _) with true by lia. cbn [obind].
    eexists; split; [reflexivity |]. rewrite zlen_upd. split; [| lia].
    split; cbn; rewrite ?zlen_upd; auto. zabs A.
  - unfold nl_pop. rewrite (nli_len _ _ I). zlen_facts.
    replace (zlen s <? 0) with false by lia.
    destruct (rev s) as [| v r] eqn:R.
    + inversion H; subst. apply (f_equal (@rev Z)) in R. rewrite rev_involutive in R. subst.
      cbn. eexists; split; [reflexivity |]. split; auto; try lia.
    + inversion H; subst. apply (f_equal (@rev Z)) in R. rewrite rev_involutive in R. cbn in R.
      destruct I as [C V L F A].
      assert (Ls : zlen s = zlen (rev r) + 1) by (rewrite R, zlen_app, zlen_cons, zlen_nil; lia).
      zlen_facts.
      replace (zlen s =? 0) with false by lia.
      rewrite (slot_get_take _ s (zlen s - 1) v); auto.
      2:{ rewrite R at 1. rewrite znth_app. rewrite Ls.
          replace (_ <? _) with false by lia. replace (_ - _) with 0 by lia. auto. }
      cbn [obind]. eexists; split; [reflexivity |]. split; [| lia].
      split; cbn; auto; try lia.
      rewrite R in A. rewrite zlen_app, zlen_cons, zlen_nil in A.
      replace (rev r) with (ztake (zlen (rev r)) (rev r ++ [v])) at 2 by zext.
      rewrite <- A. zext.
  - unfold nl_shift. rewrite (nli_len _ _ I). zlen_facts.
    replace (zlen s <? 0) with false by lia.
    destruct s as [| v r].
    + inversion H; subst. cbn. eexists; split; [reflexivity |]. split; auto; try lia.
    + inversion H; subst. destruct I as [C V L F A]. rewrite zlen_cons in *. zlen_facts.
      replace (1 + zlen s' =? 0) with false by lia.
      assert (Z0 : slot_get (nl_values l) 0 = Ret v).
      { apply (slot_get_take _ (v :: s')); auto. rewrite zlen_cons; auto. }
      rewrite Z0. cbn [obind].
      rewrite shift_loop_spec by lia. cbn [obind].
      eexists; split; [reflexivity |]. split; [| lia].
      split; cbn; auto; try lia.
      * rewrite zlen_blit; rewrite ?zlen_sub; lia.
      * assert (P : forall i, 0 <= i < zlen s' -> znth (nl_values l) (1 + i) = znth s' i).
        { intros i Bi. transitivity (znth (v :: s') (1 + i)).
          - rewrite <- A, znth_take. replace (1 + i <? 1 + zlen s') with true by lia. auto.
          - rewrite znth_cons. replace (1 + i =? 0) with false by lia. f_equal; lia. }
        zext. rewrite <- P by lia. f_equal; lia.
  - inversion H; subst. unfold nl_clear.
    assert (G : forall n, nl_clear_loop n (Z.of_nat n) = Ret 0).
    { induction n as [| n IH]; [reflexivity |]. cbn [nl_clear_loop].
      replace (Z.of_nat (S n) >? 0) with true by lia.
      replace (Z.of_nat (S n) - 1) with (Z.of_nat n) by lia. auto. }
    destruct I as [C V L F A]. zlen_facts.
    specialize (G (Z.to_nat (nl_length l))). rewrite Z2Nat.id in G by lia.
    rewrite G. cbn [obind].
    eexists; split; [reflexivity |]. split; [| change (zlen (@nil Z)) with 0; lia].
    split; cbn; auto; change (zlen (@nil Z)) with 0; try lia.
  - inversion H; subst. rewrite (nli_len _ _ I). exists l. split; auto. split; auto; lia.
Qed.

Lemma run_spec ops : forall l s outs,
  nl_inv l s -> zlen s + zlen ops <= 1073741823 -> seq_run s ops = Some outs ->
  nl_run l ops = Ret outs.
Proof.
  induction ops as [| op ops IH]; intros l s outs I B H; cbn [nl_run seq_run] in *.
  - congruence.
  - destruct (seq_step s op) as [[s' out] |] eqn:S; [| discriminate].
    destruct (seq_run s' ops) as [outs' |] eqn:R; [| discriminate]. inversion H; subst.
    rewrite zlen_cons in B. zlen_facts.
    destruct (step_spec l s op s' out I) as (l' & E & I' & B'); auto; [lia |].
    rewrite E. cbn [obind]. rewrite (IH l' s' outs'); auto. lia.
Qed.

Lemma history_spec c ops outs :
  0 <= c <= INT32_MAX -> zlen ops <= 1073741823 ->
  seq_run [] ops = Some outs -> nl_history c ops = Ret outs.
Proof.
  intros C B H. unfold nl_history, nl_new. replace (c <? 0) with false by lia. cbn [obind].
  eapply run_spec; eauto. 2: change (zlen (@nil Z)) with 0; lia. split; cbn; auto.
  - destruct (Z.eqb_spec c 0); lia.
  - rewrite zlen_rep. destruct (Z.eqb_spec c 0); lia.
  - rewrite zlen_nil. destruct (Z.eqb_spec c 0); lia.
Qed.

Lemma step_bad l s op : nl_inv l s -> seq_step s op = None -> nl_step l op = UB.
Proof.
  intros I H. destruct op as [v | v | i | i v | | | |]; cbn [seq_step nl_step] in *; try discriminate.
  - destruct (znth s i) eqn:E; [discriminate |]. unfold nl_get. rewrite (nli_len _ _ I).
    destruct ((i >=? 0) && (i <? zlen s)) eqn:B; [| reflexivity].
    destruct (znth_lt s i) as (v & V); [lia | congruence].
  - destruct ((0 <=? i) && (i <? zlen s)) eqn:B; [discriminate |]. unfold nl_set. rewrite (nli_len _ _ I).
    replace ((i >=? 0) && (i <? zlen s)) with false by lia. reflexivity.
  - destruct (rev s); discriminate.
  - destruct s; discriminate.
Qed.

Lemma run_bad ops : forall l s,
  nl_inv l s -> zlen s + zlen ops <= 1073741823 -> seq_run s ops = None -> nl_run l ops = UB.
Proof.
  induction ops as [| op ops IH]; intros l s I B H; cbn [nl_run seq_run] in *; [discriminate |].
  rewrite zlen_cons in B. zlen_facts.
  destruct (seq_step s op) as [[s' out] |] eqn:S.
  - destruct (seq_run s' ops) as [outs' |] eqn:R; [discriminate |].
    destruct (step_spec l s op s' out I) as (l' & E & I' & B'); auto; [lia |].
    rewrite E. cbn [obind]. rewrite (IH l' s'); auto. lia.
  - rewrite (step_bad _ _ _ I S). reflexivity.
Qed.

Lemma history_bad c ops :
  0 <= c <= INT32_MAX -> zlen ops <= 1073741823 ->
  seq_run [] ops = None -> nl_history c ops = UB.
Proof.
  intros C B H. unfold nl_history, nl_new. replace (c <? 0) with false by lia. cbn [obind].
  eapply run_bad; eauto. 2: change (zlen (@nil Z)) with 0; lia. split; cbn; auto.
  - destruct (Z.eqb_spec c 0); lia.
  - rewrite zlen_rep. destruct (Z.eqb_spec c 0); lia.
  - rewrite zlen_nil. destruct (Z.eqb_spec c 0); lia.
Qed.
