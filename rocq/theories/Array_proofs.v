(** * Proofs about the Array model *)
From Coq Require Import Permutation.
From Verif Require Import Base Array_model Array_spec.

Ltac w32 :=
  repeat match goal with
  | |- context [wrap32 ?z] => rewrite (wrap32_id z) by (unfold in_i32; lia)
  end.

Section Proofs.
  Context {A : Type}.
  Implicit Types (d s a src out : list A).

  Lemma c_add_ok x y : 0 <= x -> 0 <= y -> x + y <= INT32_MAX -> c_add x y = Ret (x + y).
  Proof.
    intros. unfold c_add.
    destruct (Z.leb_spec INT32_MIN (x + y)); [| lia].
    destruct (Z.leb_spec (x + y) INT32_MAX); [| lia]. reflexivity.
  Qed.

  Lemma blit_copied d doff s soff len :
    0 <= len -> 0 <= doff -> 0 <= soff -> doff + len <= zlen d -> soff + len <= zlen s ->
    copied d doff s soff len (zblit d doff (zsub s soff len)).
  Proof.
    intros. zlen_facts.
    assert (L : zlen (zsub s soff len) = len) by (rewrite zlen_sub; lia).
    split.
    - rewrite zlen_blit; lia.
    - intros i. rewrite znth_blit by lia. rewrite L, znth_sub.
      destruct (Z.leb_spec doff i); cbn [andb]; auto.
      destruct (Z.ltb_spec i (doff + len)); auto.
      destruct (Z.leb_spec 0 (i - doff)); [| lia].
      destruct (Z.ltb_spec (i - doff) len); [| lia]. cbn [andb]. f_equal; lia.
  Qed.

  Lemma copied_fun d doff s soff len d1 d2 :
    copied d doff s soff len d1 -> copied d doff s soff len d2 -> d1 = d2.
  Proof.
    intros [_ H1] [_ H2]. apply znth_ext. intros. rewrite H1, H2. reflexivity.
  Qed.

  Lemma copied_nil d doff s soff : copied d doff s soff 0 d.
  Proof.
    split; auto. intros i.
    destruct (Z.leb_spec doff i); destruct (Z.ltb_spec i (doff + 0)); try lia; auto.
  Qed.

  (** The checks: on every call either the continuation runs on a good range,
      or nothing happens. *)
  Lemma copy_checks_good d doff s soff len k :
    0 <= len -> 0 <= doff -> 0 <= soff -> doff + len <= zlen d -> soff + len <= zlen s ->
    zlen d <= INT32_MAX -> zlen s <= INT32_MAX ->
    copy_checks (Some d) doff (Some s) soff len k = if len =? 0 then Ret d else k d s.
  Proof.
    intros. zlen_facts. unfold copy_checks.
    destruct (Z.geb_spec len 0); [| lia]. destruct (Z.geb_spec doff 0); [| lia].
    destruct (Z.geb_spec soff 0); [| lia]. destruct (len =? 0); auto.
    rewrite (c_add_ok doff len), obind_ret by lia.
    destruct (Z.leb_spec (doff + len) (zlen d)); [| lia].
    rewrite (c_add_ok soff len), obind_ret by lia.
    destruct (Z.leb_spec (soff + len) (zlen s)); [| lia]. reflexivity.
  Qed.

  Lemma memcpy_ok d doff s soff len :
    0 <= len -> 0 <= doff -> 0 <= soff -> doff + len <= zlen d -> soff + len <= zlen s ->
    zlen d <= INT32_MAX -> zlen s <= INT32_MAX ->
    memcpy false (Some d) doff (Some s) soff len = Ret (zblit d doff (zsub s soff len)).
  Proof.
    intros. unfold memcpy. rewrite copy_checks_good by auto. cbn [andb].
    destruct (Z.eqb_spec len 0); auto. subst. f_equal.
    eapply copied_fun; [apply copied_nil | apply blit_copied; lia].
  Qed.

  Lemma memmove_ok d doff s soff len :
    0 <= len -> 0 <= doff -> 0 <= soff -> doff + len <= zlen d -> soff + len <= zlen s ->
    zlen d <= INT32_MAX -> zlen s <= INT32_MAX ->
    memmove (Some d) doff (Some s) soff len = Ret (zblit d doff (zsub s soff len)).
  Proof.
    intros. unfold memmove. rewrite copy_checks_good by auto.
    destruct (Z.eqb_spec len 0); auto. subst. f_equal.
    eapply copied_fun; [apply copied_nil | apply blit_copied; lia].
  Qed.

  Lemma copy_checks_die d doff s soff len k :
    doff + len <= INT32_MAX -> soff + len <= INT32_MAX ->
    bad_copy d doff s soff len -> ~ (len = 0 /\ 0 <= doff /\ 0 <= soff) ->
    exists e, copy_checks (Some d) doff (Some s) soff len k = Die e.
  Proof.
    intros ? ? B NZ. zlen_facts. unfold copy_checks, bad_copy in *.
    destruct (Z.geb_spec len 0); [| eauto]. destruct (Z.geb_spec doff 0); [| eauto].
    destruct (Z.geb_spec soff 0); [| eauto]. destruct (Z.eqb_spec len 0); [lia |].
    rewrite (c_add_ok doff len), obind_ret by lia.
    destruct (Z.leb_spec (doff + len) (zlen d)); [| eauto].
    rewrite (c_add_ok soff len), obind_ret by lia.
    destruct (Z.leb_spec (soff + len) (zlen s)); [lia | eauto].
  Qed.

  (** ** The object copy loops *)

  Section Loop.
    Variables (accepts : A -> bool) (same : bool) (src : list A) (doff soff : Z).
    Hypothesis Ls : zlen src <= INT32_MAX.
    Hypothesis Hd : 0 <= doff.
    Hypothesis Hs : 0 <= soff.

    Lemma copy_elem_ok d i x :
      0 <= i -> zlen d <= INT32_MAX -> doff + i < zlen d -> soff + i < zlen src ->
      znth src (soff + i) = Some x -> accepts x = true ->
      (same = true -> znth d (soff + i) = Some x) ->
      copy_elem accepts same src d doff soff i = Ret (zupd d (doff + i) x).
    Proof.
      intros. unfold copy_elem. w32. unfold elem_get.
      replace (znth (if same then d else src) (soff + i)) with (Some x)
        by (destruct same; symmetry; auto).
      rewrite obind_ret.
      destruct (Z.leb_spec 0 (doff + i)); [| lia].
      destruct (Z.ltb_spec (doff + i) (zlen d)); [| lia]. cbn [andb].
      rewrite H4. reflexivity.
    Qed.

    Lemma copy_up n i d :
      0 <= i -> zlen d <= INT32_MAX -> doff + i + Z.of_nat n <= zlen d ->
      soff + i + Z.of_nat n <= zlen src ->
      (forall j, i <= j < i + Z.of_nat n -> forall x, znth src (soff + j) = Some x -> accepts x = true) ->
      (same = true ->
         (forall j, i <= j < i + Z.of_nat n -> znth d (soff + j) = znth src (soff + j)) /\
         (forall j k, i <= j < k -> k < i + Z.of_nat n -> doff + j <> soff + k)) ->
      exists d', copy_loop accepts same src doff soff n i 1 d = (d', Ret tt) /\ zlen d' = zlen d /\
        forall p, znth d' p = if (doff + i <=? p) && (p <? doff + i + Z.of_nat n)
                              then znth src (soff + (p - doff)) else znth d p.
    Proof.
      revert i d. induction n as [| n IH]; intros i d Hi Ld Bd Bs Acc Al.
      - exists d. split; [reflexivity |]. split; auto. intros p.
        destruct (Z.leb_spec (doff + i) p); destruct (Z.ltb_spec p (doff + i + Z.of_nat 0)); try lia; auto.
      - destruct (znth_lt src (soff + i)) as [x Ex]; [lia |].
        cbn [copy_loop].
        rewrite (copy_elem_ok d i x); auto; try lia.
        2: { eapply Acc; eauto. lia. }
        2: { intros S. rewrite (proj1 (Al S) i); auto. lia. }
        destruct (IH (i + 1) (zupd d (doff + i) x)) as (d' & E & L & N).
        + lia.
        + rewrite zlen_upd; lia.
        + rewrite zlen_upd; lia.
        + lia.
        + intros j Hj y Hy. eapply Acc; eauto. lia.
        + intros S. destruct (Al S) as [R C]. split.
          * intros j Hj. rewrite znth_upd.
            destruct (Z.eqb_spec (soff + j) (doff + i)).
            -- exfalso. apply (C i j); lia.
            -- cbn [andb]. apply R. lia.
          * intros j k Hj Hk. apply C; lia.
        + exists d'. split; [exact E |]. rewrite zlen_upd in L. split; [auto |].
          intros p. rewrite N, znth_upd.
          destruct (Z.leb_spec (doff + (i + 1)) p); destruct (Z.ltb_spec p (doff + (i + 1) + Z.of_nat n));
            cbn [andb];
            destruct (Z.leb_spec (doff + i) p); destruct (Z.ltb_spec p (doff + i + Z.of_nat (S n)));
            cbn [andb]; try lia; auto;
            destruct (Z.eqb_spec p (doff + i)); cbn [andb]; try lia; auto.
          destruct (Z.leb_spec 0 (doff + i)); [| lia].
          destruct (Z.ltb_spec (doff + i) (zlen d)); [| lia]. cbn [andb].
          rewrite <- Ex. f_equal; lia.
    Qed.

    Lemma copy_down n i d :
      0 <= i + 1 - Z.of_nat n -> zlen d <= INT32_MAX -> doff + i < zlen d -> soff + i < zlen src ->
      (forall j, i - Z.of_nat n < j <= i -> forall x, znth src (soff + j) = Some x -> accepts x = true) ->
      (same = true ->
         (forall j, i - Z.of_nat n < j <= i -> znth d (soff + j) = znth src (soff + j)) /\
         (forall j k, k < j <= i -> i - Z.of_nat n < k -> doff + j <> soff + k)) ->
      exists d', copy_loop accepts same src doff soff n i (-1) d = (d', Ret tt) /\ zlen d' = zlen d /\
        forall p, znth d' p = if (doff + i + 1 - Z.of_nat n <=? p) && (p <? doff + i + 1)
                              then znth src (soff + (p - doff)) else znth d p.
    Proof.
      revert i d. induction n as [| n IH]; intros i d Hi Ld Bd Bs Acc Al.
      - exists d. split; [reflexivity |]. split; auto. intros p.
        destruct (Z.leb_spec (doff + i + 1 - Z.of_nat 0) p); destruct (Z.ltb_spec p (doff + i + 1)); try lia; auto.
      - destruct (znth_lt src (soff + i)) as [x Ex]; [lia |].
        cbn [copy_loop].
        rewrite (copy_elem_ok d i x); auto; try lia.
        2: { eapply Acc; eauto. lia. }
        2: { intros S. rewrite (proj1 (Al S) i); auto. lia. }
        replace (i + -1) with (i - 1) by lia.
        destruct (IH (i - 1) (zupd d (doff + i) x)) as (d' & E & L & N).
        + lia.
        + rewrite zlen_upd; lia.
        + rewrite zlen_upd; lia.
        + lia.
        + intros j Hj y Hy. eapply Acc; eauto. lia.
        + intros S. destruct (Al S) as [R C]. split.
          * intros j Hj. rewrite znth_upd.
            destruct (Z.eqb_spec (soff + j) (doff + i)).
            -- exfalso. apply (C i j); lia.
            -- cbn [andb]. apply R. lia.
          * intros j k Hj Hk. apply C; lia.
        + exists d'. split; [exact E |]. rewrite zlen_upd in L. split; [auto |].
          intros p. rewrite N, znth_upd.
          destruct (Z.leb_spec (doff + (i - 1) + 1 - Z.of_nat n) p); destruct (Z.ltb_spec p (doff + (i - 1) + 1));
            cbn [andb];
            destruct (Z.leb_spec (doff + i + 1 - Z.of_nat (S n)) p); destruct (Z.ltb_spec p (doff + i + 1));
            cbn [andb]; try lia; auto;
            destruct (Z.eqb_spec p (doff + i)); cbn [andb]; try lia; auto.
          destruct (Z.leb_spec 0 (doff + i)); [| lia].
          destruct (Z.ltb_spec (doff + i) (zlen d)); [| lia]. cbn [andb].
          rewrite <- Ex. f_equal; lia.
    Qed.

    (** Whatever happens, only the range is written, and the loop cannot end
        in undefined behaviour. *)
    Lemma copy_elem_frame d i r :
      copy_elem accepts same src d doff soff i = r ->
      (exists d' , r = Ret d' /\ exists p x, p = wrap32 (doff + i) /\ 0 <= p < zlen d /\ d' = zupd d p x) \/
      (exists e, r = Die e).
    Proof.
      intros <-. unfold copy_elem, elem_get.
      destruct (znth (if same then d else src) (wrap32 (soff + i))) as [x |]; cbn [obind]; [| eauto].
      destruct (Z.leb_spec 0 (wrap32 (doff + i))); cbn [andb]; [| eauto].
      destruct (Z.ltb_spec (wrap32 (doff + i)) (zlen d)); [| eauto].
      destruct (accepts x); [| eauto].
      left. eexists; split; [reflexivity |]. exists (wrap32 (doff + i)), x. auto.
    Qed.

    Lemma copy_up_frame n i d d' o :
      0 <= i -> doff + i <= INT32_MAX -> zlen d <= INT32_MAX ->
      copy_loop accepts same src doff soff n i 1 d = (d', o) ->
      zlen d' = zlen d /\ (o = Ret tt \/ exists e, o = Die e) /\
      forall p, p < doff + i \/ doff + i + Z.of_nat n <= p -> znth d' p = znth d p.
    Proof.
      revert i d. induction n as [| n IH]; intros i d Hi Bd Ld E; cbn [copy_loop] in E.
      - inversion E; subst. auto.
      - destruct (copy_elem_frame d i _ eq_refl) as [(d1 & E1 & p & x & Ep & Hp & ->) | (e & E1)];
          rewrite E1 in E.
        + rewrite wrap32_id in Ep by (unfold in_i32; lia).
          apply IH in E; rewrite ?zlen_upd in *; try lia.
          destruct E as (L & O & N). split; [auto |]. split; [auto |].
          intros q Hq. rewrite N by lia. rewrite znth_upd.
          destruct (Z.eqb_spec q p); [lia |]. reflexivity.
        + inversion E; subst. eauto.
    Qed.

    Lemma copy_down_frame n i d d' o :
      doff + i <= 4294967294 - 1 -> - 1 <= i -> zlen d <= INT32_MAX -> Z.of_nat n <= i + 1 ->
      copy_loop accepts same src doff soff n i (-1) d = (d', o) ->
      zlen d' = zlen d /\ (o = Ret tt \/ exists e, o = Die e) /\
      forall p, p < doff + i + 1 - Z.of_nat n \/ doff + i + 1 <= p -> znth d' p = znth d p.
    Proof.
      revert i d. induction n as [| n IH]; intros i d Bd Hi Ld Hn E; cbn [copy_loop] in E.
      - inversion E; subst. auto.
      - destruct (copy_elem_frame d i _ eq_refl) as [(d1 & E1 & p & x & Ep & Hp & ->) | (e & E1)];
          rewrite E1 in E.
        + assert (W : wrap32 (doff + i) = doff + i).
          { unfold wrap32, wrap in *. change (2 * 2147483648) with 4294967296 in *.
            destruct (Z_le_gt_dec (doff + i) INT32_MAX).
            - rewrite Z.mod_small; lia.
            - exfalso.
              replace (doff + i + 2147483648) with (doff + i - 2147483648 + 1 * 4294967296) in Ep by lia.
              rewrite Z.mod_add in Ep by lia. rewrite Z.mod_small in Ep by lia. lia. }
          rewrite W in Ep.
          replace (i + -1) with (i - 1) in E by lia.
          apply IH in E; rewrite ?zlen_upd in *; try lia.
          destruct E as (L & O & N). split; [auto |]. split; [auto |].
          intros q Hq. rewrite N by lia. rewrite znth_upd.
          destruct (Z.eqb_spec q p); [lia |]. reflexivity.
        + inversion E; subst. eauto.
    Qed.
  End Loop.

  Lemma object_copy_checks_good d doff s soff len :
    0 <= len -> 0 <= doff -> 0 <= soff -> doff + len <= zlen d -> soff + len <= zlen s ->
    zlen d <= INT32_MAX -> zlen s <= INT32_MAX ->
    object_copy_checks d doff s soff len = None.
  Proof.
    intros. unfold object_copy_checks. w32.
    destruct (Z.geb_spec len 0); [| lia]. destruct (Z.geb_spec doff 0); [| lia].
    destruct (Z.geb_spec soff 0); [| lia].
    destruct (Z.leb_spec (doff + len) (zlen d)); [| lia].
    destruct (Z.leb_spec (soff + len) (zlen s)); [| lia]. reflexivity.
  Qed.

  Lemma object_copy_checks_bad d doff s soff len :
    in_i32 doff -> in_i32 soff -> in_i32 len ->
    doff + len <= INT32_MAX -> soff + len <= INT32_MAX ->
    bad_copy d doff s soff len ->
    exists e, object_copy_checks d doff s soff len = Some e.
  Proof.
    unfold in_i32, bad_copy, object_copy_checks. intros.
    destruct (Z.geb_spec len 0); cbn [negb]; [| eauto].
    destruct (Z.geb_spec doff 0); cbn [negb]; [| eauto].
    destruct (Z.geb_spec soff 0); cbn [negb]; [| eauto].
    rewrite !wrap32_id by (unfold in_i32; lia).
    destruct (Z.leb_spec (doff + len) (zlen d)); cbn [negb]; [| eauto].
    destruct (Z.leb_spec (soff + len) (zlen s)); cbn [negb]; [lia | eauto].
  Qed.

  Lemma object_copy_checks_nonneg d doff s soff len :
    object_copy_checks d doff s soff len = None -> 0 <= len /\ 0 <= doff /\ 0 <= soff.
  Proof.
    unfold object_copy_checks.
    destruct (Z.geb_spec len 0); cbn [negb]; [| discriminate].
    destruct (Z.geb_spec doff 0); cbn [negb]; [| discriminate].
    destruct (Z.geb_spec soff 0); cbn [negb]; [| discriminate]. lia.
  Qed.

  Lemma memcpy_object_ok accepts same d doff s soff len :
    zlen d <= INT32_MAX -> zlen s <= INT32_MAX -> ~ bad_copy d doff s soff len ->
    (forall j x, soff <= j < soff + len -> znth s j = Some x -> accepts x = true) ->
    (same = true -> s = d /\ (doff <= soff \/ soff + len <= doff)) ->
    exists d', memcpy_object_address accepts same d doff s soff len = (d', Ret tt) /\
      copied d doff s soff len d'.
  Proof.
    intros Ld Ls NB Acc Al. unfold bad_copy in NB.
    unfold memcpy_object_address. rewrite object_copy_checks_good by lia.
    destruct (copy_up accepts same s doff soff Ls ltac:(lia) ltac:(lia) (Z.to_nat len) 0 d)
      as (d' & E & L & N); try lia.
    - intros j Hj x. apply Acc. lia.
    - intros S. destruct (Al S) as [-> D]. split; auto. intros; lia.
    - exists d'. split; [exact E |]. split; [exact L |]. intros p. rewrite N.
      replace (doff + 0) with doff by lia. rewrite Z2Nat.id by lia. reflexivity.
  Qed.

  Lemma memmove_object_ok accepts same d doff s soff len :
    zlen d <= INT32_MAX -> zlen s <= INT32_MAX -> ~ bad_copy d doff s soff len ->
    (forall j x, soff <= j < soff + len -> znth s j = Some x -> accepts x = true) ->
    (same = true -> s = d) ->
    exists d', memmove_object_address accepts same d doff s soff len = (d', Ret tt) /\
      copied d doff s soff len d'.
  Proof.
    intros Ld Ls NB Acc Al. unfold bad_copy in NB.
    unfold memmove_object_address. rewrite object_copy_checks_good by lia.
    destruct (Z.ltb_spec doff soff).
    - destruct (copy_up accepts same s doff soff Ls ltac:(lia) ltac:(lia) (Z.to_nat len) 0 d)
        as (d' & E & L & N); try lia.
      + intros j Hj x. apply Acc. lia.
      + intros S. rewrite (Al S). split; auto. intros; lia.
      + exists d'. split; [exact E |]. split; [exact L |]. intros p. rewrite N.
        replace (doff + 0) with doff by lia. rewrite Z2Nat.id by lia. reflexivity.
    - destruct (Z.eq_dec len 0) as [-> |].
      { exists d. split; [reflexivity |]. apply copied_nil. }
      destruct (copy_down accepts same s doff soff Ls ltac:(lia) ltac:(lia) (Z.to_nat len) (len - 1) d)
        as (d' & E & L & N); try lia.
      + intros j Hj x. apply Acc. lia.
      + intros S. rewrite (Al S). split; auto. intros; lia.
      + exists d'. split; [exact E |]. split; [exact L |]. intros p. rewrite N.
        rewrite Z2Nat.id by lia.
        replace (doff + (len - 1) + 1 - len) with doff by lia.
        replace (doff + (len - 1) + 1) with (doff + len) by lia. reflexivity.
  Qed.

  (** ** memset *)

  Lemma set_loop_ok accepts x offset n i a :
    0 <= offset -> 0 <= i -> zlen a <= INT32_MAX -> offset + i + Z.of_nat n <= zlen a ->
    accepts x = true ->
    exists a', set_loop accepts x offset n i a = (a', Ret tt) /\ zlen a' = zlen a /\
      forall p, znth a' p = if (offset + i <=? p) && (p <? offset + i + Z.of_nat n)
                            then Some x else znth a p.
  Proof.
    intros Ho. revert i a. induction n as [| n IH]; intros i a Hi La B Acc; cbn [set_loop].
    - exists a. split; [reflexivity |]. split; auto. intros p.
      destruct (Z.leb_spec (offset + i) p); destruct (Z.ltb_spec p (offset + i + Z.of_nat 0)); try lia; auto.
    - unfold elem_set. rewrite wrap32_id by (unfold in_i32; lia).
      destruct (Z.leb_spec 0 (offset + i)); [| lia].
      destruct (Z.ltb_spec (offset + i) (zlen a)); [| lia]. cbn [andb]. rewrite Acc.
      destruct (IH (i + 1) (zupd a (offset + i) x)) as (a' & E & L & N);
        rewrite ?zlen_upd in *; try lia; auto.
      exists a'. split; [exact E |]. split; [auto |]. intros p. rewrite N, znth_upd.
      destruct (Z.leb_spec (offset + (i + 1)) p); destruct (Z.ltb_spec p (offset + (i + 1) + Z.of_nat n));
        cbn [andb];
        destruct (Z.leb_spec (offset + i) p); destruct (Z.ltb_spec p (offset + i + Z.of_nat (S n)));
        cbn [andb]; try lia; auto;
        destruct (Z.eqb_spec p (offset + i)); cbn [andb]; try lia; auto.
      destruct (Z.leb_spec 0 (offset + i)); [| lia].
      destruct (Z.ltb_spec (offset + i) (zlen a)); [| lia]. reflexivity.
  Qed.

  Lemma memset_ok accepts x a offset len :
    0 <= offset -> 0 <= len -> offset + len <= zlen a -> zlen a <= INT32_MAX -> accepts x = true ->
    memset accepts a x offset len = (zblit a offset (zrep len x), Ret tt).
  Proof.
    intros. unfold memset. destruct (Z.geb_spec offset 0); [| lia]. cbn [negb].
    destruct (Z.ltb_spec len 0); [lia |]. w32.
    destruct (Z.leb_spec (offset + len) (zlen a)); [| lia]. cbn [negb].
    destruct (set_loop_ok accepts x offset (Z.to_nat len) 0 a) as (a' & E & L & N); try lia; auto.
    rewrite E. f_equal. apply znth_ext. intros p Hp. rewrite N.
    rewrite znth_blit by lia. rewrite zlen_rep, znth_rep.
    replace (offset + 0) with offset by lia. rewrite Z2Nat.id by lia.
    replace (Z.max 0 len) with len by lia.
    destruct (Z.leb_spec offset p); cbn [andb]; auto.
    destruct (Z.ltb_spec p (offset + len)); auto.
    destruct (Z.leb_spec 0 (p - offset)); [| lia].
    destruct (Z.ltb_spec (p - offset) len); [| lia]. reflexivity.
  Qed.

  Lemma set_loop_frame accepts x offset n i a a' o :
    0 <= offset -> 0 <= i -> offset + i <= INT32_MAX -> zlen a <= INT32_MAX ->
    set_loop accepts x offset n i a = (a', o) ->
    zlen a' = zlen a /\ (o = Ret tt \/ exists e, o = Die e) /\
    forall p, p < offset + i \/ offset + i + Z.of_nat n <= p -> znth a' p = znth a p.
  Proof.
    intros Ho. revert i a. induction n as [| n IH]; intros i a Hi Bd La E; cbn [set_loop] in E.
    - inversion E; subst. auto.
    - unfold elem_set in E. rewrite wrap32_id in E by (unfold in_i32; lia).
      destruct (Z.leb_spec 0 (offset + i)); [| lia]. cbn [andb] in E.
      destruct (Z.ltb_spec (offset + i) (zlen a)).
      + destruct (accepts x).
        * apply IH in E; rewrite ?zlen_upd in *; try lia.
          destruct E as (L & O & N). split; [auto |]. split; [auto |].
          intros q Hq. rewrite N by lia. rewrite znth_upd.
          destruct (Z.eqb_spec q (offset + i)); [lia |]. reflexivity.
        * inversion E; subst. eauto.
      + inversion E; subst. eauto.
  Qed.

  (** ** copy, merge, equals *)

  Lemma copy_ok zero a offset length len :
    range_length (zlen a) offset length = len ->
    0 <= offset -> 0 <= len -> offset + len <= zlen a -> zlen a <= INT32_MAX ->
    copy zero (Some a) offset length = Ret (zsub a offset len).
  Proof.
    unfold range_length. intros R Ho Hl B La. unfold copy. zlen_facts.
    destruct (Z.geb_spec offset 0); [| lia].
    assert (E : (if length <? 0 then wrap32 (zlen a - offset) else length) = len).
    { destruct (Z.ltb_spec length 0); [w32; lia | lia]. }
    cbv zeta. rewrite E. w32.
    destruct (Z.leb_spec (offset + len) (zlen a)); [| lia].
    unfold new_elems. destruct (Z.leb_spec 0 len); [| lia]. rewrite obind_ret.
    rewrite memcpy_ok; rewrite ?zlen_rep; try lia.
    f_equal. apply znth_ext. intros i Hi. rewrite znth_blit by (rewrite ?zlen_rep; lia).
    rewrite zlen_sub, !znth_sub, znth_rep.
    replace (i - 0) with i by lia.
    destruct (Z.leb_spec 0 i); [| lia]. cbn [andb].
    destruct (Z.ltb_spec i (0 + Z.min (Z.max 0 len) (Z.max 0 (zlen a - Z.max 0 offset))));
      destruct (Z.ltb_spec i len); try lia; auto.
  Qed.

  Lemma put_loop_ok (src : list A) at_ n i (out : list A) :
    0 <= at_ -> 0 <= i -> zlen out <= INT32_MAX -> at_ + i + Z.of_nat n <= zlen out ->
    i + Z.of_nat n <= zlen src ->
    put_loop src at_ n i out = Ret (zblit out (at_ + i) (zsub src i (Z.of_nat n))).
  Proof.
    intros Ha. revert i out. induction n as [| n IH]; intros i out Hi Lo B Bs; cbn [put_loop].
    - f_equal. eapply copied_fun; [apply (copied_nil out (at_ + i) src i) |].
      apply blit_copied; lia.
    - destruct (znth_lt src i) as [x Ex]; [lia |].
      unfold elem_get. rewrite Ex, obind_ret. unfold elem_set.
      rewrite wrap32_id by (unfold in_i32; lia).
      destruct (Z.leb_spec 0 (at_ + i)); [| lia].
      destruct (Z.ltb_spec (at_ + i) (zlen out)); [| lia]. cbn [andb]. rewrite obind_ret.
      rewrite IH; rewrite ?zlen_upd; try lia. f_equal.
      eapply (copied_fun out (at_ + i) src i (Z.of_nat (S n))); [| apply blit_copied; lia].
      assert (L1 : zlen (zsub src (i + 1) (Z.of_nat n)) = Z.of_nat n) by (rewrite zlen_sub; lia).
      split.
      + rewrite zlen_blit; rewrite ?zlen_upd; lia.
      + intros p. rewrite znth_blit by (rewrite ?zlen_upd; lia). rewrite L1, znth_sub, znth_upd.
        destruct (Z.leb_spec (at_ + (i + 1)) p); destruct (Z.ltb_spec p (at_ + (i + 1) + Z.of_nat n));
          cbn [andb];
          destruct (Z.leb_spec (at_ + i) p); destruct (Z.ltb_spec p (at_ + i + Z.of_nat (S n)));
          cbn [andb]; try lia; auto.
        * destruct (Z.leb_spec 0 (p - (at_ + (i + 1)))); [| lia].
          destruct (Z.ltb_spec (p - (at_ + (i + 1))) (Z.of_nat n)); [| lia]. cbn [andb]. f_equal; lia.
        * destruct (Z.eqb_spec p (at_ + i)); [lia | auto].
        * destruct (Z.eqb_spec p (at_ + i)); [| lia].
          destruct (Z.leb_spec 0 (at_ + i)); [| lia].
          destruct (Z.ltb_spec (at_ + i) (zlen out)); [| lia]. cbn [andb].
          rewrite <- Ex. f_equal; lia.
        * destruct (Z.eqb_spec p (at_ + i)); [lia | auto].
  Qed.

  Lemma merge_ok zero (a1 a2 : list A) :
    zlen a1 + zlen a2 <= INT32_MAX ->
    merge zero (Some a1) (Some a2) = Ret (a1 ++ a2).
  Proof.
    intros. zlen_facts. unfold merge. w32. unfold new_elems.
    destruct (Z.leb_spec 0 (zlen a1 + zlen a2)); [| lia]. rewrite obind_ret.
    rewrite put_loop_ok; rewrite ?zlen_rep; try lia. rewrite obind_ret.
    assert (L1 : forall l : list A, zsub l 0 (Z.of_nat (Z.to_nat (zlen l))) = l).
    { intros l. zlen_facts. rewrite Z2Nat.id by lia. unfold zsub.
      rewrite zdrop_0 by lia. apply ztake_all. lia. }
    rewrite L1. change (0 + 0) with 0.
    assert (Lb : zlen (zblit (zrep (zlen a1 + zlen a2) zero) 0 a1) = zlen a1 + zlen a2).
    { rewrite zlen_blit; rewrite ?zlen_rep; lia. }
    rewrite put_loop_ok; try lia. f_equal. rewrite L1.
    replace (zlen a1 + 0) with (zlen a1) by lia.
    apply znth_ext. intros i Hi. rewrite znth_app. rewrite znth_blit by lia.
    rewrite znth_blit by (rewrite ?zlen_rep; lia). rewrite znth_rep.
    replace (i - 0) with i by lia. replace (0 + zlen a1) with (zlen a1) by lia.
    destruct (Z.leb_spec 0 i); [| lia].
    destruct (Z.leb_spec (zlen a1) i); destruct (Z.ltb_spec i (zlen a1 + zlen a2)); cbn [andb];
      destruct (Z.ltb_spec i (zlen a1)); cbn [andb]; try lia; auto.
    rewrite znth_ge by lia. reflexivity.
  Qed.

  Lemma equals_loop_ok eqb (a1 a2 : list A) n i :
    0 <= i -> i + Z.of_nat n = zlen a1 -> i + Z.of_nat n = zlen a2 ->
    exists r, equals_loop eqb a1 a2 n i = Ret r /\ (r = 0 \/ r = 1) /\
      (r = 1 <-> forall j x y, i <= j -> znth a1 j = Some x -> znth a2 j = Some y -> eqb x y = true).
  Proof.
    revert i. induction n as [| n IH]; intros i Hi L1 L2; cbn [equals_loop].
    - exists 1. split; auto. split; auto. split; auto. intros _ j x y Hj Hx.
      apply znth_Some in Hx. lia.
    - destruct (znth_lt a1 i) as [x Ex]; [lia |]. destruct (znth_lt a2 i) as [y Ey]; [lia |].
      unfold elem_get. rewrite Ex, obind_ret, Ey, obind_ret.
      destruct (eqb x y) eqn:Exy; cbn [negb].
      + destruct (IH (i + 1)) as (r & E & R & Q); try lia. exists r. split; auto. split; auto.
        rewrite Q. split; intros H j x' y' Hj Hx Hy.
        * destruct (Z.eq_dec j i) as [-> |]; [congruence |]. apply (H j); auto. lia.
        * apply (H j); auto. lia.
      + exists 0. split; auto. split; auto. split; [discriminate |]. intros H.
        rewrite (H i x y) in Exy; auto; [discriminate | lia].
  Qed.

  (** ** shuffle *)

  Lemma swap_perm a i j x y :
    znth a i = Some x -> znth a j = Some y -> Permutation a (zupd (zupd a i y) j x).
  Proof.
    intros Hx Hy.
    pose proof (znth_Some _ _ _ Hx). pose proof (znth_Some _ _ _ Hy).
    apply Permutation_nth_error. split.
    { assert (zlen a = zlen (zupd (zupd a i y) j x)) by (rewrite !zlen_upd; auto).
      unfold zlen in *. lia. }
    set (f := fun k => if Nat.eq_dec k (Z.to_nat i) then Z.to_nat j
                       else if Nat.eq_dec k (Z.to_nat j) then Z.to_nat i else k).
    exists f. split.
    - intros k1 k2. unfold f.
      repeat match goal with |- context [Nat.eq_dec ?p ?q] => destruct (Nat.eq_dec p q) end; lia.
    - intros n.
      assert (Z1 : forall (l : list A) k, nth_error l k = znth l (Z.of_nat k)).
      { intros. unfold znth. destruct (Z.ltb_spec (Z.of_nat k) 0); [lia |]. rewrite Nat2Z.id. auto. }
      rewrite !Z1, !znth_upd, zlen_upd. unfold f.
      destruct (Z.leb_spec 0 i); [| lia]. destruct (Z.leb_spec 0 j); [| lia].
      destruct (Z.ltb_spec i (zlen a)); [| lia]. destruct (Z.ltb_spec j (zlen a)); [| lia].
      rewrite !andb_true_r.
      destruct (Nat.eq_dec n (Z.to_nat i)); [| destruct (Nat.eq_dec n (Z.to_nat j))];
        destruct (Z.eqb_spec (Z.of_nat n) j); destruct (Z.eqb_spec (Z.of_nat n) i); try lia.
      + assert (EJ : i = j) by lia. rewrite Z2Nat.id by lia. congruence.
      + rewrite Z2Nat.id by lia. auto.
      + rewrite Z2Nat.id by lia. auto.
      + auto.
  Qed.

  Lemma shuffle_loop_ok rnd n i seed a :
    (forall z : Z, 0 <= fst (rnd z)) -> Z.of_nat n = i -> i < zlen a ->
    exists a' seed', shuffle_loop rnd n i seed a = Ret (a', seed') /\ Permutation a a'.
  Proof.
    intros R. revert i seed a. induction n as [| n IH]; intros i seed a Hi B; cbn [shuffle_loop].
    - eauto.
    - specialize (R seed). destruct (rnd seed) as [r seed1]. cbn in R.
      assert (J : 0 <= Z.rem r (i + 1) < i + 1) by (apply Z.rem_bound_pos; lia).
      destruct (znth_lt a i) as [x Ex]; [lia |].
      destruct (znth_lt a (Z.rem r (i + 1))) as [y Ey]; [lia |].
      unfold elem_get. rewrite Ex, obind_ret, Ey, obind_ret. unfold elem_set at 1.
      destruct (Z.leb_spec 0 i); [| lia]. destruct (Z.ltb_spec i (zlen a)); [| lia]. cbn [andb].
      rewrite obind_ret. unfold elem_set. rewrite zlen_upd.
      destruct (Z.leb_spec 0 (Z.rem r (i + 1))); [| lia].
      destruct (Z.ltb_spec (Z.rem r (i + 1)) (zlen a)); [| lia]. cbn [andb]. rewrite obind_ret.
      destruct (IH (i - 1) seed1 (zupd (zupd a i y) (Z.rem r (i + 1)) x)) as (a' & s' & E & P);
        rewrite ?zlen_upd; try lia.
      exists a', s'. split; auto. eapply Permutation_trans; [| exact P].
      apply swap_perm; auto.
  Qed.

End Proofs.

Lemma lxor_lt_pow2 a b n : 0 <= n -> 0 <= a < 2 ^ n -> 0 <= b < 2 ^ n -> 0 <= Z.lxor a b < 2 ^ n.
Proof.
  intros Hn Ha Hb. assert (NN : 0 <= Z.lxor a b) by (apply Z.lxor_nonneg; lia). split; auto.
  destruct (Z.eq_dec (Z.lxor a b) 0) as [-> |]; [lia |].
  apply Z.log2_lt_pow2; [lia |].
  pose proof (Z.log2_lxor a b ltac:(lia) ltac:(lia)).
  assert (forall c, 0 <= c < 2 ^ n -> c = 0 \/ Z.log2 c < n).
  { intros c Hc. destruct (Z.eq_dec c 0); auto. right. apply Z.log2_lt_pow2; lia. }
  destruct (H0 a Ha) as [-> | A1]; destruct (H0 b Hb) as [-> | B1]; rewrite ?Z.lxor_0_l, ?Z.lxor_0_r in *;
    try lia.
Qed.

Lemma crand_range seed : 0 <= fst (crand seed) <= INT32_MAX.
Proof.
  unfold crand. cbn [fst].
  set (x := rand_next (u32 seed) / 65536). set (y := rand_next (rand_next (u32 seed)) / 65536).
  set (z := rand_next (rand_next (rand_next (u32 seed))) / 65536).
  pose proof (Z.mod_pos_bound x 2048 ltac:(lia)).
  pose proof (Z.mod_pos_bound y 1024 ltac:(lia)).
  pose proof (Z.mod_pos_bound z 1024 ltac:(lia)).
  assert (B1 : 0 <= Z.lxor (x mod 2048 * 1024) (y mod 1024) < 2 ^ 21).
  { apply lxor_lt_pow2; change (2 ^ 21) with 2097152; lia. }
  change (2 ^ 21) with 2097152 in B1.
  assert (B2 : 0 <= Z.lxor (Z.lxor (x mod 2048 * 1024) (y mod 1024) * 1024) (z mod 1024) < 2 ^ 31).
  { apply lxor_lt_pow2; change (2 ^ 31) with 2147483648; lia. }
  change (2 ^ 31) with 2147483648 in B2. lia.
Qed.
