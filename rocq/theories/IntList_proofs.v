(** * Proofs about the numeric lists *)
From Verif Require Import Base Array_model Array_proofs IntList_model IntList_spec.

Section Proofs.
  Context {A X : Type}.
  Variable zero : A.
  Variable conv : X -> A.
  Implicit Types (l rest : list A).

  (** The object holds [l] in the front part of its array. *)
  Definition rep (s : ilist A) l : Prop :=
    exists rest, s = mk_ilist (zlen l + zlen rest) (zlen l) (l ++ rest) /\
      zlen l + zlen rest <= INT32_MAX.

  Lemma zsub_pre l rest : zsub (l ++ rest) 0 (zlen l) = l.
  Proof.
    unfold zsub. rewrite zdrop_0 by lia. rewrite ztake_app_l by lia. apply ztake_all. lia.
  Qed.

  Lemma blit_front l n :
    zlen l <= n -> zblit (zrep n zero) 0 l = l ++ zrep (n - zlen l) zero.
  Proof.
    intros. zlen_facts. apply znth_ext. intros i Hi.
    rewrite znth_blit by (rewrite ?zlen_rep; lia). rewrite znth_app, !znth_rep.
    replace (i - 0) with i by lia.
    destruct (Z.leb_spec 0 i); [| lia]. cbn [andb].
    destruct (Z.ltb_spec i (0 + zlen l)); destruct (Z.ltb_spec i (zlen l)); try lia; auto.
    destruct (Z.leb_spec 0 (i - zlen l)); [| lia]. cbn [andb].
    destruct (Z.ltb_spec i n); destruct (Z.ltb_spec (i - zlen l) (n - zlen l)); try lia; auto.
  Qed.

  Lemma regrow_ok l rest n :
    zlen l + zlen rest <= INT32_MAX -> zlen l <= n <= INT32_MAX ->
    regrow zero n (mk_ilist (zlen l + zlen rest) (zlen l) (l ++ rest)) =
    (mk_ilist n (zlen l) (l ++ zrep (n - zlen l) zero), Ret tt).
  Proof.
    intros. zlen_facts. unfold regrow, new_elems. cbn [il_array il_length].
    destruct (Z.leb_spec 0 n); [| lia]. rewrite obind_ret.
    rewrite memcpy_ok; rewrite ?zlen_rep, ?zlen_app; try lia.
    rewrite zsub_pre, blit_front; auto; lia.
  Qed.

  Lemma rep_intro l rest c n a :
    a = l ++ rest -> c = zlen a -> n = zlen l -> zlen a <= INT32_MAX ->
    rep (mk_ilist c n a) l.
  Proof. intros -> -> -> B. exists rest. rewrite zlen_app in *. auto. Qed.

  Lemma maybe_extend_ok l rest m :
    zlen l + zlen rest <= INT32_MAX -> m <= INT32_MAX ->
    (exists rest', maybe_extend zero m (mk_ilist (zlen l + zlen rest) (zlen l) (l ++ rest)) =
        (mk_ilist (zlen l + zlen rest') (zlen l) (l ++ rest'), Ret tt) /\
        m <= zlen l + zlen rest' <= INT32_MAX) \/
    (max_length < m /\
     exists e, maybe_extend zero m (mk_ilist (zlen l + zlen rest) (zlen l) (l ++ rest)) =
        (mk_ilist (zlen l + zlen rest) (zlen l) (l ++ rest), Die e)).
  Proof.
    intros B Hm. zlen_facts. unfold maybe_extend. cbn [il_capacity].
    destruct (Z.gtb_spec m (zlen l + zlen rest)); cbn [negb].
    - destruct (Z.ltb_spec (zlen l + zlen rest) m); [| lia].
      destruct (Z_le_gt_dec m max_length) as [L | G]; unfold max_length in *.
      + left. rewrite wrap32_id by (unfold in_i32; lia).
        exists (zrep (m * 2 - zlen l) zero). rewrite regrow_ok by lia.
        split; [do 2 f_equal |]; rewrite zlen_rep; lia.
      + right. split; [lia |]. unfold regrow, new_elems.
        replace (m * 2) with (m + m) by lia.
        destruct (Z.leb_spec 0 (wrap32 (m + m))).
        * exfalso.
          destruct (wrap32_add_nonneg m m ltac:(lia) ltac:(lia)) as [W | W]; lia.
        * cbn [obind]. eauto.
    - left. exists rest. split; [reflexivity | lia].
  Qed.

  Lemma elem_get_app1 l rest i x : znth l i = Some x -> elem_get (l ++ rest) i = Ret x.
  Proof.
    intros H. unfold elem_get. rewrite znth_app.
    pose proof (znth_Some _ _ _ H). destruct (Z.ltb_spec i (zlen l)); [| lia]. rewrite H. auto.
  Qed.

  Lemma elem_set_ok (a : list A) i x : 0 <= i < zlen a -> elem_set a i x = Ret (zupd a i x).
  Proof.
    intros. unfold elem_set. destruct (Z.leb_spec 0 i); [| lia].
    destruct (Z.ltb_spec i (zlen a)); [| lia]. reflexivity.
  Qed.

  (** The specification of one step. *)
  Definition good (s : ilist A) (op : iop A X) l : Prop :=
    exists l', allowed zero conv l op l' (snd (il_step zero conv s op)) /\
               rep (fst (il_step zero conv s op)) l'.

  Ltac keep l rest := exists l; split; [| apply (rep_intro l rest); rewrite ?zlen_app, ?zlen_rep; auto; lia].

  Lemma get_ok l rest i : zlen l + zlen rest <= INT32_MAX ->
    good (mk_ilist (zlen l + zlen rest) (zlen l) (l ++ rest)) (IGet i) l.
  Proof.
    intros B. unfold good. cbn [il_step]. unfold il_get, wrap_res, bind, get_length, array_get, die.
    cbn [il_length il_array].
    destruct (Z.geb_spec i 0).
    - destruct (Z.ltb_spec i (zlen l)).
      + destruct (znth_lt l i) as [x Ex]; [lia |]. cbn. rewrite (elem_get_app1 _ _ _ _ Ex).
        cbn [fst snd obind]. keep l rest. unfold allowed, seq_op. rewrite Ex. auto.
      + cbn [fst snd obind]. keep l rest. unfold allowed, seq_op. rewrite znth_ge by lia. eauto.
    - cbn [fst snd obind]. keep l rest. unfold allowed, seq_op. rewrite znth_neg by lia. eauto.
  Qed.

  Lemma insert_ok l rest i x : zlen l + zlen rest <= INT32_MAX -> zlen l < INT32_MAX ->
    good (mk_ilist (zlen l + zlen rest) (zlen l) (l ++ rest)) (IInsert i x) l.
  Proof.
    intros B Bl. zlen_facts. unfold good. cbn [il_step]. unfold il_insert, wrap_res, bind, get_length.
    cbn [il_length].
    destruct (Z.geb_spec i 0).
    2: { cbn [fst snd obind die]. keep l rest. unfold allowed, seq_op.
         destruct (Z.leb_spec 0 i); [lia |]. cbn [andb]. cbn. eauto. }
    destruct (Z.leb_spec i (zlen l)).
    2: { cbn [fst snd obind die]. keep l rest. unfold allowed, seq_op.
         destruct (Z.leb_spec 0 i); [| lia]. destruct (Z.leb_spec i (zlen l)); [lia |]. cbn. eauto. }
    w32.
    assert (SQ : seq_op zero conv l (IInsert i x) = Some (ztake i l ++ conv x :: zdrop i l, RUnit)).
    { unfold seq_op. destruct (Z.leb_spec 0 i); [| lia]. destruct (Z.leb_spec i (zlen l)); [| lia]. auto. }
    assert (LL : zlen (ztake i l ++ conv x :: zdrop i l) = zlen l + 1).
    { rewrite zlen_app, zlen_cons, zlen_take, zlen_drop. lia. }
    destruct (maybe_extend_ok l rest (zlen l + 1)) as [(rest' & E & B') | (G & e & E)]; try lia; rewrite E.
    2: { cbn [fst snd obind]. keep l rest. unfold allowed. rewrite SQ. right. rewrite LL. eauto. }
    zlen_facts.
    set (a1 := if i =? zlen l then l ++ rest' else zblit (l ++ rest') (i + 1) (zsub (l ++ rest') i (zlen l - i))).
    assert (M1 : (if negb (i =? zlen l) then array_move (i + 1) i (zlen l - i) else ret tt)
                   (mk_ilist (zlen l + zlen rest') (zlen l) (l ++ rest')) =
                 (mk_ilist (zlen l + zlen rest') (zlen l) a1, Ret tt)).
    { unfold a1. destruct (Z.eqb_spec i (zlen l)); cbn [negb]; [reflexivity |].
      unfold array_move, on_array. cbn [il_array]. rewrite memmove_ok; rewrite ?zlen_app; try lia. reflexivity. }
    rewrite M1.
    assert (La : zlen a1 = zlen l + zlen rest').
    { unfold a1. destruct (Z.eqb_spec i (zlen l)); [rewrite zlen_app; auto |].
      rewrite zlen_blit; rewrite ?zlen_sub, ?zlen_app; lia. }
    unfold array_set, on_array. cbn [il_array]. rewrite elem_set_ok by lia.
    unfold set_length. cbn [il_capacity il_length il_array fst snd obind].
    exists (ztake i l ++ conv x :: zdrop i l). split.
    { unfold allowed. rewrite SQ. left. auto. }
    apply (rep_intro _ (zdrop 1 rest')); rewrite ?zlen_upd, ?LL; auto; try lia.
    apply znth_ext. intros j Hj. rewrite znth_upd, La. unfold a1.
    destruct (Z.leb_spec 0 i); [| lia]. destruct (Z.ltb_spec i (zlen l + zlen rest')); [| lia].
    rewrite !andb_true_r. rewrite <- app_assoc, <- app_comm_cons.
    rewrite znth_app, zlen_take, znth_cons, znth_take, znth_app, zlen_drop, !znth_drop.
    destruct (Z.eqb_spec j i) as [-> | Hne].
    { destruct (Z.ltb_spec i (Z.min (Z.max 0 i) (zlen l))); [lia |].
      destruct (Z.eqb_spec (i - Z.min (Z.max 0 i) (zlen l)) 0); [auto | lia]. }
    destruct (Z.eqb_spec i (zlen l)) as [-> | Hni].
    - rewrite znth_app. zcase; auto; try zfin. all: try (rewrite !znth_ge by lia; auto).
    - rewrite znth_blit by (rewrite ?zlen_app; lia).
      rewrite zlen_sub, znth_sub, zlen_app, !znth_app. zcase; auto; try zfin.
  Qed.

  Lemma pop_ok l rest : zlen l + zlen rest <= INT32_MAX ->
    good (mk_ilist (zlen l + zlen rest) (zlen l) (l ++ rest)) IPop l.
  Proof.
    intros B. zlen_facts. unfold good. cbn [il_step]. unfold il_pop, wrap_res, bind, get_length.
    cbn [il_length].
    destruct (Z.gtb_spec (zlen l) 0).
    2: { cbn [fst snd obind die]. keep l rest. unfold allowed, seq_op.
         rewrite znth_neg by lia. cbn. eauto. }
    w32. destruct (znth_lt l (zlen l - 1)) as [x Ex]; [lia |].
    unfold array_get. cbn [il_array]. rewrite (elem_get_app1 _ _ _ _ Ex).
    unfold array_set, on_array. cbn [il_array].
    rewrite elem_set_ok by (rewrite zlen_app; lia).
    unfold set_length. cbn [il_capacity il_length il_array fst snd obind ret].
    exists (ztake (zlen l - 1) l). split.
    { unfold allowed, seq_op. rewrite Ex. left. auto. }
    apply (rep_intro _ (zero :: rest)); rewrite ?zlen_upd, ?zlen_take, ?zlen_app; try lia.
    apply znth_ext. intros j Hj.
    rewrite znth_upd, !znth_app, zlen_app, znth_cons, znth_take, zlen_take. zcase; auto; try zfin.
  Qed.

  Lemma push_ok l rest x : zlen l + zlen rest <= INT32_MAX -> zlen l < INT32_MAX ->
    good (mk_ilist (zlen l + zlen rest) (zlen l) (l ++ rest)) (IPush x) l.
  Proof.
    intros B Bl. zlen_facts. unfold good. cbn [il_step]. unfold il_push, wrap_res, bind, get_length.
    cbn [il_length]. w32.
    destruct (maybe_extend_ok l rest (zlen l + 1)) as [(rest' & E & B') | (G & e & E)]; try lia; rewrite E.
    2: { cbn [fst snd obind]. keep l rest. unfold allowed, seq_op. right.
         rewrite zlen_app, zlen_cons. zlen_nils. split; [lia | eauto]. }
    zlen_facts. unfold array_set, on_array. cbn [il_array].
    rewrite elem_set_ok by (rewrite zlen_app; lia).
    unfold set_length. cbn [il_capacity il_length il_array fst snd obind ret].
    exists (l ++ [conv x]). split.
    { unfold allowed, seq_op. left. auto. }
    apply (rep_intro _ (zdrop 1 rest')); rewrite ?zlen_upd, ?zlen_app, ?zlen_cons; zlen_nils; try lia.
    apply znth_ext. intros j Hj.
    rewrite znth_upd, !znth_app, !zlen_app, zlen_cons, znth_drop, znth_cons, znth_nil. zlen_nils.
    zcase; auto; try zfin.
  Qed.

  Lemma remove_ok l rest i : zlen l + zlen rest <= INT32_MAX ->
    good (mk_ilist (zlen l + zlen rest) (zlen l) (l ++ rest)) (IRemove i) l.
  Proof.
    intros B. zlen_facts. unfold good. cbn [il_step]. unfold il_remove, wrap_res, bind, get_length.
    cbn [il_length].
    destruct (Z.geb_spec i 0).
    2: { cbn [fst snd obind die]. keep l rest. unfold allowed, seq_op. rewrite znth_neg by lia.
         cbn. eauto. }
    destruct (Z.ltb_spec i (zlen l)).
    2: { cbn [fst snd obind die]. keep l rest. unfold allowed, seq_op. rewrite znth_ge by lia.
         cbn. eauto. }
    destruct (znth_lt l i) as [x Ex]; [lia |].
    unfold array_get. cbn [il_array]. rewrite (elem_get_app1 _ _ _ _ Ex). w32.
    unfold array_move, on_array. cbn [il_array].
    rewrite memmove_ok; rewrite ?zlen_app; try lia.
    unfold set_length. cbn [il_capacity il_length il_array fst snd obind ret].
    exists (ztake i l ++ zdrop (i + 1) l). split.
    { unfold allowed, seq_op. rewrite Ex. left. auto. }
    assert (LB : zlen (zblit (l ++ rest) i (zsub (l ++ rest) (i + 1) (zlen l - i - 1))) = zlen l + zlen rest).
    { rewrite zlen_blit; rewrite ?zlen_sub, ?zlen_app; lia. }
    apply (rep_intro _ (zdrop (zlen l - 1) (l ++ rest)));
      rewrite ?LB, ?zlen_app, ?zlen_take, ?zlen_drop; try lia.
    apply znth_ext. intros j Hj.
    rewrite znth_blit by (rewrite ?zlen_app; lia).
    rewrite zlen_sub, znth_sub, !znth_app, !zlen_app, znth_take, !znth_drop, zlen_take, zlen_drop, !znth_app.
    zcase; auto; try zfin.
  Qed.

  Lemma reserve_ok l rest n : zlen l + zlen rest <= INT32_MAX -> in_i32 n ->
    good (mk_ilist (zlen l + zlen rest) (zlen l) (l ++ rest)) (IReserve n) l.
  Proof.
    unfold in_i32. intros B Hn. zlen_facts. unfold good. cbn [il_step]. unfold il_reserve, wrap_res.
    destruct (Z.geb_spec n 0).
    2: { cbn [fst snd obind die]. keep l rest. unfold allowed, seq_op.
         destruct (Z.leb_spec 0 n); [lia |]. cbn. eauto. }
    cbn [il_capacity].
    assert (SQ : seq_op zero conv l (IReserve n) = Some (l, RUnit)).
    { unfold seq_op. destruct (Z.leb_spec 0 n); [auto | lia]. }
    destruct (Z.gtb_spec n (zlen l + zlen rest)).
    - rewrite regrow_ok by lia. cbn [fst snd obind].
      keep l (zrep (n - zlen l) zero).
      unfold allowed. rewrite SQ. auto.
    - cbn [fst snd obind]. keep l rest. unfold allowed. rewrite SQ. auto.
  Qed.

  Lemma set_ok l rest i x : zlen l + zlen rest <= INT32_MAX ->
    good (mk_ilist (zlen l + zlen rest) (zlen l) (l ++ rest)) (ISet i x) l.
  Proof.
    intros B. zlen_facts. unfold good. cbn [il_step]. unfold il_set, wrap_res, bind, get_length.
    cbn [il_length]. unfold allowed, seq_op.
    destruct (Z.geb_spec i 0).
    2: { cbn [fst snd obind die]. keep l rest.
         destruct (Z.leb_spec 0 i); [lia |]. cbn. eauto. }
    destruct (Z.ltb_spec i (zlen l)).
    2: { cbn [fst snd obind die]. keep l rest.
         destruct (Z.leb_spec 0 i); [| lia]. cbn. eauto. }
    unfold array_set, on_array. cbn [il_array].
    rewrite elem_set_ok by (rewrite zlen_app; lia).
    cbn [il_capacity il_length il_array fst snd obind ret].
    exists (zupd l i (conv x)). split.
    { destruct (Z.leb_spec 0 i); [| lia]. left. auto. }
    apply (rep_intro _ rest); rewrite ?zlen_upd, ?zlen_app; try lia.
    apply znth_ext. intros j Hj.
    rewrite znth_upd, !znth_app, !zlen_app, zlen_upd, znth_upd. zcase; auto; try zfin.
  Qed.

  Lemma shift_ok l rest : zlen l + zlen rest <= INT32_MAX ->
    good (mk_ilist (zlen l + zlen rest) (zlen l) (l ++ rest)) IShift l.
  Proof.
    intros B. zlen_facts. unfold good. cbn [il_step]. unfold il_shift, wrap_res, bind, get_length.
    cbn [il_length].
    destruct l as [| x l].
    { change (zlen (@nil A) >? 0) with false. cbn [fst snd obind die].
      keep (@nil A) rest. unfold allowed, seq_op. cbn. eauto. }
    rewrite zlen_cons in *. zlen_facts.
    destruct (Z.gtb_spec (1 + zlen l) 0); [| lia].
    unfold array_get. cbn [il_array]. rewrite (elem_get_app1 (x :: l) rest 0 x eq_refl). w32.
    unfold array_move, on_array. cbn [il_array].
    assert (L : zlen ((x :: l) ++ rest) = 1 + zlen l + zlen rest) by (rewrite zlen_app, zlen_cons; auto).
    rewrite memmove_ok; rewrite ?L; try lia.
    assert (LB : zlen (zblit ((x :: l) ++ rest) 0 (zsub ((x :: l) ++ rest) 1 (1 + zlen l - 1))) = 1 + zlen l + zlen rest).
    { rewrite zlen_blit; rewrite ?zlen_sub, ?L; lia. }
    unfold array_set, on_array. cbn [il_array il_capacity il_length].
    rewrite elem_set_ok by lia.
    unfold set_length. cbn [il_capacity il_length il_array fst snd obind ret].
    exists l. split.
    { unfold allowed, seq_op. left. auto. }
    apply (rep_intro _ (zero :: rest)); rewrite ?zlen_upd, ?LB; try lia.
    apply znth_ext. intros j Hj.
    rewrite znth_upd, znth_blit by (rewrite ?L; lia).
    rewrite LB, zlen_sub, L, znth_sub. change ((x :: l) ++ rest) with (x :: l ++ rest).
    rewrite !znth_cons, !znth_app, znth_cons.
    zcase; auto; try zfin.
  Qed.

  Lemma to_array_ok l rest : zlen l + zlen rest <= INT32_MAX ->
    good (mk_ilist (zlen l + zlen rest) (zlen l) (l ++ rest)) IToArray l.
  Proof.
    intros B. zlen_facts. unfold good. cbn [il_step]. unfold il_to_array, wrap_res, new_elems.
    cbn [il_length il_array].
    destruct (Z.leb_spec 0 (zlen l)); [| lia]. rewrite obind_ret.
    rewrite memcpy_ok; rewrite ?zlen_rep, ?zlen_app; try lia.
    rewrite zsub_pre, blit_front by lia. cbn [fst snd obind].
    keep l rest. unfold allowed, seq_op. left. split; auto. do 2 f_equal.
    replace (zlen l - zlen l) with 0 by lia. apply app_nil_r.
  Qed.

  Lemma unshift_ok l rest x : zlen l + zlen rest <= INT32_MAX -> zlen l < INT32_MAX ->
    good (mk_ilist (zlen l + zlen rest) (zlen l) (l ++ rest)) (IUnshift x) l.
  Proof.
    intros B Bl. zlen_facts. unfold good. cbn [il_step]. unfold il_unshift, wrap_res, bind, get_length.
    cbn [il_length]. w32.
    destruct (maybe_extend_ok l rest (zlen l + 1)) as [(rest' & E & B') | (G & e & E)]; try lia; rewrite E.
    2: { cbn [fst snd obind]. keep l rest. unfold allowed, seq_op. right.
         rewrite zlen_cons. split; [lia | eauto]. }
    zlen_facts. unfold array_move, array_set, on_array. cbn [il_array].
    rewrite memmove_ok; rewrite ?zlen_app; try lia. cbn [il_array il_capacity il_length].
    assert (LB : zlen (zblit (l ++ rest') 1 (zsub (l ++ rest') 0 (zlen l))) = zlen l + zlen rest').
    { rewrite zlen_blit; rewrite ?zlen_sub, ?zlen_app; lia. }
    rewrite elem_set_ok by lia.
    unfold set_length. cbn [il_capacity il_length il_array fst snd obind ret].
    exists (conv x :: l). split.
    { unfold allowed, seq_op. left. auto. }
    apply (rep_intro _ (zdrop 1 rest')); rewrite ?zlen_upd, ?LB, ?zlen_cons; try lia.
    apply znth_ext. intros j Hj.
    rewrite znth_upd, LB, znth_blit by (rewrite ?zlen_app; lia).
    rewrite zlen_sub, zlen_app, znth_sub. change ((conv x :: l) ++ zdrop 1 rest') with (conv x :: l ++ zdrop 1 rest').
    rewrite znth_cons, !znth_app, znth_drop.
    zcase; auto; try zfin.
  Qed.

  Lemma resize_ok l rest n : zlen l + zlen rest <= INT32_MAX -> in_i32 n ->
    good (mk_ilist (zlen l + zlen rest) (zlen l) (l ++ rest)) (IResize n) l.
  Proof.
    unfold in_i32. intros B Hn. zlen_facts. unfold good. cbn [il_step]. unfold il_resize, wrap_res, bind, get_length.
    destruct (Z.geb_spec n 0).
    2: { cbn [fst snd obind die]. keep l rest. unfold allowed, seq_op.
         destruct (Z.leb_spec 0 n); [lia |]. cbn. eauto. }
    cbn [il_length].
    assert (SQ : seq_op zero conv l (IResize n) = Some (ztake n l ++ zrep (n - zlen l) zero, RUnit)).
    { unfold seq_op. destruct (Z.leb_spec 0 n); [auto | lia]. }
    assert (LL : zlen (ztake n l ++ zrep (n - zlen l) zero) = n).
    { rewrite zlen_app, zlen_take, zlen_rep. lia. }
    destruct (Z.gtb_spec n (zlen l)).
    - destruct (maybe_extend_ok l rest n) as [(rest' & E & B') | (G & e & E)]; try lia; rewrite E.
      2: { cbn [fst snd obind]. keep l rest. unfold allowed. rewrite SQ. right. rewrite LL.
           split; [lia | eauto]. }
      zlen_facts. unfold array_clear. cbn [il_array il_capacity il_length]. w32.
      rewrite memset_ok; rewrite ?zlen_app; try lia; auto.
      unfold set_length. cbn [il_capacity il_length il_array fst snd obind ret].
      assert (LB : zlen (zblit (l ++ rest') (zlen l) (zrep (n - zlen l) zero)) = zlen l + zlen rest').
      { rewrite zlen_blit; rewrite ?zlen_rep, ?zlen_app; lia. }
      exists (ztake n l ++ zrep (n - zlen l) zero). split.
      { unfold allowed. rewrite SQ. left. auto. }
      apply (rep_intro _ (zdrop (n - zlen l) rest')); rewrite ?LB, ?LL; try lia.
      apply znth_ext. intros j Hj.
      rewrite znth_blit by (rewrite ?zlen_app; lia).
      rewrite zlen_rep, znth_rep, !znth_app, znth_take, znth_rep, znth_drop, LL, zlen_take.
      zcase; auto; try zfin.
    - destruct (Z.ltb_spec n (zlen l)).
      + unfold array_clear. cbn [il_array il_capacity il_length]. w32.
        rewrite memset_ok; rewrite ?zlen_app; try lia; auto.
        unfold set_length. cbn [il_capacity il_length il_array fst snd obind ret].
        assert (LB : zlen (zblit (l ++ rest) n (zrep (zlen l - n) zero)) = zlen l + zlen rest).
        { rewrite zlen_blit; rewrite ?zlen_rep, ?zlen_app; lia. }
        exists (ztake n l ++ zrep (n - zlen l) zero). split.
        { unfold allowed. rewrite SQ. left. auto. }
        apply (rep_intro _ (zrep (zlen l - n) zero ++ rest)); rewrite ?LB, ?LL; try lia.
        apply znth_ext. intros j Hj.
        rewrite znth_blit by (rewrite ?zlen_app; lia).
        rewrite zlen_rep, !znth_app, !znth_rep, znth_take, LL, zlen_take, zlen_rep.
        zcase; auto; try zfin.
      + unfold set_length, ret. cbn [il_capacity il_length il_array fst snd obind].
        exists l. split.
        { unfold allowed. rewrite SQ. left. split; auto.
          rewrite ztake_all by lia. replace (n - zlen l) with 0 by lia. symmetry. apply app_nil_r. }
        apply (rep_intro _ rest); rewrite ?zlen_app; auto; lia.
  Qed.

  Lemma replace_ok l rest off rem r :
    zlen l + zlen rest <= INT32_MAX -> in_i32 off -> in_i32 rem ->
    match r with Some r => zlen r <= INT32_MAX | None => True end ->
    fits zero conv l (IReplace off rem r) ->
    good (mk_ilist (zlen l + zlen rest) (zlen l) (l ++ rest)) (IReplace off rem r) l.
  Proof.
    unfold in_i32. intros B Ho Hr Lr F. zlen_facts.
    assert (exists rr, zlen rr <= INT32_MAX /\ rr = match r with Some r => r | None => [] end) as (rr & Lrr & Err).
    { destruct r; eexists; split; eauto. zlen_nils. lia. }
    assert (RL : match r with Some r => zlen r | None => 0 end = zlen rr) by (subst rr; destruct r; auto).
    unfold good. cbn [il_step]. unfold il_replace, wrap_res, bind, get_length.
    destruct (Z.geb_spec off 0).
    2: { cbn [fst snd obind die]. keep l rest. unfold allowed, seq_op.
         destruct (Z.leb_spec 0 off); [lia |]. cbn. eauto. }
    destruct (Z.geb_spec rem 0).
    2: { cbn [fst snd obind die]. keep l rest. unfold allowed, seq_op.
         destruct (Z.leb_spec 0 rem); [lia |]. rewrite andb_false_r. cbn. eauto. }
    cbn [il_length]. rewrite RL.
    destruct (Z_le_gt_dec (off + rem) (zlen l)) as [IN | OUT].
    - (* a good range *)
      rewrite (wrap32_id (off + rem)) by (unfold in_i32; lia).
      destruct (Z.leb_spec (off + rem) (zlen l)); [| lia].
      assert (SQ : seq_op zero conv l (IReplace off rem r) = Some (ztake off l ++ rr ++ zdrop (off + rem) l, RUnit)).
      { unfold seq_op. destruct (Z.leb_spec 0 off); [| lia]. destruct (Z.leb_spec 0 rem); [| lia].
        destruct (Z.leb_spec (off + rem) (zlen l)); [| lia]. cbn [andb]. rewrite Err. auto. }
      assert (LL : zlen (ztake off l ++ rr ++ zdrop (off + rem) l) = zlen l - rem + zlen rr).
      { rewrite !zlen_app, zlen_take, zlen_drop. lia. }
      pose proof (F _ _ SQ) as FL. rewrite LL in FL. zlen_facts. w32.
      destruct (maybe_extend_ok l rest (zlen l - rem + zlen rr)) as [(rest' & E & B') | (G & e & E)]; try lia; rewrite E.
      2: { cbn [fst snd obind]. keep l rest. unfold allowed. rewrite SQ. right. rewrite LL.
           split; [lia | eauto]. }
      zlen_facts.
      set (a1 := zblit (l ++ rest') (off + zlen rr) (zsub (l ++ rest') (off + rem) (zlen l - off - rem))).
      assert (M1 : array_move (off + zlen rr) (off + rem) (zlen l - off - rem)
                     (mk_ilist (zlen l + zlen rest') (zlen l) (l ++ rest')) =
                   (mk_ilist (zlen l + zlen rest') (zlen l) a1, Ret tt)).
      { unfold array_move, on_array. cbn [il_array].
        rewrite memmove_ok; rewrite ?zlen_app; try lia. reflexivity. }
      rewrite M1.
      assert (L1 : zlen a1 = zlen l + zlen rest').
      { unfold a1. rewrite zlen_blit; rewrite ?zlen_sub, ?zlen_app; lia. }
      set (a2 := zblit a1 off rr).
      assert (L2 : zlen a2 = zlen l + zlen rest').
      { unfold a2. rewrite zlen_blit; lia. }
      assert (M2 : match r with
             | Some r => on_array (fun a => memcpy false (Some a) off (Some r) 0 (zlen rr))
             | None => ret tt
             end (mk_ilist (zlen l + zlen rest') (zlen l) a1) =
             (mk_ilist (zlen l + zlen rest') (zlen l) a2, Ret tt)).
      { destruct r as [r |]; subst rr.
        - unfold on_array. cbn [il_array]. rewrite memcpy_ok; try lia. cbn [il_capacity il_length].
          replace (zsub r 0 (zlen r)) with r; [reflexivity |].
          rewrite <- (app_nil_r r) at 2. symmetry. apply zsub_pre.
        - unfold ret. do 2 f_equal. unfold a2, zblit. zlen_nils. cbn [app].
          replace (off + 0) with off by lia. symmetry. apply ztake_zdrop. }
      rewrite M2. unfold set_length. cbn [il_capacity il_length il_array fst snd obind ret].
      exists (ztake off l ++ rr ++ zdrop (off + rem) l). split.
      { unfold allowed. rewrite SQ. left. auto. }
      apply (rep_intro _ (zdrop (zlen l - rem + zlen rr) a1)); rewrite ?L2, ?LL; try lia.
      apply znth_ext. intros j Hj.
      rewrite (znth_app _ (zdrop _ a1)), LL, znth_drop.
      unfold a2. rewrite znth_blit by lia.
      rewrite !znth_app, znth_take, zlen_take, znth_drop.
      assert (N1 : forall k, off + zlen rr <= k < zlen l - rem + zlen rr -> znth a1 k = znth l (k - zlen rr + rem)).
      { intros k Hk. unfold a1. rewrite znth_blit by (rewrite ?zlen_app; lia).
        rewrite zlen_sub, zlen_app, znth_sub, !znth_app. zcase; auto; try zfin. }
      assert (N2 : forall k, k < off -> znth a1 k = znth l k).
      { intros k Hk. unfold a1. rewrite znth_blit by (rewrite ?zlen_app; lia).
        rewrite znth_app. zcase; auto. }
      destruct (Z.ltb_spec j (zlen l - rem + zlen rr)).
      + destruct (Z.leb_spec off j); cbn [andb].
        * destruct (Z.ltb_spec j (off + zlen rr)).
          -- zcase; auto; try zfin.
          -- rewrite N1 by lia. zcase; auto; try zfin.
        * rewrite N2 by lia. zcase; auto; try zfin.
      + destruct (Z.leb_spec off j); [| lia]. destruct (Z.ltb_spec j (off + zlen rr)); [lia |].
        cbn [andb]. destruct (Z.ltb_spec (j - (zlen l - rem + zlen rr)) 0); [lia |]. f_equal. lia.
    - (* a bad range *)
      assert (SQ : seq_op zero conv l (IReplace off rem r) = None).
      { unfold seq_op. destruct (Z.leb_spec (off + rem) (zlen l)); [lia |]. rewrite andb_false_r. auto. }
      destruct (wrap32_add_nonneg off rem ltac:(lia) ltac:(lia)) as [[W1 W2] | (W1 & W2 & W3)].
      { rewrite W2. destruct (Z.leb_spec (off + rem) (zlen l)); [lia |].
        cbn [fst snd obind die]. keep l rest. unfold allowed. rewrite SQ. cbn. eauto. }
      destruct (Z.leb_spec (wrap32 (off + rem)) (zlen l)); [| lia].
      pose proof (wrap32_range (wrap32 (zlen l - rem) + zlen rr)) as R1. unfold in_i32 in R1.
      destruct (maybe_extend_ok l rest (wrap32 (wrap32 (zlen l - rem) + zlen rr))) as [(rest' & E & B') | (G & e & E)]; try lia; rewrite E.
      2: { cbn [fst snd obind]. keep l rest. unfold allowed. rewrite SQ. cbn. eauto. }
      unfold array_move, on_array. cbn [il_array].
      assert (exists e, memmove (Some (l ++ rest')) (wrap32 (off + zlen rr)) (Some (l ++ rest'))
                (wrap32 (off + rem)) (wrap32 (wrap32 (zlen l - off) - rem)) = Die e) as [e E2].
      { unfold memmove, copy_checks.
        destruct (wrap32 (wrap32 (zlen l - off) - rem) >=? 0); [| eauto].
        destruct (wrap32 (off + zlen rr) >=? 0); [| eauto].
        destruct (Z.geb_spec (wrap32 (off + rem)) 0); [lia | eauto]. }
      rewrite E2. cbn [fst snd obind]. zlen_facts.
      keep l rest'. unfold allowed. rewrite SQ. cbn. eauto.
  Qed.

  Lemma step_ok s op l : rep s l -> op_args_ok op -> fits zero conv l op -> good s op l.
  Proof.
    intros (rest & -> & B) Args F.
    destruct op; cbn [op_args_ok] in Args.
    - apply get_ok; auto.
    - destruct (Z_le_gt_dec INT32_MAX (zlen l)).
      + destruct (Z_le_gt_dec 0 index); [destruct (Z_le_gt_dec index (zlen l)) |].
        * exfalso.
          specialize (F (ztake index l ++ conv element :: zdrop index l) RUnit).
          rewrite zlen_app, zlen_cons, zlen_take, zlen_drop in F. zlen_facts.
          enough (Z.min (Z.max 0 index) (zlen l) + (1 + Z.max 0 (zlen l - Z.max 0 index)) <= INT32_MAX) by lia.
          apply F. unfold seq_op.
          destruct (Z.leb_spec 0 index); [| lia]. destruct (Z.leb_spec index (zlen l)); [| lia]. auto.
        * unfold good. cbn [il_step]. unfold il_insert, wrap_res, bind, get_length. cbn [il_length].
          destruct (Z.geb_spec index 0); [| lia]. destruct (Z.leb_spec index (zlen l)); [lia |].
          cbn [fst snd obind die]. keep l rest. unfold allowed, seq_op.
          destruct (Z.leb_spec index (zlen l)); [lia |]. rewrite andb_false_r. cbn. eauto.
        * unfold good. cbn [il_step]. unfold il_insert, wrap_res, bind, get_length. cbn [il_length].
          destruct (Z.geb_spec index 0); [lia |].
          cbn [fst snd obind die]. keep l rest. unfold allowed, seq_op.
          destruct (Z.leb_spec 0 index); [lia |]. cbn. eauto.
      + apply insert_ok; auto. lia.
    - apply pop_ok; auto.
    - apply push_ok; auto. specialize (F (l ++ [conv element]) RUnit eq_refl).
      rewrite zlen_app, zlen_cons in F. zlen_nils. lia.
    - apply remove_ok; auto.
    - destruct Args as (? & ? & ?). apply replace_ok; auto.
    - apply reserve_ok; auto.
    - apply resize_ok; auto.
    - apply set_ok; auto.
    - apply shift_ok; auto.
    - apply to_array_ok; auto.
    - apply unshift_ok; auto. specialize (F (conv element :: l) RUnit eq_refl).
      rewrite zlen_cons in F. lia.
    - unfold good. cbn [il_step]. unfold wrap_res, get_length. cbn [il_length fst snd obind].
      zlen_facts. keep l rest. unfold allowed, seq_op. auto.
  Qed.

  Lemma run_ok ops s l :
    rep s l -> Forall op_args_ok ops -> allowed_run zero conv l ops (il_run zero conv s ops).
  Proof.
    revert s l. induction ops as [| op ops IH]; intros s l R F; cbn [il_run allowed_run]; auto.
    inversion F; subst. intros FT. destruct (step_ok s op l R H1 FT) as (l' & Al & R').
    exists l'. split; auto.
  Qed.

  Lemma new_len_ok n c :
    0 <= n <= INT32_MAX -> c <= INT32_MAX ->
    exists s, new_len zero n c = Ret s /\ rep s (zrep n zero) /\
      il_capacity s = Z.max n (if c <? 0 then 4 else c).
  Proof.
    intros. unfold new_len. destruct (Z.geb_spec n 0); [| lia].
    set (c1 := if c <? 0 then 4 else c).
    assert (0 <= c1 <= INT32_MAX) by (unfold c1; destruct (Z.ltb_spec c 0); lia).
    set (c2 := if n >? c1 then n else c1).
    assert (c2 = Z.max n c1) by (unfold c2; destruct (Z.gtb_spec n c1); lia).
    unfold new_elems. destruct (Z.leb_spec 0 c2); [| lia]. rewrite obind_ret.
    eexists. split; [reflexivity |]. split; [| auto].
    apply (rep_intro _ (zrep (c2 - n) zero)); rewrite ?zlen_rep; try lia.
    unfold zrep. rewrite <- repeat_app. f_equal. lia.
  Qed.

  Lemma new_ok o c :
    match o with Some a => zlen a <= INT32_MAX | None => True end -> c <= INT32_MAX ->
    exists s, new zero o c = Ret s /\ rep s (match o with Some a => a | None => [] end).
  Proof.
    intros La Hc. unfold new. destruct o as [a |].
    - zlen_facts. destruct (new_len_ok (zlen a) c) as (s & E & (rest & -> & B) & _); try lia.
      rewrite E, obind_ret. cbn [il_array il_capacity il_length].
      rewrite zlen_rep in *. zlen_facts. replace (Z.max 0 (zlen a)) with (zlen a) in * by lia.
      rewrite memcpy_ok; rewrite ?zlen_app, ?zlen_rep; try lia. rewrite obind_ret.
      eexists. split; [reflexivity |].
      replace (zsub a 0 (zlen a)) with a
        by (rewrite <- (app_nil_r a) at 2; symmetry; apply zsub_pre).
      assert (LB : zlen (zblit (zrep (zlen a) zero ++ rest) 0 a) = zlen a + zlen rest).
      { rewrite zlen_blit; rewrite ?zlen_app, ?zlen_rep; lia. }
      apply (rep_intro _ rest); rewrite ?LB; try lia.
      unfold zblit. rewrite ztake_0 by lia. cbn [app]. f_equal.
      rewrite zdrop_app_r by (rewrite zlen_rep; lia). apply zdrop_0. rewrite zlen_rep. lia.
    - destruct (new_len_ok 0 c) as (s & E & R & _); try lia. exists s. split; auto.
  Qed.

  Lemma full_insert_ub l x :
    zlen l = INT32_MAX ->
    snd (il_step zero conv (mk_ilist INT32_MAX INT32_MAX l) (IInsert 0 x)) = UB.
  Proof.
    intros L. cbn [il_step]. unfold il_insert, wrap_res, bind, get_length. cbn [il_length].
    change (0 >=? 0) with true. change (0 <=? INT32_MAX) with true. cbv iota.
    unfold maybe_extend. cbn [il_capacity].
    change (wrap32 (INT32_MAX + 1) >? INT32_MAX) with false. cbn [negb].
    change (0 =? INT32_MAX) with false. cbn [negb].
    unfold array_move, on_array. cbn [il_array].
    unfold memmove, copy_checks.
    change (wrap32 (INT32_MAX - 0)) with INT32_MAX. change (wrap32 (0 + 1)) with 1.
    change (INT32_MAX >=? 0) with true. change (1 >=? 0) with true. change (0 >=? 0) with true.
    change (INT32_MAX =? 0) with false. cbv iota. change (c_add 1 INT32_MAX) with (@UB Z).
    reflexivity.
  Qed.
End Proofs.
