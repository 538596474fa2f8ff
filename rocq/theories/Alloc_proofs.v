From Coq Require Import Permutation.
From Verif Require Import Base Alloc_model Alloc_spec.

Lemma hmem_In a h : hmem a h = true <-> In a h.
Proof.
  induction h as [| b h IH]; cbn; [split; [discriminate | tauto] |].
  rewrite orb_true_iff, Z.eqb_eq, IH. intuition.
Qed.

Lemma hremove_eq a h : hremove a h = remove_one a h.
Proof.
  induction h as [| b h IH]; cbn; auto.
  destruct (Z.eqb_spec a b); destruct (Z.eq_dec a b); congruence.
Qed.

Lemma remove_one_perm a l : In a l -> Permutation l (a :: remove_one a l).
Proof.
  induction l as [| b l IH]; cbn; [tauto |]. destruct (Z.eq_dec a b); [subst; auto |].
  intros [-> | I]; [congruence |]. rewrite perm_swap. constructor. auto.
Qed.

Lemma remove_one_notin a l : ~ In a l -> remove_one a l = l.
Proof.
  induction l as [| b l IH]; cbn; auto. intros N. destruct (Z.eq_dec a b); [subst; tauto |].
  f_equal; auto.
Qed.

Lemma c_free_perm h a r :
  a <> 0 -> Permutation h (a :: r) -> exists h', c_free h a = Ret h' /\ Permutation h' r.
Proof.
  intros N P. unfold c_free. replace (a =? 0) with false by lia.
  assert (I : In a h) by (eapply Permutation_in; [symmetry; exact P | left; auto]).
  rewrite (proj2 (hmem_In a h) I). eexists; split; [reflexivity |].
  rewrite hremove_eq. apply (Permutation_cons_inv (a := a)).
  rewrite <- P. symmetry. apply remove_one_perm; auto.
Qed.

Lemma perm3 (a b c : Z) l : Permutation (a :: b :: c :: l) (c :: a :: b :: l).
Proof.
  transitivity (a :: c :: b :: l); [apply perm_skip, perm_swap | apply perm_swap].
Qed.

Section Alloc.
  Variable pick : list Z -> Z.
  Hypothesis pick_fresh : forall h, pick h <> 0 /\ ~ In (pick h) h.

  (** [base] are the blocks that other parts of the program hold. *)
  Record al_inv (base : list Z) (al : alloc) (st : list Z * list Z) : Prop := {
    ai_heap : Permutation (al_heap al) (al_self al :: al_list al :: fst st ++ snd st ++ base);
    ai_nodup : NoDup (al_heap al);
    ai_nz : ~ In 0 (al_heap al);
    ai_tmp : al_count_tmp al = zlen (fst st);
    ai_perm : al_count_permanent al = zlen (snd st);
    ai_len : al_list_length al = zlen (snd st);
    ai_cap : 0 < al_list_capacity al <= INT32_MAX;
    ai_slots : zlen (al_slots al) = al_list_capacity al;
    ai_fit : zlen (snd st) <= al_list_capacity al;
    ai_content : ztake (zlen (snd st)) (al_slots al) = rev (snd st)
  }.

  Lemma step_spec base al st op :
    al_inv base al st -> client_ok st op ->
    zlen (fst st) < 1073741823 -> zlen (snd st) < 1073741823 ->
    exists al' out, al_step pick al op = Ret (al', out) /\
      answer_ok st (op, out) /\ al_inv base al' (track st (op, out)).
  Proof.
    destruct st as [tmp perm]. intros I C B1 B2. cbn [fst snd] in *.
    destruct I as [H ND NZ CT CP LL LC LS LF CO]. cbn [fst snd] in *. zlen_facts.
    destruct (pick_fresh (al_heap al)) as [P0 PF].
    assert (notin : forall x, ~ In x (al_heap al) -> ~ In x tmp /\ ~ In x perm).
    { intros x N. split; intros Q; apply N; (eapply Permutation_in; [symmetry; exact H |]);
        right; right; apply in_or_app; [left | right; apply in_or_app; left]; auto. }
    destruct op as [size | b | size |]; cbn [al_step].
    - unfold alloc_tmp, alloc_unmanaged. destruct (Z.ltb_spec size 1) as [L | L].
      + eexists _, _. split; [reflexivity |]. cbn.
        replace (size <? 1) with true by lia. split; auto.
        split; cbn; auto.
      + eexists _, _. split; [reflexivity |]. cbn.
        replace (size <? 1) with false by lia. replace (pick (al_heap al) =? 0) with false by lia.
        destruct (notin _ PF) as [N1 N2]. split; [auto |].
        split; cbn; auto.
        * rewrite H at 2. symmetry. apply perm3.
        * constructor; auto.
        * intros [Q | Q]; auto.
        * rewrite zlen_cons. rewrite wrap32_id; unfold in_i32; lia.
    - cbn [client_ok] in C. unfold free_tmp. destruct (Z.eqb_spec b 0) as [-> | N].
      + eexists _, _. split; [reflexivity |]. cbn. split; auto.
        assert (~ In 0 tmp).
        { intros Q. apply NZ. eapply Permutation_in; [symmetry; exact H |].
          right; right; apply in_or_app; auto. }
        rewrite remove_one_notin by auto. split; cbn; auto.
      + destruct C as [| C]; [congruence |].
        pose proof (remove_one_perm b tmp C) as RP.
        destruct (c_free_perm (al_heap al) b (al_self al :: al_list al :: remove_one b tmp ++ perm ++ base))
          as (h' & E & P'); auto.
        { rewrite H. rewrite RP at 1. cbn [app].
          apply perm3. }
        rewrite E. cbn [obind]. eexists _, _. split; [reflexivity |]. cbn. split; auto.
        assert (ND' : Permutation (al_heap al) (b :: h')).
        { rewrite P'. rewrite H. rewrite RP at 1. cbn [app].
          apply perm3. }
        split; cbn; auto.
        * apply (Permutation_NoDup ND') in ND. inversion ND; auto.
        * intros Q. apply NZ. eapply Permutation_in; [symmetry; exact ND' |]. right; auto.
        * assert (zlen tmp = 1 + zlen (remove_one b tmp)) as LQ.
          { unfold zlen. rewrite (Permutation_length RP). cbn [List.length]. lia. }
          zlen_facts. rewrite wrap32_id; unfold in_i32; lia.
    - cbn [client_ok] in C. unfold alloc_permanent, alloc_unmanaged.
      replace (size <? 1) with false by lia. rewrite Z.geb_leb.
      destruct (notin _ PF) as [N1 N2].
      set (a := pick (al_heap al)) in *.
      destruct (Z.leb_spec (al_list_capacity al) (al_list_length al)) as [G | G].
      + rewrite (wrap32_id (al_list_capacity al * 2)) by (unfold in_i32; lia).
        replace (al_list_capacity al * 2 <=? 0) with false by lia.
        replace (8 * (al_list_capacity al * 2) <? 1) with false by lia.
        replace (zlen (al_slots al) <? al_list_capacity al) with false by lia.
        replace (al_list_capacity al * 2 <? al_list_capacity al) with false by lia.
        destruct (pick_fresh (a :: al_heap al)) as [Q0 QF].
        set (a2 := pick (a :: al_heap al)) in *.
        assert (LNZ : al_list al <> 0).
        { intros Q. apply NZ. eapply Permutation_in; [symmetry; exact H |]. right; left; auto. }
        assert (HP : Permutation (a2 :: a :: al_heap al)
                       (al_list al :: al_self al :: a2 :: tmp ++ (a :: perm) ++ base)).
        { rewrite H. cbn [app].
          transitivity (al_list al :: al_self al :: a2 :: a :: tmp ++ perm ++ base).
          2:{ do 3 apply perm_skip. apply Permutation_middle. }
          clear. set (r := tmp ++ perm ++ base). 
          transitivity (a2 :: a :: al_list al :: al_self al :: r).
          { do 2 apply perm_skip. apply perm_swap. }
          transitivity (a2 :: al_list al :: a :: al_self al :: r); [apply perm_skip, perm_swap |].
          transitivity (a2 :: al_list al :: al_self al :: a :: r); [do 2 apply perm_skip; apply perm_swap |].
          transitivity (al_list al :: a2 :: al_self al :: a :: r); [apply perm_swap |].
          apply perm_skip, perm_swap. }
        destruct (c_free_perm _ _ _ LNZ HP) as (h' & E & P'). rewrite E. cbn [obind].
        assert (ND' : Permutation (a2 :: a :: al_heap al) (al_list al :: h')).
        { rewrite P'. exact HP. }
        rewrite zlen_blit; [| lia |].
        2:{ rewrite zlen_take, zlen_rep; lia. }
        rewrite zlen_rep. replace (negb _) with false by lia.
        eexists _, _. split; [reflexivity |]. cbn.
        split; [auto |].
        assert (NDa : NoDup (a2 :: a :: al_heap al)) by (constructor; auto; constructor; auto).
        split; cbn; rewrite ?zlen_cons; auto; try lia.
        * apply (Permutation_NoDup ND') in NDa. inversion NDa; auto.
        * intros Q. assert (QI : In 0 (a2 :: a :: al_heap al)).
          { eapply Permutation_in; [symmetry; exact ND' |]. right; auto. }
          destruct QI as [QI | [QI | QI]]; auto.
        * rewrite wrap32_id; unfold in_i32; lia.
        * rewrite wrap32_id; unfold in_i32; lia.
        * rewrite zlen_upd, zlen_blit; rewrite ?zlen_take, ?zlen_rep; lia.
        * rewrite LL in *. rewrite <- CO. zext.
      + cbn [obind]. replace (negb _) with false by lia.
        eexists _, _. split; [reflexivity |]. cbn. split; [auto |].
        split; cbn; rewrite ?zlen_cons, ?zlen_upd; auto; try lia.
        * rewrite H. rewrite <- (perm3 (al_self al) (al_list al) a).
          do 2 apply perm_skip. apply Permutation_middle.
        * constructor; auto.
        * intros [Q | Q]; auto.
        * rewrite wrap32_id; unfold in_i32; lia.
        * rewrite wrap32_id; unfold in_i32; lia.
        * rewrite LL in *. rewrite <- CO. zext.
    - eexists _, _. split; [reflexivity |]. cbn. split.
      + unfold alloc_count. rewrite wrap32_id; unfold in_i32; lia.
      + split; cbn; auto.
  Qed.

  Lemma new_spec base :
    NoDup base -> ~ In 0 base -> al_inv base (alloc_new pick base) ([], []).
  Proof.
    intros N Z0. unfold alloc_new, alloc_unmanaged. cbn -[zrep].
    destruct (pick_fresh base) as [A1 A2].
    destruct (pick_fresh (pick base :: base)) as [B1 B2].
    split; cbn -[zrep]; auto; try (vm_compute; intuition congruence).
    - apply perm_swap.
    - constructor; auto. constructor; auto.
  Qed.

  Lemma track_bound st e :
    zlen (fst (track st e)) <= zlen (fst st) + 1 /\ zlen (snd (track st e)) <= zlen (snd st) + 1.
  Proof.
    destruct st as [tmp perm], e as [[sz | b | sz |] out]; cbn.
    - destruct (out =? 0); cbn; rewrite ?zlen_cons; lia.
    - split; [| lia].
      assert (G : zlen (remove_one b tmp) <= zlen tmp); [| lia].
      induction tmp as [| x l IH]; cbn; [lia |]. destruct (Z.eq_dec b x); rewrite ?zlen_cons in *; lia.
    - rewrite zlen_cons; lia.
    - lia.
  Qed.

  Lemma run_spec base ops : forall al st al' tr,
    al_inv base al st ->
    zlen (fst st) + zlen ops < 1073741823 -> zlen (snd st) + zlen ops < 1073741823 ->
    al_run pick al ops = Ret (al', tr) -> trace_ok st tr ->
    answers_ok st tr /\ al_inv base al' (fold_left track tr st) /\
    zlen (fst (fold_left track tr st)) <= zlen (fst st) + zlen ops /\
    zlen (snd (fold_left track tr st)) <= zlen (snd st) + zlen ops.
  Proof.
    induction ops as [| op ops IH]; intros al st al' tr I B1 B2 R T; cbn [al_run] in R.
    - inversion R; subst. cbn. zlen_facts. split; [auto | split; [auto | lia]].
    - destruct (al_step pick al op) as [[al1 out] | | |] eqn:E; cbn [obind] in R; try discriminate.
      destruct (al_run pick al1 ops) as [[al2 tr2] | | |] eqn:E2; cbn [obind] in R; try discriminate.
      inversion R; subst. cbn [trace_ok fst] in T. destruct T as [T1 T2].
      rewrite zlen_cons in *. zlen_facts.
      destruct (step_spec base al st op I T1) as (al3 & out3 & E3 & A3 & I3); try lia.
      rewrite E in E3. inversion E3; subst al3 out3.
      pose proof (track_bound st (op, out)).
      destruct (IH al1 (track st (op, out)) al' tr2) as (G1 & G2 & G3); auto; try lia.
      cbn [answers_ok fold_left]. split; [auto | split; [auto | lia]].
  Qed.

  Lemma free_loop_spec : forall rest done h slots r count,
    Permutation h (rest ++ r) -> ~ In 0 rest ->
    ztake (zlen done + zlen rest) slots = done ++ rest ->
    count = zlen rest -> zlen rest <= INT32_MAX ->
    exists h', free_permanent_loop (length rest) (zlen done) slots h count = Ret (h', 0) /\
      Permutation h' r.
  Proof.
    induction rest as [| b rest IH]; intros done h slots r count P Z0 S C B.
    - cbn. subst. exists h; split; auto.
    - cbn [free_permanent_loop List.length].
      assert (Hb : znth slots (zlen done) = Some b).
      { transitivity (znth (ztake (zlen done + zlen (b :: rest)) slots) (zlen done)).
        - rewrite znth_take, zlen_cons. zlen_facts. zcase. auto.
        - rewrite S. znorm. zcase. auto. }
      rewrite Hb. cbn in Z0. replace (b =? 0) with false by lia.
      cbn [app] in P.
      destruct (c_free_perm h b (rest ++ r)) as (h1 & E & P1); auto.
      rewrite E. cbn [obind]. rewrite zlen_cons in *. zlen_facts.
      rewrite wrap32_id by (unfold in_i32; lia).
      replace (zlen done + 1) with (zlen (done ++ [b])) by (rewrite zlen_app, zlen_cons; zlen_nils; lia).
      apply (IH (done ++ [b])); auto; try lia.
      rewrite <- app_assoc. cbn [app]. rewrite <- S. f_equal.
      rewrite zlen_app, zlen_cons; zlen_nils; lia.
  Qed.

  Lemma free_spec base al perm :
    al_inv base al ([], perm) -> zlen perm <= INT32_MAX ->
    exists h, alloc_free al = Ret h /\ Permutation h base.
  Proof.
    intros [H ND NZ CT CP LL LC LS LF CO] B. cbn [fst snd app] in *. unfold alloc_free.
    assert (SZ : al_self al <> 0).
    { intros Q. apply NZ. eapply Permutation_in; [symmetry; exact H |]. left; auto. }
    assert (LZ : al_list al <> 0).
    { intros Q. apply NZ. eapply Permutation_in; [symmetry; exact H |]. right; left; auto. }
    destruct (free_loop_spec (rev perm) [] (al_heap al) (al_slots al)
                (al_self al :: al_list al :: base) (al_count_permanent al)) as (h1 & E1 & P1).
    - rewrite H. rewrite <- (Permutation_rev perm).
      rewrite <- (Permutation_middle perm (al_list al :: base)). apply perm_skip.
      apply Permutation_middle.
    - intros Q. apply NZ. eapply Permutation_in; [symmetry; exact H |]. right; right.
      apply in_or_app; left. apply in_rev. auto.
    - change (zlen (@nil Z)) with 0. rewrite zlen_rev. cbn [app]. rewrite <- CO. f_equal.
    - rewrite zlen_rev. auto.
    - rewrite zlen_rev. auto.
    - change (zlen (@nil Z)) with 0 in E1. rewrite rev_length in E1.
      rewrite LL. unfold zlen at 1. rewrite Nat2Z.id. rewrite E1. cbn [obind].
      destruct (c_free_perm h1 (al_list al) (al_self al :: base)) as (h2 & E2 & P2); auto.
      { rewrite P1. apply perm_swap. }
      rewrite E2. cbn [obind]. rewrite CT. change (zlen (@nil Z)) with 0. cbn.
      apply c_free_perm; auto.
  Qed.

  (** ** Statements used by Alloc_props *)
  Lemma held_inv base ops al tr :
    NoDup base -> ~ In 0 base -> zlen ops < 1073741822 ->
    al_run pick (alloc_new pick base) ops = Ret (al, tr) -> trace_ok ([], []) tr ->
    answers_ok ([], []) tr /\ al_inv base al (held tr) /\
    zlen (fst (held tr)) <= zlen ops /\ zlen (snd (held tr)) <= zlen ops.
  Proof.
    intros N Z0 B R T. pose proof (new_spec base N Z0) as I0. revert I0 R.
    generalize (alloc_new pick base) as al0. intros al0 I0 R.
    pose proof (run_spec base ops al0 ([], []) al tr I0) as Q.
    cbn [fst snd] in Q. zlen_nils.
    assert (B' : 0 + zlen ops < 1073741823) by lia.
    destruct (Q B' B' R T) as (A & I & L1 & L2).
    split; [exact A | split; [exact I | unfold held; lia]].
  Qed.

  Lemma progress base ops al tr op :
    NoDup base -> ~ In 0 base -> zlen ops < 1073741822 ->
    al_run pick (alloc_new pick base) ops = Ret (al, tr) -> trace_ok ([], []) tr ->
    client_ok (held tr) op ->
    exists al' out, al_step pick al op = Ret (al', out).
  Proof.
    intros N Z0 B R T C. destruct (held_inv base ops al tr N Z0 B R T) as (A & I & L1 & L2).
    destruct (step_spec base al (held tr) op I C) as (al' & out & E & _); [lia | lia |]. eauto.
  Qed.

  Lemma destroy base ops al tr :
    NoDup base -> ~ In 0 base -> zlen ops < 1073741822 ->
    al_run pick (alloc_new pick base) ops = Ret (al, tr) -> trace_ok ([], []) tr ->
    fst (held tr) = [] ->
    exists h, alloc_free al = Ret h /\ Permutation h base.
  Proof.
    intros N Z0 B R T F. destruct (held_inv base ops al tr N Z0 B R T) as (A & I & L1 & L2).
    destruct (held tr) as [tmp perm]. cbn [fst snd] in *. subst.
    apply (free_spec base al perm I). lia.
  Qed.
End Alloc.
