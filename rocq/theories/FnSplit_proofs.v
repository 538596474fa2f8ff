(** * Proofs about split, join and repeat *)
From Verif Require Import Base StM CLib Array_model FnMem_model FnStr_model FnStr_spec FnStr_proofs.
From Verif Require Import StrBuf_model StrBuf_spec StrBuf_proofs FnSplit_model FnSplit_spec.

(** ** The pieces *)
Lemma app_inv_len {A} (a b c d : list A) : zlen a = zlen c -> a ++ b = c ++ d -> a = c /\ b = d.
Proof.
  intros L E. assert (a = c).
  { apply (f_equal (ztake (zlen a))) in E. rewrite L in E at 2. rewrite !ztake_app_l, !ztake_all in E by lia. exact E. }
  split; auto. subst. apply app_inv_head in E. exact E.
Qed.

Lemma pieces_joined sep limit s ps : pieces sep limit s ps -> joined sep ps = s.
Proof.
  induction 1 as [| limit s p r ps L E M P IH]; [reflexivity |]. subst s.
  cbn [joined]. destruct ps; [inversion P |]. rewrite IH. reflexivity.
Qed.

Lemma pieces_nonempty sep limit s ps : pieces sep limit s ps -> ps <> [].
Proof. destruct 1; discriminate. Qed.

Lemma pieces_limit sep limit s ps : pieces sep limit s ps -> 0 < limit -> zlen ps <= limit.
Proof.
  induction 1 as [| limit s p r ps L E M P IH]; intros LP.
  - rewrite zlen_cons, zlen_nil. lia.
  - rewrite zlen_cons. destruct (Z.ltb_spec 0 limit); [| lia]. lia.
Qed.

Lemma occurs_app_l p sep r i : occurs p sep i -> occurs (p ++ r) sep i.
Proof. intros (b & a & -> & E). exists b, (a ++ r). rewrite <- !app_assoc. auto. Qed.

Lemma pieces_free sep limit s ps :
  sep <> [] -> pieces sep limit s ps -> limit <= 0 -> Forall (fun p => forall i, ~ occurs p sep i) ps.
Proof.
  intros SN. induction 1 as [limit s [L | L] | limit s p r ps L E M P IH]; intros LP; [lia | auto |].
  constructor.
  - intros i O. assert (O' := occurs_app_l _ _ (sep ++ r) _ O). rewrite <- E in O'. apply M in O'.
    apply occurs_pointwise in O. destruct O as (I & B & _).
    destruct sep; [congruence |]. rewrite zlen_cons in B. pose proof (zlen_nonneg sep). lia.
  - destruct (Z.ltb_spec 0 limit); [lia |]. auto.
Qed.

(** The pieces are determined by the string. *)
Lemma pieces_fun sep limit s ps qs : sep <> [] -> pieces sep limit s ps -> pieces sep limit s qs -> ps = qs.
Proof.
  intros SN P. revert qs. induction P as [limit s W | limit s p r ps L E M P IH]; intros qs Q.
  - inversion Q as [| l' s' p' r' ps' L' E' M' P']; subst; auto. exfalso. destruct W as [| W]; [auto |].
    apply (W (zlen p')). exists p', r'. auto.
  - inversion Q as [l' s' W | l' s' p' r' ps' L' E' M' P']; subst.
    + exfalso. destruct W as [| W]; [auto |]. apply (W (zlen p)). exists p, r. auto.
    + assert (zlen p = zlen p').
      { apply Z.le_antisymm; [apply M; exists p', r' | apply M'; exists p, r]; auto. }
      apply app_inv_len in E' as [-> E']; auto. apply app_inv_head in E' as ->. f_equal. auto.
Qed.

Lemma occurs_drop s sep off i : 0 <= off <= zlen s -> (occurs (zdrop off s) sep i <-> 0 <= i /\ occurs s sep (off + i)).
Proof.
  intros O. pose proof (zlen_nonneg sep). rewrite !occurs_pointwise, zlen_drop by lia. split.
  - intros (I & B & V). split; [auto |]. split; [lia |]. split; [lia |]. intros j J.
    rewrite <- V by auto. rewrite znth_drop. destruct (Z.ltb_spec (i + j) 0); [lia |]. f_equal. lia.
  - intros (I & _ & B & V). split; [auto |]. split; [lia |]. intros j J.
    rewrite <- V by auto. rewrite znth_drop. destruct (Z.ltb_spec (i + j) 0); [lia |]. f_equal. lia.
Qed.

(** ** The search of split *)
Lemma index_from s sep off :
  is_string s -> is_string sep -> sep <> [] -> 0 <= off <= zlen s ->
  exists r, index (Some s) (Some sep) off (-1) = Ret r /\
    ((off <= r /\ occurs s sep r /\ forall i, off <= i -> occurs s sep i -> r <= i) \/
     (r = -1 /\ forall i, off <= i -> ~ occurs s sep i)).
Proof.
  intros S P N O. pose proof (index_spec s sep off (-1) S P) as H.
  assert (R : range_ok s off (-1)) by (unfold range_ok; lia).
  assert (T : forall i, off <= i -> occurs s sep i -> occurs_between s sep off (zlen s - 1) i).
  { intros i I OC. unfold occurs_between. split; auto. split; auto.
    apply occurs_pointwise in OC. lia. }
  destruct (index (Some s) (Some sep) off (-1)) as [r | | |]; try tauto.
  exists r. split; auto. destruct H as (_ & _ & H). specialize (H N).
  change (last_position s (-1)) with (zlen s - 1) in H.
  destruct H as [[(A & B & C) M] | [E M]]; [left | right].
  - split; auto.
  - split; auto. intros i I OC. apply (M i). auto.
Qed.

Lemma loop_none n s sep limit off mc parts :
  is_string s -> is_string sep -> sep <> [] -> 0 <= off <= zlen s -> (forall i, off <= i -> ~ occurs s sep i) ->
  split_loop n sep s limit off mc parts = Ret (off, parts).
Proof.
  intros S P N O NO. induction n as [| n IH]; [reflexivity |]. cbn [split_loop].
  destruct ((limit >? 0) && (mc >=? wrap32 (limit - 1))); [reflexivity |].
  destruct (index_from s sep off S P N O) as (r & -> & [(A & OC & _) | [-> _]]).
  - exfalso. exact (NO r A OC).
  - cbn [obind]. exact IH.
Qed.

Definition rest_limit (limit mc : Z) : Z := if 0 <? limit then limit - mc else limit.

Lemma loop_ok n s sep limit off mc parts :
  is_string s -> is_string sep -> sep <> [] -> in_i32 limit -> 0 <= off <= zlen s -> 0 <= mc <= off ->
  zlen s - off <= Z.of_nat n -> (0 < limit -> mc <= limit - 1) ->
  exists ps off', split_loop n sep s limit off mc parts = Ret (off', parts ++ ps) /\ off <= off' <= zlen s /\
    pieces sep (rest_limit limit mc) (zdrop off s) (ps ++ [zdrop off' s]).
Proof.
  intros S P N LI. revert off mc parts. pose proof S as [_ SL]. unfold in_i32 in LI.
  induction n as [| n IH]; intros off mc parts O MC F ML.
  - exists [], off. split; [cbn [split_loop]; rewrite app_nil_r; auto |]. split; [lia |]. apply Whole. right.
    intros i OC. apply occurs_pointwise in OC. rewrite zlen_drop in OC by lia.
    destruct sep; [auto |]. rewrite zlen_cons in OC. pose proof (zlen_nonneg sep). lia.
  - cbn [split_loop]. destruct ((limit >? 0) && (mc >=? wrap32 (limit - 1))) eqn:EL.
    + apply andb_true_iff in EL as [L1 L2]. apply Z.gtb_lt in L1.
      rewrite wrap32_id in L2 by (unfold in_i32; lia). apply Z.geb_le in L2.
      exists [], off. split; [rewrite app_nil_r; auto |]. split; [lia |]. apply Whole. left.
      unfold rest_limit. destruct (Z.ltb_spec 0 limit); lia.
    + assert (NL : rest_limit limit mc <> 1 /\ (0 < limit -> mc + 1 <= limit - 1)).
      { unfold rest_limit. apply andb_false_iff in EL. destruct (Z.ltb_spec 0 limit); [| lia].
        rewrite wrap32_id in EL by (unfold in_i32; lia). rewrite Z.gtb_ltb, Z.geb_leb in EL.
        destruct EL as [EL | EL]; [apply Z.ltb_ge in EL | apply Z.leb_gt in EL]; lia. }
      destruct NL as [NL ML'].
      destruct (index_from s sep off S P N O) as (r & -> & [(A & OC & M) | [-> NO]]); cbn [obind].
      * destruct (Z.geb_spec r 0); [| lia]. pose proof OC as OC'. apply occurs_pointwise in OC' as (R0 & RB & _).
        assert (SP : 1 <= zlen sep) by (destruct sep; [congruence |]; rewrite zlen_cons; pose proof (zlen_nonneg sep); lia).
        rewrite wrap32_id by (unfold in_i32; lia). unfold substr.
        rewrite substr0_ok by (auto; try lia; unfold effective_length; destruct (Z.ltb_spec (r - off) 0); lia).
        cbn [obind]. rewrite !wrap32_id by (unfold in_i32; lia).
        replace (effective_length s off (r - off)) with (r - off) by (unfold effective_length; destruct (Z.ltb_spec (r - off) 0); lia).
        destruct (IH (r + zlen sep) (mc + 1) (parts ++ [zsub s off (r - off)])) as (ps & off' & E & B & PC); try lia.
        exists (zsub s off (r - off) :: ps), off'. split; [rewrite E, <- app_assoc; reflexivity |]. split; [lia |].
        cbn [app]. apply Cut with (r := zdrop (r + zlen sep) s); auto.
        -- destruct OC as (b & a & ES & EB).
           assert (ED : zdrop (r + zlen sep) s = a).
           { rewrite ES, app_assoc, zdrop_app_r by (zlens; lia). apply zdrop_0. zlens. lia. }
           rewrite ED. rewrite ES, zdrop_app_l by lia.
           f_equal. unfold zsub. rewrite zdrop_app_l by lia. rewrite ztake_app_l, ztake_all by (rewrite zlen_drop; lia); auto.
        -- intros i OI. apply occurs_drop in OI as [I0 OI]; [| lia]. apply M in OI; [| lia].
           unfold zsub. rewrite zlen_take, zlen_drop; lia.
        -- replace (if 0 <? rest_limit limit mc then rest_limit limit mc - 1 else rest_limit limit mc)
             with (rest_limit limit (mc + 1)); [exact PC |].
           unfold rest_limit. destruct (Z.ltb_spec 0 limit).
           ++ destruct (Z.ltb_spec 0 (limit - mc)); lia.
           ++ destruct (Z.ltb_spec 0 limit); lia.
      * rewrite loop_none by auto. change (-1 >=? 0) with false. cbn iota.
        exists [], off. split; [rewrite app_nil_r; auto |]. split; [lia |]. apply Whole. right.
        intros i OI. apply occurs_drop in OI as [I0 OI]; [| lia]. apply (NO (off + i)); auto. lia.
Qed.

Lemma split_nonzero s sep limit :
  is_string s -> is_string sep -> sep <> [] -> in_i32 limit ->
  exists ps, pieces sep limit s ps /\
    split (Some sep) (Some s) limit = Ret (if limit =? 0 then rev (drop_empty (rev ps)) else ps).
Proof.
  intros S P N L. unfold split. pose proof S as [_ SL]. pose proof (zlen_nonneg s).
  assert (SP : 1 <= zlen sep) by (destruct sep; [congruence |]; rewrite zlen_cons; pose proof (zlen_nonneg sep); lia).
  rewrite Z.gtb_ltb. destruct (Z.ltb_spec 0 (zlen sep)); [| lia].
  destruct (loop_ok (Z.to_nat (zlen s)) s sep limit 0 0 []) as (ps & off & -> & B & PC); auto; try lia.
  cbn [obind app]. exists (ps ++ [zdrop off s]). split.
  - rewrite zdrop_0 in PC by lia. unfold rest_limit in PC. rewrite Z.sub_0_r in PC. destruct (0 <? limit); exact PC.
  - assert (E : (if off =? zlen s then Ret [] else substr (Some s) off (wrap32 (zlen s - off)) None) = Ret (zdrop off s)).
    { destruct (Z.eqb_spec off (zlen s)) as [-> |]; [rewrite zdrop_all by lia; reflexivity |].
      rewrite wrap32_id by (unfold in_i32; lia). unfold substr.
      rewrite substr0_ok by (auto; try lia; unfold effective_length; destruct (Z.ltb_spec (zlen s - off) 0); lia).
      replace (effective_length s off (zlen s - off)) with (zlen s - off)
        by (unfold effective_length; destruct (Z.ltb_spec (zlen s - off) 0); lia).
      f_equal. unfold zsub. apply ztake_all. rewrite zlen_drop; lia. }
    rewrite E. reflexivity.
Qed.

Lemma drop_empty_ok r : exists k, r = repeat [] k ++ drop_empty r /\ forall q, drop_empty r <> [] :: q.
Proof.
  induction r as [| [| b p] r IH].
  - exists O. split; [reflexivity | discriminate].
  - destruct IH as (k & E & N). exists (Datatypes.S k). cbn [repeat drop_empty app]. split; [congruence | auto].
  - exists O. split; [reflexivity |]. cbn [drop_empty]. congruence.
Qed.

Lemma rev_repeat {A} (x : A) k : rev (repeat x k) = repeat x k.
Proof.
  induction k as [| k IH]; [reflexivity |]. cbn [repeat rev]. rewrite IH. clear IH.
  induction k as [| k IH]; [reflexivity |]. cbn [repeat app]. congruence.
Qed.

Lemma drop_end ps : without_empty_end ps (rev (drop_empty (rev ps))).
Proof.
  destruct (drop_empty_ok (rev ps)) as (k & E & N). split.
  - exists k. apply (f_equal (@rev _)) in E. rewrite rev_involutive, rev_app_distr, rev_repeat in E. exact E.
  - intros rs F. apply (f_equal (@rev _)) in F. rewrite rev_involutive, rev_app_distr in F. cbn [rev app] in F. exact (N _ F).
Qed.

(** ** join and repeat *)
Lemma push_whole a b s :
  Inv a b -> is_string s -> zlen (bs a) + zlen s <= max_length ->
  exists b', sb_push (Some s) 0 (-1) b = (b', Ret tt) /\ Inv (mk_bytestr (bs a ++ s) (stale a) (room a)) b'.
Proof.
  intros I S F. pose proof (zlen_nonneg s) as NN.
  assert (E : str_op (bs a) (BPush (Some s) 0 (-1)) = Some (bs a ++ s)).
  { cbn [str_op]. change (-1 =? -1) with true. cbn iota. destruct (Z.leb_spec 0 (zlen s)); [| lia].
    change (0 <=? 0) with true. cbn [andb]. rewrite zdrop_0 by lia. reflexivity. }
  destruct (push_ok a b s 0 (-1) I S) as (b' & o & P & H); [unfold in_i32; lia | unfold in_i32; lia | |].
  - split; [| lia]. rewrite E. intros l1 [= <-]. left. zlens. lia.
  - rewrite E in H. destruct H as [-> I']. exists b'. auto.
Qed.

Lemma join_loop_ok n sep l i a b :
  is_string sep -> Forall string_arg l -> 0 <= i -> zlen l = i + Z.of_nat n -> zlen l <= INT32_MAX -> Inv a b ->
  zlen (bs a) + zlen (joined sep (map text (zdrop i l))) <= max_length ->
  exists b' a', join_loop n sep l i b = (b', Ret tt) /\ Inv a' b' /\
    bs a' = bs a ++ joined sep (map text (zdrop i l)).
Proof.
  intros S FL. revert i a b. induction n as [| n IH]; intros i a b I0 L LM I F.
  - exists b, a. split; [reflexivity |]. split; auto. rewrite zdrop_all by lia. cbn. rewrite app_nil_r. auto.
  - cbn [join_loop]. unfold bind, lift at 1.
    destruct (znth_lt l i ltac:(lia)) as (x & X).
    assert (G : elem_get l i = Ret x).
    { unfold elem_get. rewrite X. destruct (Z.leb_spec 0 i); [| lia]. destruct (Z.ltb_spec i (zlen l)); [| lia]. reflexivity. }
    rewrite G.
    assert (SX : is_string (text x)).
    { assert (IN := znth_In _ _ _ X). rewrite Forall_forall in FL. specialize (FL _ IN). destruct x; cbn in *; auto.
      split; [constructor | rewrite zlen_nil; lia]. }
    assert (ET : match x with Some s => Some s | None => Some [] end = Some (text x)) by (destruct x; reflexivity).
    rewrite ET. rewrite (zdrop_cons _ _ _ X) in F |- *. cbn [map] in F |- *.
    rewrite wrap32_id by (unfold in_i32; lia).
    destruct (Z.eqb_spec i (zlen l - 1)) as [EI | NI]; cbn [negb].
    + rewrite (zdrop_all (i + 1)) in F |- * by lia. cbn [map joined] in F |- *.
      destruct (push_whole a b (text x) I SX F) as (b' & -> & I').
      assert (n = O) by lia. subst n. exists b'. eexists. split; [reflexivity |]. split; [exact I' | reflexivity].
    + assert (NE : exists p q, map text (zdrop (i + 1) l) = p :: q).
      { destruct (znth_lt l (i + 1) ltac:(lia)) as (y & Y). rewrite (zdrop_cons _ _ _ Y). cbn [map]. eauto. }
      assert (EJ : joined sep (text x :: map text (zdrop (i + 1) l)) = text x ++ sep ++ joined sep (map text (zdrop (i + 1) l))).
      { destruct NE as (p & q & ->). reflexivity. }
      rewrite EJ in F |- *. rewrite ?zlen_app in F.
      pose proof (zlen_nonneg sep). pose proof (zlen_nonneg (joined sep (map text (zdrop (i + 1) l)))). pose proof (zlen_nonneg (text x)).
      destruct (push_whole a b (text x) I SX ltac:(lia)) as (b1 & -> & I1).
      destruct (push_whole _ b1 sep I1 S) as (b2 & -> & I2); [cbn [bs]; zlens; lia |].
      edestruct (IH (i + 1)) as (b3 & a3 & R3 & I3 & E3); [lia | lia | lia | exact I2 | cbn [bs]; zlens; lia |]. rewrite R3.
      exists b3, a3. split; [reflexivity |]. split; auto. rewrite E3. cbn [bs]. rewrite <- !app_assoc. reflexivity.
Qed.

Lemma join_ok sep l :
  is_string sep -> Forall string_arg l -> zlen l <= INT32_MAX -> zlen (joined sep (map text l)) <= max_length ->
  join (Some sep) (Some l) = Ret (joined sep (map text l)).
Proof.
  intros S FL LM F. unfold join. pose proof (zlen_nonneg l).
  destruct (new_ok None (-1)) as (b & -> & I); [exact Logic.I | unfold max_capacity; lia |]. cbn [obind].
  edestruct (join_loop_ok (Z.to_nat (zlen l)) sep l 0) as (b' & a' & E & I' & EB); [exact S | exact FL | lia | lia | lia | exact I | |].
  - rewrite zdrop_0 by lia. cbn [bs given]. rewrite zlen_nil. lia.
  - unfold bind. rewrite E. rewrite (to_string_ok _ _ I'). cbn [snd]. rewrite EB, zdrop_0 by lia. reflexivity.
Qed.

Lemma repeat_loop_ok n s a b :
  is_string s -> Inv a b -> zlen (bs a) + zlen (copies n s) <= max_length ->
  exists b' a', repeat_loop n s b = (b', Ret tt) /\ Inv a' b' /\ bs a' = bs a ++ copies n s.
Proof.
  intros S. revert a b. induction n as [| n IH]; intros a b I F.
  - exists b, a. cbn. rewrite app_nil_r. auto.
  - cbn [repeat_loop copies] in *. rewrite ?zlen_app in F. pose proof (zlen_nonneg (copies n s)). unfold bind.
    destruct (push_whole a b s I S ltac:(lia)) as (b1 & -> & I1).
    destruct (IH _ _ I1) as (b2 & a2 & -> & I2 & E2); [cbn [bs]; zlens; lia |].
    exists b2, a2. split; auto. split; auto. rewrite E2. cbn [bs]. rewrite <- app_assoc. reflexivity.
Qed.

Lemma repeat_ok s count :
  is_string s -> 0 <= count -> zlen (copies (Z.to_nat count) s) <= max_length ->
  repeat_string (Some s) count = Ret (copies (Z.to_nat count) s).
Proof.
  intros S C F. unfold repeat_string. destruct (Z.geb_spec count 0); [| lia].
  destruct (new_ok None (-1)) as (b & -> & I); [exact Logic.I | unfold max_capacity; lia |]. cbn [obind].
  edestruct (repeat_loop_ok (Z.to_nat count) s) as (b' & a' & E & I' & EB); [exact S | exact I | cbn [bs given]; rewrite zlen_nil; lia |].
  unfold bind. rewrite E. rewrite (to_string_ok _ _ I'). cbn [snd]. rewrite EB. reflexivity.
Qed.

(** ** Splitting what was joined *)
Lemma pieces_of_joined c ps :
  ps <> [] -> Forall (fun p => ~ In c p) ps -> pieces [c] (-1) (joined [c] ps) ps.
Proof.
  induction ps as [| p ps IH]; [congruence |]. intros _ F. inversion F as [| ? ? NP F']; subst.
  assert (NO : forall i, ~ occurs p [c] i).
  { intros i (b & a & -> & _). apply NP. rewrite in_app_iff. right. left. reflexivity. }
  destruct ps as [| q ps].
  - apply Whole. auto.
  - cbn [joined]. eapply Cut with (r := joined [c] (q :: ps)); [lia | reflexivity | |].
    + intros i OC. destruct (Z.le_gt_cases (zlen p) i) as [| LT]; auto. exfalso.
      apply occurs_pointwise in OC as (I & _ & V). change (zlen [c]) with 1 in V. specialize (V 0 ltac:(lia)). rewrite znth_app in V. destruct (Z.ltb_spec (i + 0) (zlen p)); [| lia].
      change (znth [c] 0) with (Some c) in V. apply NP. apply (znth_In _ _ _ V).
    + change (if 0 <? -1 then -1 - 1 else -1) with (-1). apply IH; [discriminate | auto].
Qed.

(** ** The pieces are strings *)
Lemma pieces_count sep limit s ps : sep <> [] -> pieces sep limit s ps -> zlen ps <= zlen s + 1.
Proof.
  intros N. induction 1 as [| limit s p r ps L E M P IH].
  - rewrite zlen_cons, zlen_nil. pose proof (zlen_nonneg s). lia.
  - subst s. rewrite zlen_cons, !zlen_app. pose proof (zlen_nonneg p). pose proof (zlen_nonneg r).
    assert (1 <= zlen sep) by (destruct sep; [congruence |]; rewrite zlen_cons; pose proof (zlen_nonneg sep); lia). lia.
Qed.

Lemma pieces_strings sep limit s ps : is_string s -> pieces sep limit s ps -> Forall is_string ps.
Proof.
  intros S P. induction P as [| limit s p r ps L E M P IH]; [auto |]. subst s. destruct S as [B SL].
  rewrite !zlen_app in SL. pose proof (zlen_nonneg p). pose proof (zlen_nonneg r). pose proof (zlen_nonneg sep).
  apply Forall_app in B as [B1 B]. apply Forall_app in B as [B2 B3].
  constructor; [split; auto; lia |]. apply IH. split; auto. lia.
Qed.
