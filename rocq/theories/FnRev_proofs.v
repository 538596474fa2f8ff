(** * Proofs about reverse_inplace, slice, memset_char and change_endian *)
From Verif Require Import Base CLib Array_model FnMem_model FnMem_spec FnMem_proofs.

Lemma elem_get_ok {A} (s : list A) i x : znth s i = Some x -> elem_get s i = Ret x.
Proof. unfold elem_get. intros ->. reflexivity. Qed.
Lemma elem_set_ok {A} (s : list A) i (x : A) : 0 <= i < zlen s -> elem_set s i x = Ret (zupd s i x).
Proof.
  intros. unfold elem_set. destruct (Z.leb_spec 0 i); [| lia]. destruct (Z.ltb_spec i (zlen s)); [| lia]. reflexivity.
Qed.

Lemma swap_loop_ok {A} (n : nat) : forall (s : list A) i,
  zlen s <= INT32_MAX -> 0 <= i -> 2 * (i + Z.of_nat n) <= zlen s ->
  exists s', swap_loop n s (zlen s) i = Ret s' /\ zlen s' = zlen s /\
    forall k, znth s' k =
      if ((i <=? k) && (k <? i + Z.of_nat n)) || ((zlen s - i - Z.of_nat n <=? k) && (k <? zlen s - i))
      then znth s (zlen s - 1 - k) else znth s k.
Proof.
  induction n as [| n IH]; intros s i L I B.
  - exists s. repeat split; auto. intros k.
    replace ((i <=? k) && (k <? i + Z.of_nat 0)) with false by lia.
    replace ((zlen s - i - Z.of_nat 0 <=? k) && (k <? zlen s - i)) with false by lia. reflexivity.
  - cbn [swap_loop].
    rewrite (wrap32_id (zlen s - i)), wrap32_id by (unfold in_i32; lia).
    destruct (znth_lt s i) as [x X]; [lia |].
    destruct (znth_lt s (zlen s - i - 1)) as [y Y]; [lia |].
    rewrite (elem_get_ok _ _ _ X), obind_ret, (elem_get_ok _ _ _ Y), obind_ret.
    rewrite elem_set_ok, obind_ret by lia.
    rewrite elem_set_ok, obind_ret by (rewrite zlen_upd; lia).
    set (s1 := zupd (zupd s i y) (zlen s - i - 1) x).
    assert (L1 : zlen s1 = zlen s) by (unfold s1; rewrite !zlen_upd; reflexivity).
    destruct (IH s1 (i + 1)) as (s' & E & L' & V); [rewrite ?L1; lia.. |].
    rewrite L1 in E, L', V. exists s'. repeat split; auto. intros k. rewrite V.
    assert (W : forall j, znth s1 j = if j =? zlen s - i - 1 then Some x else if j =? i then Some y else znth s j).
    { intros j. unfold s1. rewrite !znth_upd, zlen_upd.
      destruct (Z.eqb_spec j (zlen s - i - 1)); cbn [andb].
      - destruct (Z.leb_spec 0 (zlen s - i - 1)); [| lia]. destruct (Z.ltb_spec (zlen s - i - 1) (zlen s)); [| lia]. reflexivity.
      - destruct (Z.eqb_spec j i); cbn [andb]; auto.
        destruct (Z.leb_spec 0 i); [| lia]. destruct (Z.ltb_spec i (zlen s)); [| lia]. reflexivity. }
    rewrite !W.
    destruct (Z.eqb_spec k i) as [-> | K1].
    { replace (((i + 1 <=? i) && (i <? i + 1 + Z.of_nat n)) || ((zlen s - (i + 1) - Z.of_nat n <=? i) && (i <? zlen s - (i + 1)))) with false by lia.
      replace (((i <=? i) && (i <? i + Z.of_nat (S n))) || ((zlen s - i - Z.of_nat (S n) <=? i) && (i <? zlen s - i))) with true by lia.
      destruct (Z.eqb_spec i (zlen s - i - 1)); [lia |].
      replace (zlen s - 1 - i) with (zlen s - i - 1) by lia. auto. }
    destruct (Z.eqb_spec k (zlen s - i - 1)) as [-> | K2].
    { replace (((i + 1 <=? zlen s - i - 1) && (zlen s - i - 1 <? i + 1 + Z.of_nat n)) || ((zlen s - (i + 1) - Z.of_nat n <=? zlen s - i - 1) && (zlen s - i - 1 <? zlen s - (i + 1)))) with false by lia.
      replace (((i <=? zlen s - i - 1) && (zlen s - i - 1 <? i + Z.of_nat (S n))) || ((zlen s - i - Z.of_nat (S n) <=? zlen s - i - 1) && (zlen s - i - 1 <? zlen s - i))) with true by lia.
      replace (zlen s - 1 - (zlen s - i - 1)) with i by lia. auto. }
    replace (((i <=? k) && (k <? i + Z.of_nat (S n))) || ((zlen s - i - Z.of_nat (S n) <=? k) && (k <? zlen s - i)))
      with (((i + 1 <=? k) && (k <? i + 1 + Z.of_nat n)) || ((zlen s - (i + 1) - Z.of_nat n <=? k) && (k <? zlen s - (i + 1)))) by lia.
    destruct (((i + 1 <=? k) && (k <? i + 1 + Z.of_nat n)) || ((zlen s - (i + 1) - Z.of_nat n <=? k) && (k <? zlen s - (i + 1)))) eqn:G; auto.
    destruct (Z.eqb_spec (zlen s - 1 - k) (zlen s - i - 1)); [lia |].
    destruct (Z.eqb_spec (zlen s - 1 - k) i); [lia |]. reflexivity.
Qed.

Lemma znth_rev {A} (l : list A) k : 0 <= k < zlen l -> znth (rev l) k = znth l (zlen l - 1 - k).
Proof.
  revert k. induction l as [| x l IH]; intros k R.
  - change (zlen (@nil A)) with 0 in R. lia.
  - rewrite zlen_cons in *. cbn [rev]. rewrite znth_app, zlen_rev, (znth_cons x l).
    destruct (Z.ltb_spec k (zlen l)).
    + destruct (Z.eqb_spec (1 + zlen l - 1 - k) 0); [lia |].
      rewrite IH by lia. f_equal. lia.
    + destruct (Z.eqb_spec (1 + zlen l - 1 - k) 0); [| lia].
      replace (k - zlen l) with 0 by lia. reflexivity.
Qed.

Lemma half_facts L : 0 <= L -> 2 * (L ÷ 2) <= L /\ 0 <= L ÷ 2 /\ L < 2 * (L ÷ 2) + 2.
Proof. intros. rewrite Z.quot_div_nonneg by lia. pose proof (Z.div_mod L 2). pose proof (Z.mod_pos_bound L 2). lia. Qed.

Lemma swap_loop_rev {A} (s : list A) :
  zlen s <= INT32_MAX -> swap_loop (Z.to_nat (zlen s ÷ 2)) s (zlen s) 0 = Ret (rev s).
Proof.
  intros L. pose proof (half_facts (zlen s) (zlen_nonneg s)).
  destruct (swap_loop_ok (Z.to_nat (zlen s ÷ 2)) s 0) as (s' & E & L' & V); [lia.. |].
  rewrite E. f_equal. apply znth_ext. intros k K. rewrite V.
  destruct (Z.ltb_spec k (zlen s)).
  - rewrite znth_rev by lia.
    destruct (((0 <=? k) && (k <? 0 + Z.of_nat (Z.to_nat (zlen s ÷ 2)))) || ((zlen s - 0 - Z.of_nat (Z.to_nat (zlen s ÷ 2)) <=? k) && (k <? zlen s - 0))) eqn:G; auto.
    f_equal. lia.
  - replace (((0 <=? k) && (k <? 0 + Z.of_nat (Z.to_nat (zlen s ÷ 2)))) || ((zlen s - 0 - Z.of_nat (Z.to_nat (zlen s ÷ 2)) <=? k) && (k <? zlen s - 0))) with false by lia.
    rewrite (znth_ge (rev s)) by (rewrite zlen_rev; lia). apply znth_ge; auto.
Qed.

(** ** Heaps *)

Lemma heap_ok_app h b : heap_ok h -> blob_ok b -> heap_ok (h ++ [b]).
Proof. intros. apply Forall_app. auto. Qed.
Lemma int_sizes_app h b : int_sizes h -> zlen (b_data b) <= INT32_MAX -> int_sizes (h ++ [b]).
Proof. intros. apply Forall_app. auto. Qed.
Lemma heap_ok_upd h a b : heap_ok h -> blob_ok b -> heap_ok (zupd h a b).
Proof.
  intros H B. unfold heap_ok. rewrite Forall_forall. intros x I.
  apply In_znth in I. destruct I as (i & R & E). rewrite znth_upd in E.
  destruct ((i =? a) && (0 <=? a) && (a <? zlen h)); [congruence | apply (heap_ok_at _ _ _ H E)].
Qed.
Lemma int_sizes_upd h a b : int_sizes h -> zlen (b_data b) <= INT32_MAX -> int_sizes (zupd h a b).
Proof.
  intros H B. unfold int_sizes. rewrite Forall_forall. intros x I.
  apply In_znth in I. destruct I as (i & R & E). rewrite znth_upd in E.
  destruct ((i =? a) && (0 <=? a) && (a <? zlen h)); [congruence | apply (int_sizes_at _ _ _ H E)].
Qed.
Lemma int_sizes_after h d bd doff bs soff n :
  int_sizes h -> znth h d = Some bd -> 0 <= n ->
  inside (zlen (b_data bd)) doff n -> inside (zlen (b_data bs)) soff n ->
  int_sizes (after_copy h d bd doff bs soff n).
Proof.
  unfold inside. intros. apply int_sizes_upd; auto. cbn [b_data with_data].
  rewrite zlen_blit; [apply (int_sizes_at _ _ _ H H0) | lia |]. rewrite zlen_sub. lia.
Qed.

Lemma znth_app_l {A} (l l' : list A) i : 0 <= i < zlen l -> znth (l ++ l') i = znth l i.
Proof. intros. rewrite znth_app. destruct (Z.ltb_spec i (zlen l)); [auto | lia]. Qed.
Lemma znth_snoc {A} (l : list A) x : znth (l ++ [x]) (zlen l) = Some x.
Proof.
  rewrite znth_app. destruct (Z.ltb_spec (zlen l) (zlen l)); [lia |].
  replace (zlen l - zlen l) with 0 by lia. reflexivity.
Qed.

Lemma zupd_snoc {A} (l : list A) x y : zupd (l ++ [x]) (zlen l) y = l ++ [y].
Proof.
  unfold zupd. rewrite zlen_app, zlen_cons. change (zlen (@nil A)) with 0. pose proof (zlen_nonneg l).
  destruct (Z.leb_spec 0 (zlen l)); [| lia]. destruct (Z.ltb_spec (zlen l) (zlen l + (1 + 0))); [| lia]. cbn [andb].
  rewrite ztake_app_l, ztake_all by lia. rewrite zdrop_all; [reflexivity |].
  rewrite zlen_app, zlen_cons. change (zlen (@nil A)) with 0. lia.
Qed.
Lemma zupd_app_l {A} (l l' : list A) i y : 0 <= i < zlen l -> zupd (l ++ l') i y = zupd l i y ++ l'.
Proof.
  intros. unfold zupd. rewrite zlen_app. pose proof (zlen_nonneg l').
  destruct (Z.leb_spec 0 i); [| lia]. destruct (Z.ltb_spec i (zlen l + zlen l')); [| lia].
  destruct (Z.ltb_spec i (zlen l)); [| lia]. cbn [andb].
  rewrite ztake_app_l, zdrop_app_l by lia. rewrite <- app_assoc. reflexivity.
Qed.
Lemma zupd_same {A} (l : list A) i x : znth l i = Some x -> zupd l i x = l.
Proof.
  intros. apply znth_ext. intros j J. rewrite znth_upd. destruct (Z.eqb_spec j i); cbn [andb]; auto.
  subst. destruct ((0 <=? i) && (i <? zlen l)) eqn:E; cbn [andb]; auto.
Qed.

Lemma reverse_string h a b :
  heap_ok h -> int_sizes h -> znth h a = Some b -> b_kind b = KString -> b_read_only b = false ->
  reverse_inplace h (Some a) = Ret (zupd h a (with_data b (rev (b_data b)))).
Proof.
  intros H IS A K RO. unfold reverse_inplace. rewrite A, K, RO. cbn [negb].
  pose proof (heap_ok_at _ _ _ H A) as (E1 & E2 & E3 & E4 & _). specialize (E4 K).
  assert (L : b_length b = zlen (b_data b)) by (rewrite E3, E4; lia). rewrite L.
  rewrite swap_loop_rev by apply (int_sizes_at _ _ _ IS A). reflexivity.
Qed.

(** ** change_endian *)

(** Its effect: the range is replaced by its reverse; a work buffer is left at
    the end of the heap. *)
Lemma change_endian_ok h a b size offset :
  heap_ok h -> int_sizes h -> znth h a = Some b -> b_kind b = KString -> b_read_only b = false ->
  0 < size -> 0 <= offset -> offset + size <= zlen (b_data b) ->
  exists h' junk, change_endian h (Some a) size offset = Ret h' /\ heap_ok h' /\ int_sizes h' /\
    h' = zupd h a (with_data b (zblit (b_data b) offset (rev (zsub (b_data b) offset size)))) ++ junk.
Proof.
  intros H IS A K RO S O B. pose proof (znth_Some _ _ _ A) as RA.
  pose proof (heap_ok_at _ _ _ H A) as BO. destruct BO as (E1 & E2 & E3 & E4 & E5). specialize (E4 K).
  pose proof (int_sizes_at _ _ _ IS A) as SA.
  assert (L : b_length b = zlen (b_data b)) by (rewrite E3, E4; lia).
  unfold change_endian. destruct (Z.gtb_spec size 0); [| lia]. destruct (Z.geb_spec offset 0); [| lia].
  rewrite A. rewrite wrap32_id by (unfold in_i32; lia). rewrite L.
  destruct (Z.leb_spec (offset + size) (zlen (b_data b))); [| lia].
  destruct (Z.eqb_spec size 1) as [-> | S1].
  { exists h, []. repeat split; auto. rewrite app_nil_r.
    destruct (znth_lt (b_data b) offset) as [x X]; [lia |].
    assert (E : zsub (b_data b) offset 1 = [x]).
    { apply znth_ext. intros i Hi. rewrite znth_sub, znth_cons, znth_nil.
      destruct (Z.eqb_spec i 0).
      - subst. replace (Z.max 0 offset + 0) with offset by lia. auto.
      - destruct (Z.ltb_spec i 1); [lia |]. rewrite andb_false_r. reflexivity. }
    rewrite E. cbn [rev app]. rewrite zupd_same; auto. rewrite A. f_equal.
    replace (zblit (b_data b) offset [x]) with (b_data b); [destruct b; reflexivity |].
    apply znth_ext. intros j Hj. rewrite znth_blit by lia. rewrite zlen_cons, zlen_nil, znth_cons, znth_nil.
    destruct (Z.leb_spec offset j); cbn [andb]; auto.
    destruct (Z.ltb_spec j (offset + (1 + 0))); auto.
    destruct (Z.eqb_spec (j - offset) 0); [| lia]. replace j with offset by lia. auto. }
  set (buf := mk_blob KString false 1 size (zrep size 0)).
  assert (BB : blob_ok buf).
  { unfold blob_ok, buf. cbn. rewrite zlen_rep. repeat split; auto; lia. }
  assert (LB : zlen (b_data buf) = size) by (cbn; rewrite zlen_rep; lia).
  assert (A1 : znth (h ++ [buf]) a = Some b) by (rewrite znth_app_l; auto).
  assert (B1 : znth (h ++ [buf]) (zlen h) = Some buf) by apply znth_snoc.
  unfold fn_memcpy at 1.
  rewrite (fn_copy_ok false _ (zlen h) buf 0 a b offset size);
    [ | apply heap_ok_app; auto | apply int_sizes_app; auto; lia | auto | auto | auto
      | unfold is_raw; rewrite K; auto | auto | lia | unfold inside; lia | unfold inside; lia
      | intros _ (X & _); injection X; lia].
  rewrite obind_ret.
  set (h1 := after_copy (h ++ [buf]) (zlen h) buf 0 b offset size).
  assert (Hh1 : heap_ok h1).
  { apply after_copy_ok; auto; [apply heap_ok_app; auto | lia | unfold inside; lia | unfold inside; lia]. }
  assert (Ih1 : int_sizes h1).
  { apply int_sizes_after; auto; [apply int_sizes_app; auto; lia | lia | unfold inside; lia | unfold inside; lia]. }
  assert (E1h : h1 = h ++ [with_data buf (zsub (b_data b) offset size)]).
  { unfold h1, after_copy. rewrite zupd_snoc. do 3 f_equal.
    apply znth_ext. intros j Hj. rewrite znth_blit by (rewrite ?LB; lia).
    cbn [b_data buf]. rewrite zlen_sub, znth_rep. rewrite Z.sub_0_r.
    destruct (Z.leb_spec 0 j); [| lia]. cbn [andb].
    destruct (Z.ltb_spec j (0 + Z.min (Z.max 0 size) (Z.max 0 (zlen (b_data b) - Z.max 0 offset)))); auto.
    destruct (Z.ltb_spec j size); [lia |]. rewrite znth_ge; auto. rewrite zlen_sub; lia. }
  set (buf1 := with_data buf (zsub (b_data b) offset size)) in *.
  assert (B2 : znth h1 (zlen h) = Some buf1) by (rewrite E1h; apply znth_snoc).
  rewrite (reverse_string h1 (zlen h) buf1); auto. rewrite obind_ret.
  set (buf2 := with_data buf1 (rev (b_data buf1))).
  assert (LB2 : zlen (b_data buf2) = size).
  { unfold buf2, buf1. cbn. rewrite zlen_rev, zlen_sub. lia. }
  assert (BB2 : blob_ok buf2).
  { unfold blob_ok. rewrite LB2. unfold buf2, buf1, buf. cbn. repeat split; auto; lia. }
  assert (E2h : zupd h1 (zlen h) buf2 = h ++ [buf2]).
  { rewrite E1h. apply zupd_snoc. }
  rewrite E2h.
  assert (A3 : znth (h ++ [buf2]) a = Some b) by (rewrite znth_app_l; auto).
  assert (B3 : znth (h ++ [buf2]) (zlen h) = Some buf2) by apply znth_snoc.
  assert (Hh2 : heap_ok (h ++ [buf2])) by (apply heap_ok_app; auto).
  assert (Ih2 : int_sizes (h ++ [buf2])) by (apply int_sizes_app; auto; lia).
  unfold fn_memcpy.
  rewrite (fn_copy_ok false _ a b offset (zlen h) buf2 0 size);
    [ | auto | auto | auto | auto | unfold is_raw; rewrite K; auto | auto | auto | lia
      | unfold inside; lia | unfold inside; lia | intros _ (X & _); injection X; lia].
  exists (after_copy (h ++ [buf2]) a b offset buf2 0 size), [buf2]. repeat split.
  - apply after_copy_ok; auto; [lia | unfold inside; lia | unfold inside; lia].
  - apply int_sizes_after; auto; [lia | unfold inside; lia | unfold inside; lia].
  - unfold after_copy. replace (zsub (b_data buf2) 0 size) with (rev (zsub (b_data b) offset size)).
    2: { change (rev (zsub (b_data b) offset size)) with (b_data buf2).
         unfold zsub. rewrite zdrop_0, ztake_all by lia. reflexivity. }
    apply zupd_app_l; auto.
Qed.

Lemma range_reversed_of h a b size offset junk :
  znth h a = Some b -> 0 < size -> 0 <= offset -> offset + size <= zlen (b_data b) ->
  range_reversed h (zupd h a (with_data b (zblit (b_data b) offset (rev (zsub (b_data b) offset size)))) ++ junk)
    a offset size.
Proof.
  intros A S O B. pose proof (znth_Some _ _ _ A) as RA.
  assert (L : zlen (rev (zsub (b_data b) offset size)) = size) by (rewrite zlen_rev, zlen_sub; lia).
  split.
  - intros x X. unfold header. rewrite znth_app_l by (rewrite zlen_upd; auto). rewrite znth_upd.
    destruct (Z.eqb_spec x a); cbn [andb]; auto. subst.
    destruct (Z.leb_spec 0 a); [| lia]. destruct (Z.ltb_spec a (zlen h)); [| lia]. cbn [andb].
    rewrite A. cbn. rewrite zlen_blit by lia. reflexivity.
  - intros x i X. unfold byte_at. rewrite znth_app_l by (rewrite zlen_upd; auto). rewrite znth_upd.
    destruct (Z.eqb_spec x a); cbn [andb]; auto. subst.
    destruct (Z.leb_spec 0 a); [| lia]. destruct (Z.ltb_spec a (zlen h)); [| lia]. cbn [andb].
    rewrite A. cbn [b_data with_data]. rewrite znth_blit by lia. rewrite L.
    destruct (Z.leb_spec offset i); cbn [andb]; auto.
    destruct (Z.ltb_spec i (offset + size)); auto.
    rewrite znth_rev by (rewrite zlen_rev in L; lia).
    rewrite zlen_rev in L. rewrite L, znth_sub.
    destruct (Z.leb_spec 0 (size - 1 - (i - offset))); [| lia].
    destruct (Z.ltb_spec (size - 1 - (i - offset)) size); [| lia]. cbn [andb]. f_equal. lia.
Qed.

(** ** memset_char *)

Lemma memset_loop_ok n : forall s char offset i,
  zlen s <= INT32_MAX -> 0 <= offset -> 0 <= i -> offset + i + Z.of_nat n <= zlen s ->
  exists s', memset_loop n s char offset i = (s', Ret tt) /\ zlen s' = zlen s /\
    forall k, znth s' k = if (offset + i <=? k) && (k <? offset + i + Z.of_nat n) then Some (to_byte char) else znth s k.
Proof.
  induction n as [| n IH]; intros s char offset i L O I B.
  - exists s. repeat split; auto. intros k.
    replace ((offset + i <=? k) && (k <? offset + i + Z.of_nat 0)) with false by lia. reflexivity.
  - cbn [memset_loop]. rewrite wrap32_id by (unfold in_i32; lia). rewrite elem_set_ok by lia.
    destruct (IH (zupd s (offset + i) (to_byte char)) char offset (i + 1)) as (s' & E & L' & V);
      [rewrite ?zlen_upd; lia.. |].
    rewrite zlen_upd in L'. exists s'. repeat split; auto. intros k. rewrite V, znth_upd.
    destruct (Z.eqb_spec k (offset + i)).
    + subst k.
      replace ((offset + (i + 1) <=? offset + i) && (offset + i <? offset + (i + 1) + Z.of_nat n)) with false by lia.
      replace ((offset + i <=? offset + i) && (offset + i <? offset + i + Z.of_nat (S n))) with true by lia.
      destruct (Z.leb_spec 0 (offset + i)); [| lia]. destruct (Z.ltb_spec (offset + i) (zlen s)); [| lia]. reflexivity.
    + replace ((offset + i <=? k) && (k <? offset + i + Z.of_nat (S n)))
        with ((offset + (i + 1) <=? k) && (k <? offset + (i + 1) + Z.of_nat n)) by lia. reflexivity.
Qed.

Lemma memset_char_ok s char offset length :
  zlen s <= INT32_MAX -> 0 <= offset -> 0 <= length -> offset + length <= zlen s ->
  memset_char s char offset length = (zblit s offset (zrep length (to_byte char)), Ret tt).
Proof.
  intros L O N B. unfold memset_char. destruct (Z.geb_spec offset 0); [| lia]. cbn [negb].
  destruct (Z.ltb_spec length 0); [lia |]. rewrite wrap32_id by (unfold in_i32; lia).
  destruct (Z.leb_spec (offset + length) (zlen s)); [| lia]. cbn [negb].
  destruct (memset_loop_ok (Z.to_nat length) s char offset 0) as (s' & E & L' & V); [lia.. |].
  rewrite E. f_equal. apply znth_ext. intros k K. rewrite V, znth_blit, zlen_rep, znth_rep by lia.
  replace (offset + 0 + Z.of_nat (Z.to_nat length)) with (offset + length) by lia.
  replace (offset + Z.max 0 length) with (offset + length) by lia. rewrite Z.add_0_r.
  destruct (Z.leb_spec offset k); cbn [andb]; auto. destruct (Z.ltb_spec k (offset + length)); auto.
  destruct (Z.leb_spec 0 (k - offset)); [| lia]. destruct (Z.ltb_spec (k - offset) length); [| lia]. reflexivity.
Qed.

(** ** Reversal of number arrays *)

Lemma block_pos e i k j : 0 <= j < e -> (e * i <=? e * k + j) && (e * k + j <? e * i + e) = (k =? i).
Proof.
  intros J. destruct (Z.eqb_spec k i) as [-> | N]; [lia |].
  destruct (Z.ltb_spec k i).
  - assert (e * (k + 1) <= e * i) by (apply Z.mul_le_mono_nonneg_l; lia). lia.
  - assert (e * (i + 1) <= e * k) by (apply Z.mul_le_mono_nonneg_l; lia). lia.
Qed.

Lemma elem_inside e i L : 0 < e -> 0 <= i < L -> 0 <= e * i /\ e * i + e <= e * L.
Proof.
  intros. assert (e * (i + 1) <= e * L) by (apply Z.mul_le_mono_nonneg_l; lia).
  assert (0 <= e * i) by (apply Z.mul_nonneg_nonneg; lia). lia.
Qed.

Lemma znth_zblit_sub {A} (d s : list A) off soff n k :
  0 <= off -> 0 <= n -> off + n <= zlen d -> 0 <= soff -> soff + n <= zlen s ->
  znth (zblit d off (zsub s soff n)) k =
  if (off <=? k) && (k <? off + n) then znth s (soff + (k - off)) else znth d k.
Proof.
  intros. assert (L : zlen (zsub s soff n) = n) by (rewrite zlen_sub; lia).
  rewrite znth_blit by lia. rewrite L, znth_sub.
  destruct (Z.leb_spec off k); cbn [andb]; auto. destruct (Z.ltb_spec k (off + n)); auto.
  destruct (Z.leb_spec 0 (k - off)); [| lia]. destruct (Z.ltb_spec (k - off) n); [| lia]. cbn [andb].
  f_equal. lia.
Qed.
Lemma zlen_zblit_sub {A} (d s : list A) off soff n :
  0 <= off -> 0 <= n -> off + n <= zlen d -> 0 <= soff -> soff + n <= zlen s ->
  zlen (zblit d off (zsub s soff n)) = zlen d.
Proof. intros. apply zlen_blit; auto. rewrite zlen_sub. lia. Qed.

Definition swapped (e L : Z) (i n k : Z) : bool :=
  ((i <=? k) && (k <? i + n)) || ((L - i - n <=? k) && (k <? L - i)).

Section ElemSwap.
  Variables (e L : Z).
  Hypothesis E0 : 0 < e.
  Hypothesis SZ : e * L <= INT32_MAX.

  (** One iteration on the data. *)
  Lemma swap_step (D T : list Z) i :
    zlen D = e * L -> zlen T = e -> 0 <= i -> 2 * i + 2 <= L ->
    let lo := e * i in let hi := e * (L - i - 1) in
    let T1 := zblit T 0 (zsub D lo e) in
    let D1 := zblit D lo (zsub D hi e) in
    let D2 := zblit D1 hi (zsub T1 0 e) in
    zlen T1 = e /\ zlen D1 = e * L /\ zlen D2 = e * L /\
    forall k j, 0 <= k < L -> 0 <= j < e ->
      znth D2 (e * k + j) = if (k =? i) || (k =? L - i - 1) then znth D (e * (L - 1 - k) + j) else znth D (e * k + j).
  Proof.
    intros LD LT I B lo hi T1 D1 D2.
    pose proof (elem_inside e i L E0 ltac:(lia)) as [P1 P2]. fold lo in P1, P2.
    pose proof (elem_inside e (L - i - 1) L E0 ltac:(lia)) as [P3 P4]. fold hi in P3, P4.
    assert (LT1 : zlen T1 = e) by (unfold T1; rewrite zlen_zblit_sub; lia).
    assert (LD1 : zlen D1 = e * L) by (unfold D1; rewrite zlen_zblit_sub; lia).
    assert (LD2 : zlen D2 = e * L) by (unfold D2; rewrite zlen_zblit_sub; lia).
    repeat split; auto. intros k j K J.
    unfold D2. rewrite znth_zblit_sub by lia. unfold hi at 1 2. rewrite block_pos by auto.
    destruct (Z.eqb_spec k (L - i - 1)) as [-> | N].
    - rewrite orb_true_r. unfold T1. rewrite znth_zblit_sub by lia.
      replace (0 + (e * (L - i - 1) + j - hi)) with j by (unfold hi; lia).
      destruct (Z.leb_spec 0 j); [| lia]. destruct (Z.ltb_spec j (0 + e)); [| lia]. cbn [andb].
      f_equal. unfold lo. replace (L - 1 - (L - i - 1)) with i by lia. lia.
    - rewrite orb_false_r. unfold D1. rewrite znth_zblit_sub by lia. unfold lo at 1 2. rewrite block_pos by auto.
      destruct (Z.eqb_spec k i); auto. subst. f_equal. unfold hi, lo.
      replace (L - 1 - i) with (L - i - 1) by lia. lia.
  Qed.

  Lemma elem_swap_ok n : forall h a b T i,
    heap_ok h -> int_sizes h -> znth h a = Some b -> is_raw b = true -> b_read_only b = false ->
    zlen (b_data b) = e * L -> L <= INT32_MAX -> e <= INT32_MAX -> zlen T = e ->
    0 <= i -> 2 * (i + Z.of_nat n) <= L ->
    exists D' T', elem_swap_loop n (h ++ [mk_blob KNumArray false 1 e T]) (zlen h) a e L i =
        Ret (zupd h a (with_data b D') ++ [mk_blob KNumArray false 1 e T']) /\ zlen D' = e * L /\
      forall k j, 0 <= k < L -> 0 <= j < e ->
        znth D' (e * k + j) = if swapped e L i (Z.of_nat n) k then znth (b_data b) (e * (L - 1 - k) + j)
                              else znth (b_data b) (e * k + j).
  Proof.
    induction n as [| n IH]; intros h a b T i H IS A R RO LD LL LE LT I B.
    - exists (b_data b), T. repeat split; auto.
      + cbn [elem_swap_loop]. do 2 f_equal. symmetry. apply zupd_same. rewrite A. destruct b; reflexivity.
      + intros k j K J. unfold swapped.
        replace ((i <=? k) && (k <? i + Z.of_nat 0)) with false by lia.
        replace ((L - i - Z.of_nat 0 <=? k) && (k <? L - i)) with false by lia. reflexivity.
    - cbn [elem_swap_loop]. pose proof (znth_Some _ _ _ A) as RA.
      pose proof (elem_inside e i L E0 ltac:(lia)) as [P1 P2].
      pose proof (elem_inside e (L - i - 1) L E0 ltac:(lia)) as [P3 P4].
      pose proof (heap_ok_at _ _ _ H A) as BO.
      rewrite (wrap32_id (L - i)), (wrap32_id (L - i - 1)), (wrap32_id (e * i)), (wrap32_id (e * (L - i - 1)))
        by (unfold in_i32; lia).
      pose proof (swap_step (b_data b) T i LD LT I ltac:(lia)) as ST. cbv zeta in ST.
      set (lo := e * i) in *. set (hi := e * (L - i - 1)) in *.
      set (T1 := zblit T 0 (zsub (b_data b) lo e)) in *.
      set (D1 := zblit (b_data b) lo (zsub (b_data b) hi e)) in *.
      set (D2 := zblit D1 hi (zsub T1 0 e)) in *.
      destruct ST as (LT1 & LD1 & LD2 & V).
      set (mkT := fun T => mk_blob KNumArray false 1 e T).
      change (mk_blob KNumArray false 1 e T) with (mkT T).
      assert (TO : forall T, zlen T = e -> blob_ok (mkT T)).
      { intros T0 L0. unfold blob_ok, mkT. cbn. repeat split; try lia; intros X; discriminate. }
      assert (DO : forall D, zlen D = e * L -> blob_ok (with_data b D)).
      { intros D L0. destruct BO as (O1 & O2 & O3 & O4). unfold blob_ok. cbn. repeat split; auto; try lia; apply O4. }
      assert (RR : forall D, is_raw (with_data b D) = true) by (intros; exact R).
      assert (SL : e * L <= INT32_MAX) by exact SZ.
      assert (NO : lo + e <= hi).
      { unfold lo, hi. assert (e * (i + 1) <= e * (L - i - 1)) by (apply Z.mul_le_mono_nonneg_l; lia). lia. }
      unfold fn_memcpy.
      rewrite (fn_copy_ok false (h ++ [mkT T]) (zlen h) (mkT T) 0 a b lo e);
        [ | apply heap_ok_app; auto | apply int_sizes_app; auto; cbn; lia | apply znth_snoc
          | rewrite znth_app_l; auto | auto | auto | auto | lia | unfold inside; cbn; lia | unfold inside; lia
          | intros _ (X & _); injection X; lia].
      rewrite obind_ret. unfold after_copy at 1. rewrite zupd_snoc. cbn [b_data mkT with_data]. fold T1.
      change (with_data (mkT T) T1) with (mkT T1).
      rewrite (fn_copy_ok false (h ++ [mkT T1]) a b lo a b hi e);
        [ | apply heap_ok_app; auto | apply int_sizes_app; auto; cbn; lia | rewrite znth_app_l; auto
          | rewrite znth_app_l; auto | auto | auto | auto | lia | unfold inside; lia | unfold inside; lia
          | intros _ (_ & X1 & X2); lia].
      rewrite obind_ret. unfold after_copy at 1. rewrite zupd_app_l by auto. fold D1.
      set (b1 := with_data b D1). set (h1 := zupd h a b1).
      assert (A1 : znth h1 a = Some b1).
      { unfold h1. rewrite znth_upd. rewrite Z.eqb_refl.
        destruct (Z.leb_spec 0 a); [| lia]. destruct (Z.ltb_spec a (zlen h)); [| lia]. reflexivity. }
      assert (Z1 : zlen h1 = zlen h) by apply zlen_upd.
      assert (H1 : heap_ok h1) by (apply heap_ok_upd; auto; apply DO; auto).
      assert (I1 : int_sizes h1) by (apply int_sizes_upd; auto; cbn; lia).
      assert (S1 : znth (h1 ++ [mkT T1]) (zlen h) = Some (mkT T1)) by (rewrite <- Z1; apply znth_snoc).
      assert (LL1 : zlen (b_data b1) = e * L) by exact LD1.
      rewrite (fn_copy_ok false (h1 ++ [mkT T1]) a b1 hi (zlen h) (mkT T1) 0 e);
        [ | apply heap_ok_app; auto | apply int_sizes_app; auto; cbn; lia | rewrite znth_app_l by lia; auto
          | auto | apply RR | auto | auto | lia | unfold inside; lia | unfold inside; cbn; lia
          | intros _ (X & _); injection X; lia].
      rewrite obind_ret. unfold after_copy. rewrite zupd_app_l by lia. cbn [b_data mkT b1 with_data]. fold D2.
      change (with_data b1 D2) with (with_data b D2).
      assert (HH : zupd h1 a (with_data b D2) = zupd h a (with_data b D2)).
      { unfold h1. apply znth_ext. intros x X. rewrite !znth_upd, !zlen_upd.
        destruct ((x =? a) && (0 <=? a) && (a <? zlen h)); auto. }
      rewrite HH. set (h2 := zupd h a (with_data b D2)).
      assert (A2 : znth h2 a = Some (with_data b D2)).
      { unfold h2. rewrite znth_upd. rewrite Z.eqb_refl.
        destruct (Z.leb_spec 0 a); [| lia]. destruct (Z.ltb_spec a (zlen h)); [| lia]. reflexivity. }
      assert (Z2 : zlen h2 = zlen h) by apply zlen_upd.
      destruct (IH h2 a (with_data b D2) T1 (i + 1)) as (D' & T' & E & LD' & V'); auto.
      { apply heap_ok_upd; auto. }
      { apply int_sizes_upd; auto. cbn. lia. }
      { lia. }
      { lia. }
      rewrite Z2 in E. exists D', T'. repeat split; auto.
      + fold (mkT T1) in E. rewrite E. do 2 f_equal. unfold h2. apply znth_ext. intros x X.
        rewrite !znth_upd, !zlen_upd. destruct ((x =? a) && (0 <=? a) && (a <? zlen h)); auto.
      + intros k j K J. rewrite V' by auto. cbn [b_data with_data].
        rewrite (V (L - 1 - k)) by lia. rewrite (V k) by lia.
        unfold swapped.
        destruct (Z.eqb_spec k i) as [-> | K1].
        { replace (((i + 1 <=? i) && (i <? i + 1 + Z.of_nat n)) || ((L - (i + 1) - Z.of_nat n <=? i) && (i <? L - (i + 1)))) with false by lia.
          replace (((i <=? i) && (i <? i + Z.of_nat (S n))) || ((L - i - Z.of_nat (S n) <=? i) && (i <? L - i))) with true by lia.
          reflexivity. }
        destruct (Z.eqb_spec k (L - i - 1)) as [-> | K2].
        { replace (((i + 1 <=? L - i - 1) && (L - i - 1 <? i + 1 + Z.of_nat n)) || ((L - (i + 1) - Z.of_nat n <=? L - i - 1) && (L - i - 1 <? L - (i + 1)))) with false by lia.
          replace (((i <=? L - i - 1) && (L - i - 1 <? i + Z.of_nat (S n))) || ((L - i - Z.of_nat (S n) <=? L - i - 1) && (L - i - 1 <? L - i))) with true by lia.
          reflexivity. }
        replace (((i <=? k) && (k <? i + Z.of_nat (S n))) || ((L - i - Z.of_nat (S n) <=? k) && (k <? L - i)))
          with (((i + 1 <=? k) && (k <? i + 1 + Z.of_nat n)) || ((L - (i + 1) - Z.of_nat n <=? k) && (k <? L - (i + 1)))) by lia.
        destruct (((i + 1 <=? k) && (k <? i + 1 + Z.of_nat n)) || ((L - (i + 1) - Z.of_nat n <=? k) && (k <? L - (i + 1)))); auto.
        destruct (Z.eqb_spec (L - 1 - k) i); [lia |]. destruct (Z.eqb_spec (L - 1 - k) (L - i - 1)); [lia |]. reflexivity.
  Qed.
End ElemSwap.

Lemma reversed_of h a b D' junk :
  blob_ok b -> znth h a = Some b -> zlen D' = zlen (b_data b) ->
  (forall k j, 0 <= k < b_length b -> 0 <= j < b_elem_size b ->
     znth D' (b_elem_size b * k + j) = znth (b_data b) (b_elem_size b * (b_length b - 1 - k) + j)) ->
  reversed h (zupd h a (with_data b D') ++ junk) a.
Proof.
  intros BO A LD V. pose proof (znth_Some _ _ _ A) as RA.
  assert (U : forall x, 0 <= x < zlen h -> znth (zupd h a (with_data b D') ++ junk) x =
    if x =? a then Some (with_data b D') else znth h x).
  { intros x X. rewrite znth_app_l by (rewrite zlen_upd; auto). rewrite znth_upd.
    destruct (Z.eqb_spec x a); cbn [andb]; auto. subst.
    destruct (Z.leb_spec 0 a); [| lia]. destruct (Z.ltb_spec a (zlen h)); [| lia]. reflexivity. }
  split; [| split].
  - intros x X. unfold header. rewrite U by auto. destruct (Z.eqb_spec x a); auto. subst.
    rewrite A. cbn. rewrite LD. reflexivity.
  - intros x i X N. unfold byte_at. rewrite U by auto. destruct (Z.eqb_spec x a); [lia | auto].
  - intros b' A' k j K J. rewrite A in A'. injection A' as <-. unfold byte_at. rewrite U by auto.
    rewrite Z.eqb_refl, A. apply V; auto.
Qed.

Lemma reverse_inplace_ok h a b :
  heap_ok h -> int_sizes h -> znth h a = Some b -> is_raw b = true -> b_read_only b = false ->
  b_elem_size b <= INT32_MAX ->
  exists h', reverse_inplace h (Some a) = Ret h' /\ reversed h h' a.
Proof.
  intros H IS A R RO LE. pose proof (heap_ok_at _ _ _ H A) as BO. pose proof BO as (O1 & O2 & O3 & O4 & O5).
  pose proof (int_sizes_at _ _ _ IS A) as SA.
  assert (HF := half_facts (b_length b) ltac:(lia)).
  assert (NUM : b_kind b = KNumArray \/ b_kind b = KMulArray ->
    exists h', reverse_inplace h (Some a) = Ret h' /\ reversed h h' a).
  { intros K.
    destruct (elem_swap_ok (b_elem_size b) (b_length b) O1 ltac:(lia) (Z.to_nat (b_length b ÷ 2)) h a b
                (zrep (b_elem_size b) 0) 0) as (D' & T' & E & LD & V); auto; try lia.
    { rewrite zlen_rep. lia. }
    eexists. split.
    - unfold reverse_inplace. rewrite A. destruct K as [-> | ->]; exact E.
    - apply reversed_of; auto; [congruence |]. intros k j K' J. rewrite V by auto.
      destruct (swapped (b_elem_size b) (b_length b) 0 (Z.of_nat (Z.to_nat (b_length b ÷ 2))) k) eqn:G; auto.
      unfold swapped in G. do 2 f_equal. replace (b_length b - 1 - k) with k by lia. reflexivity. }
  destruct (b_kind b) eqn:K; auto.
  - rewrite (reverse_string h a b) by auto. eexists. split; [reflexivity |].
    rewrite <- (app_nil_r (zupd _ _ _)). apply reversed_of; auto; [apply zlen_rev |].
    specialize (O4 eq_refl). rewrite O4 in *. intros k j K' J.
    rewrite znth_rev by lia. f_equal. lia.
  - unfold is_raw in R. rewrite K in R. discriminate.
Qed.
