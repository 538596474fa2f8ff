(** * Proofs about raw byte copy and comparison *)
From Verif Require Import Base CLib Array_model FnMem_model FnMem_spec.

Lemma heap_ok_at h a b : heap_ok h -> znth h a = Some b -> blob_ok b.
Proof. intros H E. apply znth_In in E. unfold heap_ok in H. rewrite Forall_forall in H. auto. Qed.
Lemma int_sizes_at h a b : int_sizes h -> znth h a = Some b -> zlen (b_data b) <= INT32_MAX.
Proof. intros H E. apply znth_In in E. unfold int_sizes in H. rewrite Forall_forall in H. auto. Qed.

Lemma byte_length_ok b : blob_ok b -> zlen (b_data b) <= INT32_MAX -> byte_length b = Ret (zlen (b_data b)).
Proof.
  intros (E & L & D & _) S. unfold byte_length, c_mul. rewrite <- D. pose proof (zlen_nonneg (b_data b)).
  destruct (Z.leb_spec INT32_MIN (zlen (b_data b))); [| lia].
  destruct (Z.leb_spec (zlen (b_data b)) INT32_MAX); [| lia]. reflexivity.
Qed.

Lemma c_add_range a b : in_i32 (a + b) -> c_add a b = Ret (a + b).
Proof.
  unfold in_i32, c_add. intros.
  destruct (Z.leb_spec INT32_MIN (a + b)); [| lia].
  destruct (Z.leb_spec (a + b) INT32_MAX); [| lia]. reflexivity.
Qed.

Lemma block_copy_ok {A} (d : list A) doff s soff n :
  0 <= n -> inside (zlen d) doff n -> inside (zlen s) soff n ->
  block_copy d doff s soff n = Ret (zblit d doff (zsub s soff n)).
Proof.
  unfold inside, block_copy. intros.
  destruct (Z.leb_spec 0 n); [| lia]. destruct (Z.leb_spec 0 doff); [| lia].
  destruct (Z.leb_spec (doff + n) (zlen d)); [| lia]. destruct (Z.leb_spec 0 soff); [| lia].
  destruct (Z.leb_spec (soff + n) (zlen s)); [| lia]. reflexivity.
Qed.

(** What a call leaves behind when it copies. *)
Definition after_copy (h : heap) (d : Z) (bd : blob) (doff : Z) (bs : blob) (soff n : Z) : heap :=
  zupd h d (with_data bd (zblit (b_data bd) doff (zsub (b_data bs) soff n))).

Lemma after_copy_copied h d bd doff s bs soff n :
  znth h d = Some bd -> znth h s = Some bs -> 0 <= n ->
  inside (zlen (b_data bd)) doff n -> inside (zlen (b_data bs)) soff n ->
  copied h (after_copy h d bd doff bs soff n) d doff s soff n.
Proof.
  unfold inside. intros D S N I1 I2. unfold after_copy.
  pose proof (znth_Some _ _ _ D).
  assert (L : zlen (zsub (b_data bs) soff n) = n) by (rewrite zlen_sub; lia).
  split.
  - intros a. unfold header. rewrite znth_upd.
    destruct (Z.eqb_spec a d); cbn [andb]; auto. subst.
    destruct (Z.leb_spec 0 d); [| lia]. destruct (Z.ltb_spec d (zlen h)); [| lia]. cbn [andb].
    rewrite D. cbn [b_kind b_read_only b_elem_size b_length b_data with_data].
    rewrite zlen_blit by lia. reflexivity.
  - intros a i. unfold byte_at. rewrite znth_upd.
    destruct (Z.eqb_spec a d); cbn [andb]; auto. subst.
    destruct (Z.leb_spec 0 d); [| lia]. destruct (Z.ltb_spec d (zlen h)); [| lia]. cbn [andb].
    rewrite D, S. cbn [b_data with_data].
    rewrite znth_blit by lia. rewrite L, znth_sub.
    destruct (Z.leb_spec doff i); cbn [andb]; auto.
    destruct (Z.ltb_spec i (doff + n)); auto.
    destruct (Z.leb_spec 0 (i - doff)); [| lia].
    destruct (Z.ltb_spec (i - doff) n); [| lia]. cbn [andb]. f_equal. lia.
Qed.

Lemma after_copy_ok h d bd doff bs soff n :
  heap_ok h -> znth h d = Some bd -> 0 <= n ->
  inside (zlen (b_data bd)) doff n -> inside (zlen (b_data bs)) soff n ->
  heap_ok (after_copy h d bd doff bs soff n).
Proof.
  unfold inside. intros H D N I1 I2. unfold heap_ok. rewrite Forall_forall. intros x I.
  apply In_znth in I. destruct I as (i & R & E). unfold after_copy in E. rewrite znth_upd in E.
  destruct ((i =? d) && (0 <=? d) && (d <? zlen h)).
  - injection E as <-. pose proof (heap_ok_at _ _ _ H D) as (A1 & A2 & A3 & A4 & A5).
    repeat split; cbn [b_kind b_read_only b_elem_size b_length b_data with_data]; auto; try lia.
    rewrite zlen_blit; [auto | lia |]. rewrite zlen_sub. lia.
  - apply (heap_ok_at _ _ _ H E).
Qed.

Lemma zlen_after_copy h d bd doff bs soff n : zlen (after_copy h d bd doff bs soff n) = zlen h.
Proof. unfold after_copy. apply zlen_upd. Qed.

(** The call, when it copies. *)
Lemma fn_copy_ok move h d bd doff s bs soff n :
  heap_ok h -> int_sizes h ->
  znth h d = Some bd -> znth h s = Some bs -> is_raw bd = true -> is_raw bs = true ->
  b_read_only bd = false -> 0 < n ->
  inside (zlen (b_data bd)) doff n -> inside (zlen (b_data bs)) soff n ->
  (move = false -> ~ overlap (Some d) (Some s) doff soff n) ->
  fn_copy move h (Some d) doff (Some s) soff n = Ret (after_copy h d bd doff bs soff n).
Proof.
  intros H IS D S R1 R2 RO N I1 I2 O. unfold fn_copy, get_raw.
  rewrite D, R1, obind_ret, S, R2, obind_ret, RO. cbn [negb].
  destruct (Z.geb_spec n 0); [| lia]. destruct (Z.eqb_spec n 0); [lia |].
  pose proof (int_sizes_at _ _ _ IS D). pose proof (int_sizes_at _ _ _ IS S).
  pose proof (heap_ok_at _ _ _ H D). pose proof (heap_ok_at _ _ _ H S).
  unfold inside in I1, I2.
  rewrite (byte_length_ok bd), obind_ret, c_add_range, obind_ret by (auto; unfold in_i32; lia).
  destruct (Z.leb_spec (doff + n) (zlen (b_data bd))); [| lia].
  rewrite (byte_length_ok bs), obind_ret, c_add_range, obind_ret by (auto; unfold in_i32; lia).
  destruct (Z.leb_spec (soff + n) (zlen (b_data bs))); [| lia].
  unfold c_copy. rewrite block_copy_ok by (unfold inside; lia). rewrite obind_ret.
  destruct move; [reflexivity |]. specialize (O eq_refl). cbn [negb andb].
  destruct (Z.eqb_spec d s); cbn [andb]; [| reflexivity].
  destruct (Z.ltb_spec doff (soff + n)); cbn [andb]; [| reflexivity].
  destruct (Z.ltb_spec soff (doff + n)); [| reflexivity].
  exfalso. apply O. unfold overlap. subst. auto.
Qed.

Lemma get_raw_cases h o e1 e2 :
  (forall a, o = Some a -> 0 <= a < zlen h) ->
  (exists a b, o = Some a /\ znth h a = Some b /\ is_raw b = true /\ get_raw h o e1 e2 = Ret (a, b)) \/
  ((forall a size, ~ raw_object h o a size) /\ exists e, get_raw h o e1 e2 = Die e).
Proof.
  intros V. unfold get_raw. destruct o as [a |].
  - destruct (znth_lt h a (V a eq_refl)) as [b E]. rewrite E. destruct (is_raw b) eqn:R.
    + left. eauto 10.
    + right. split; eauto. intros a' size (Ea & b' & Eb & R' & _). injection Ea as <-. congruence.
  - right. split; eauto. intros a size (Ea & _). discriminate.
Qed.

(** Every call with offsets that are not negative and sums that are ints. *)
Lemma fn_copy_spec move h dest doff source soff n :
  heap_ok h -> int_sizes h -> valid_ref h dest -> valid_ref h source ->
  in_i32 n -> 0 <= doff -> 0 <= soff -> doff + n <= INT32_MAX -> soff + n <= INT32_MAX ->
  (move = false -> ~ overlap dest source doff soff n) ->
  match fn_copy move h dest doff source soff n with
  | Ret h' => exists d s, copy_allowed h dest doff source soff n d s /\ copied h h' d doff s soff n
  | Die _ => forall d s, ~ copy_allowed h dest doff source soff n d s
  | _ => False
  end.
Proof.
  intros H IS V1 V2 Rn D0 S0 Dn Sn O. unfold in_i32 in Rn.
  destruct (get_raw_cases h dest e_dest_undef e_dest_type V1) as [(d & bd & -> & D & R1 & E1) | (N1 & e & E1)].
  2: { unfold fn_copy. rewrite E1. cbn [obind]. intros d s (ds & ss & X & _). eapply N1, X. }
  destruct (get_raw_cases h source e_source_undef e_source_type V2) as [(s & bs & -> & S & R2 & E2) | (N2 & e & E2)].
  2: { unfold fn_copy. rewrite E1, obind_ret, E2. cbn [obind]. intros d' s (ds & ss & _ & X & _). eapply N2, X. }
  pose proof (int_sizes_at _ _ _ IS D). pose proof (int_sizes_at _ _ _ IS S).
  pose proof (heap_ok_at _ _ _ H D) as BD. pose proof (heap_ok_at _ _ _ H S) as BS.
  assert (INV : forall d' s', copy_allowed h (Some d) doff (Some s) soff n d' s' ->
            b_read_only bd = false /\ 0 <= n /\
            (n = 0 \/ (inside (zlen (b_data bd)) doff n /\ inside (zlen (b_data bs)) soff n))).
  { intros d' s' (ds & ss & (Ed & bd' & Ebd & _ & Ls) & (Es & bs' & Ebs & _ & Lss) & RO & N & I).
    injection Ed as <-. injection Es as <-. rewrite D in Ebd. rewrite S in Ebs.
    injection Ebd as <-. injection Ebs as <-. subst.
    unfold read_only_at in RO. rewrite D in RO. auto. }
  assert (MK : b_read_only bd = false -> 0 <= n ->
            (n = 0 \/ (inside (zlen (b_data bd)) doff n /\ inside (zlen (b_data bs)) soff n)) ->
            copy_allowed h (Some d) doff (Some s) soff n d s).
  { intros RO N I. exists (zlen (b_data bd)), (zlen (b_data bs)). unfold raw_object, read_only_at.
    rewrite D. repeat split; eauto. }
  destruct (b_read_only bd) eqn:RO.
  { unfold fn_copy. rewrite E1, obind_ret, E2, obind_ret, RO. cbn [negb].
    intros d' s' C. apply INV in C. destruct C; discriminate. }
  destruct (Z.ltb_spec n 0) as [NN | NN].
  { unfold fn_copy. rewrite E1, obind_ret, E2, obind_ret, RO. cbn [negb].
    destruct (Z.geb_spec n 0); [lia |]. intros d' s' C. apply INV in C. lia. }
  destruct (Z.eqb_spec n 0) as [-> | NZ].
  { unfold fn_copy. rewrite E1, obind_ret, E2, obind_ret, RO. cbn [negb]. change (0 >=? 0) with true. cbn iota.
    change (0 =? 0) with true. cbn iota. exists d, s. split; [apply MK; auto |].
    split; auto. intros a i. destruct (Z.leb_spec doff i); destruct (Z.ltb_spec i (doff + 0)); try lia;
      rewrite ?andb_false_r; auto; destruct (a =? d); auto. }
  destruct (Z.leb_spec (doff + n) (zlen (b_data bd))) as [I1 | I1].
  2: { unfold fn_copy. rewrite E1, obind_ret, E2, obind_ret, RO. cbn [negb].
       destruct (Z.geb_spec n 0); [| lia]. destruct (Z.eqb_spec n 0); [lia |].
       rewrite (byte_length_ok bd), obind_ret, c_add_range, obind_ret by (auto; unfold in_i32; lia).
       destruct (Z.leb_spec (doff + n) (zlen (b_data bd))); [lia |].
       intros d' s' C. apply INV in C. unfold inside in C. lia. }
  destruct (Z.leb_spec (soff + n) (zlen (b_data bs))) as [I2 | I2].
  2: { unfold fn_copy. rewrite E1, obind_ret, E2, obind_ret, RO. cbn [negb].
       destruct (Z.geb_spec n 0); [| lia]. destruct (Z.eqb_spec n 0); [lia |].
       rewrite (byte_length_ok bd), obind_ret, c_add_range, obind_ret by (auto; unfold in_i32; lia).
       destruct (Z.leb_spec (doff + n) (zlen (b_data bd))); [| lia].
       rewrite (byte_length_ok bs), obind_ret, c_add_range, obind_ret by (auto; unfold in_i32; lia).
       destruct (Z.leb_spec (soff + n) (zlen (b_data bs))); [lia |].
       intros d' s' C. apply INV in C. unfold inside in C. lia. }
  rewrite (fn_copy_ok move h d bd doff s bs soff n) by (auto; unfold inside; lia).
  exists d, s. split.
  - apply MK; auto. right. unfold inside. lia.
  - apply after_copy_copied; auto; unfold inside; lia.
Qed.

(** ** memcmp *)

Lemma bytes_cmp_first a b :
  length a = length b ->
  (bytes_cmp a b = 0 /\ a = b) \/
  exists k x y, znth a k = Some x /\ znth b k = Some y /\ ztake k a = ztake k b /\
    ((bytes_cmp a b = -1 /\ x < y) \/ (bytes_cmp a b = 1 /\ y < x)).
Proof.
  revert b; induction a as [| x a IH]; destruct b as [| y b]; cbn [length bytes_cmp]; intros L; try lia.
  - auto.
  - destruct (Z.ltb_spec x y); [| destruct (Z.ltb_spec y x)].
    + right. exists 0, x, y. repeat split; auto.
    + right. exists 0, x, y. repeat split; auto.
    + assert (x = y) by lia. subst y. destruct (IH b ltac:(lia)) as [[E ->] | (k & u & v & U & W & T & C)]; auto.
      right. pose proof (znth_Some _ _ _ U). exists (k + 1), u, v.
      rewrite !znth_cons. destruct (Z.eqb_spec (k + 1) 0); [lia |].
      replace (k + 1 - 1) with k by lia. repeat split; auto.
      unfold ztake in *. replace (Z.to_nat (k + 1)) with (S (Z.to_nat k)) by lia.
      cbn [firstn]. congruence.
Qed.

Lemma memcmp_compares h a1 b1 off1 a2 b2 off2 n :
  znth h a1 = Some b1 -> znth h a2 = Some b2 -> 0 <= n ->
  inside (zlen (b_data b1)) off1 n -> inside (zlen (b_data b2)) off2 n ->
  compares h a1 off1 a2 off2 n (memcmp (zdrop off1 (b_data b1)) (zdrop off2 (b_data b2)) n).
Proof.
  unfold inside. intros A1 A2 N I1 I2. unfold memcmp.
  change (ztake n (zdrop off1 (b_data b1))) with (zsub (b_data b1) off1 n).
  change (ztake n (zdrop off2 (b_data b2))) with (zsub (b_data b2) off2 n).
  assert (L1 : zlen (zsub (b_data b1) off1 n) = n) by (rewrite zlen_sub; lia).
  assert (L2 : zlen (zsub (b_data b2) off2 n) = n) by (rewrite zlen_sub; lia).
  assert (B : forall i, 0 <= i < n -> byte_at h a1 (off1 + i) = znth (zsub (b_data b1) off1 n) i).
  { intros i Hi. unfold byte_at. rewrite A1, znth_sub.
    destruct (Z.leb_spec 0 i); [| lia]. destruct (Z.ltb_spec i n); [| lia]. cbn [andb]. f_equal. lia. }
  assert (B2 : forall i, 0 <= i < n -> byte_at h a2 (off2 + i) = znth (zsub (b_data b2) off2 n) i).
  { intros i Hi. unfold byte_at. rewrite A2, znth_sub.
    destruct (Z.leb_spec 0 i); [| lia]. destruct (Z.ltb_spec i n); [| lia]. cbn [andb]. f_equal. lia. }
  destruct (bytes_cmp_first (zsub (b_data b1) off1 n) (zsub (b_data b2) off2 n)) as [[E1 E2] | (k & x & y & X & Y & T & C)].
  - unfold zlen in *. lia.
  - left. split; auto. intros i Hi. rewrite B, B2, E2 by lia. reflexivity.
  - right. pose proof (znth_Some _ _ _ X). exists k, x, y. rewrite L1 in H.
    rewrite B, B2 by lia. repeat split; auto; try lia.
    intros i Hi. rewrite B, B2 by lia.
    assert (Q : znth (ztake k (zsub (b_data b1) off1 n)) i = znth (ztake k (zsub (b_data b2) off2 n)) i) by congruence.
    rewrite !znth_take in Q. destruct (Z.ltb_spec i k); [auto | lia].
Qed.

Lemma fn_memcmp_spec h o1 off1 o2 off2 n :
  heap_ok h -> int_sizes h -> valid_ref h o1 -> valid_ref h o2 ->
  in_i32 n -> 0 <= off1 -> 0 <= off2 -> off1 + n <= INT32_MAX -> off2 + n <= INT32_MAX ->
  match fn_memcmp h o1 off1 o2 off2 n with
  | Ret r => exists a1 a2, compare_allowed h o1 off1 o2 off2 n a1 a2 /\ compares h a1 off1 a2 off2 n r
  | Die _ => forall a1 a2, ~ compare_allowed h o1 off1 o2 off2 n a1 a2
  | _ => False
  end.
Proof.
  intros H IS V1 V2 Rn D0 S0 Dn Sn. unfold in_i32 in Rn. unfold fn_memcmp.
  match goal with |- context [get_raw h o1 ?e1 ?e2] =>
    destruct (get_raw_cases h o1 e1 e2 V1) as [(a1 & b1 & -> & A1 & R1 & E1) | (N1 & e & E1)] end.
  2: { rewrite E1. cbn [obind]. intros d s (ds & ss & X & _). eapply N1, X. }
  rewrite E1, obind_ret. cbn beta iota.
  match goal with |- context [get_raw h o2 ?e1 ?e2] =>
    destruct (get_raw_cases h o2 e1 e2 V2) as [(a2 & b2 & -> & A2 & R2 & E2) | (N2 & e & E2)] end.
  2: { rewrite E2. cbn [obind]. intros d' s (ds & ss & _ & X & _). eapply N2, X. }
  rewrite E2, obind_ret. cbn beta iota.
  pose proof (int_sizes_at _ _ _ IS A1). pose proof (int_sizes_at _ _ _ IS A2).
  pose proof (heap_ok_at _ _ _ H A1) as BD. pose proof (heap_ok_at _ _ _ H A2) as BS.
  assert (INV : forall d' s', compare_allowed h (Some a1) off1 (Some a2) off2 n d' s' ->
            0 <= n /\ inside (zlen (b_data b1)) off1 n /\ inside (zlen (b_data b2)) off2 n).
  { intros d' s' (ds & ss & (Ed & bd' & Ebd & _ & Ls) & (Es & bs' & Ebs & _ & Lss) & N & I).
    injection Ed as <-. injection Es as <-. rewrite A1 in Ebd. rewrite A2 in Ebs.
    injection Ebd as <-. injection Ebs as <-. subst. auto. }
  destruct (Z.geb_spec n 0).
  2: { intros d' s' C. apply INV in C. lia. }
  rewrite (byte_length_ok b1), obind_ret, c_add_range, obind_ret by (auto; unfold in_i32; lia).
  destruct (Z.leb_spec (off1 + n) (zlen (b_data b1))).
  2: { intros d' s' C. apply INV in C. unfold inside in C. lia. }
  rewrite (byte_length_ok b2), obind_ret, c_add_range, obind_ret by (auto; unfold in_i32; lia).
  destruct (Z.leb_spec (off2 + n) (zlen (b_data b2))).
  2: { intros d' s' C. apply INV in C. unfold inside in C. lia. }
  destruct (Z.leb_spec 0 off1); [| lia]. destruct (Z.leb_spec 0 off2); [| lia]. cbn [andb].
  exists a1, a2. split.
  - exists (zlen (b_data b1)), (zlen (b_data b2)). unfold raw_object, inside. repeat split; eauto; lia.
  - apply memcmp_compares; auto; unfold inside; lia.
Qed.

(** ** Negative offsets *)

(** memmove with a negative offset and a sum that is in range reaches outside
    the data. *)
Lemma fn_copy_negative move h d bd doff s bs soff n :
  heap_ok h -> int_sizes h ->
  znth h d = Some bd -> znth h s = Some bs -> is_raw bd = true -> is_raw bs = true ->
  b_read_only bd = false -> 0 < n <= INT32_MAX -> in_i32 doff -> in_i32 soff ->
  doff + n <= zlen (b_data bd) -> soff + n <= zlen (b_data bs) ->
  doff < 0 \/ soff < 0 ->
  fn_copy move h (Some d) doff (Some s) soff n = UB.
Proof.
  intros H IS D S R1 R2 RO N I1 I2 L1 L2 NEG. unfold in_i32 in *. unfold fn_copy, get_raw.
  rewrite D, R1, obind_ret, S, R2, obind_ret, RO. cbn [negb].
  destruct (Z.geb_spec n 0); [| lia]. destruct (Z.eqb_spec n 0); [lia |].
  pose proof (int_sizes_at _ _ _ IS D). pose proof (int_sizes_at _ _ _ IS S).
  pose proof (heap_ok_at _ _ _ H D). pose proof (heap_ok_at _ _ _ H S).
  rewrite (byte_length_ok bd), obind_ret, c_add_range, obind_ret by (auto; unfold in_i32; lia).
  destruct (Z.leb_spec (doff + n) (zlen (b_data bd))); [| lia].
  rewrite (byte_length_ok bs), obind_ret, c_add_range, obind_ret by (auto; unfold in_i32; lia).
  destruct (Z.leb_spec (soff + n) (zlen (b_data bs))); [| lia].
  unfold c_copy, block_copy.
  destruct (Z.leb_spec 0 doff); destruct (Z.leb_spec 0 soff); try lia;
    rewrite ?andb_false_r; reflexivity.
Qed.
