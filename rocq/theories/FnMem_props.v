(** * C39: raw byte copy and compare; C40: endian conversion *)
From Verif Require Import Base CLib Array_model Array_spec FnMem_model FnMem_spec FnMem_proofs FnRev_proofs.

(** ** C39 *)

(** memmove copies exactly the range when both ranges lie inside the data, and
    throws otherwise.  Left out of the claim (and false of the code, see
    below): negative offsets, and offset + length above the largest int. *)
Theorem C39_memmove_partial :
  forall h dest doff source soff n,
    heap_ok h -> int_sizes h -> valid_ref h dest -> valid_ref h source ->
    in_i32 n -> 0 <= doff -> 0 <= soff -> doff + n <= INT32_MAX -> soff + n <= INT32_MAX ->
    match fn_memmove h dest doff source soff n with
    | Ret h' => exists d s, copy_allowed h dest doff source soff n d s /\ copied h h' d doff s soff n
    | Die _ => forall d s, ~ copy_allowed h dest doff source soff n d s
    | _ => False
    end.
Proof. intros. apply fn_copy_spec; auto. discriminate. Qed.

(** memcpy does the same for ranges that do not overlap. *)
Theorem C39_memcpy_partial :
  forall h dest doff source soff n,
    heap_ok h -> int_sizes h -> valid_ref h dest -> valid_ref h source ->
    in_i32 n -> 0 <= doff -> 0 <= soff -> doff + n <= INT32_MAX -> soff + n <= INT32_MAX ->
    ~ overlap dest source doff soff n ->
    match fn_memcpy h dest doff source soff n with
    | Ret h' => exists d s, copy_allowed h dest doff source soff n d s /\ copied h h' d doff s soff n
    | Die _ => forall d s, ~ copy_allowed h dest doff source soff n d s
    | _ => False
    end.
Proof. intros. apply fn_copy_spec; auto. Qed.

(** memcmp compares exactly the ranges: the first differing byte decides. *)
Theorem C39_memcmp_partial :
  forall h o1 off1 o2 off2 n,
    heap_ok h -> int_sizes h -> valid_ref h o1 -> valid_ref h o2 ->
    in_i32 n -> 0 <= off1 -> 0 <= off2 -> off1 + n <= INT32_MAX -> off2 + n <= INT32_MAX ->
    match fn_memcmp h o1 off1 o2 off2 n with
    | Ret r => exists a1 a2, compare_allowed h o1 off1 o2 off2 n a1 a2 /\ compares h a1 off1 a2 off2 n r
    | Die _ => forall a1 a2, ~ compare_allowed h o1 off1 o2 off2 n a1 a2
    | _ => False
    end.
Proof. intros. apply fn_memcmp_spec; auto. Qed.

(** Every negative offset that passes the check of the sum makes memcpy and
    memmove reach outside the data: there is no exception. *)
Theorem C39_negative_offset_refuted :
  forall move h d bd doff s bs soff n,
    heap_ok h -> int_sizes h ->
    znth h d = Some bd -> znth h s = Some bs -> is_raw bd = true -> is_raw bs = true ->
    b_read_only bd = false -> 0 < n <= INT32_MAX -> in_i32 doff -> in_i32 soff ->
    doff + n <= zlen (b_data bd) -> soff + n <= zlen (b_data bs) ->
    doff < 0 \/ soff < 0 ->
    fn_copy move h (Some d) doff (Some s) soff n = UB.
Proof. intros. apply (fn_copy_negative move h d bd doff s bs soff n); auto. Qed.

(** A heap for the examples: two strings, an int array of 2 elements, a
    read-only string, an object of another type. *)
Definition ex_heap : heap :=
  [mk_blob KString false 1 4 [97; 98; 99; 100];
   mk_blob KString false 1 3 [120; 121; 122];
   mk_blob KNumArray false 4 2 [1; 0; 0; 0; 2; 0; 0; 0];
   mk_blob KString true 1 2 [104; 105];
   mk_blob KOther false 1 0 []].

Example C39_heap_ok : heap_ok ex_heap /\ int_sizes ex_heap.
Proof.
  split; repeat apply Forall_cons; try apply Forall_nil; unfold blob_ok; cbn;
    repeat split; intros; try discriminate; try congruence; try lia; vm_compute; congruence.
Qed.

Example C39_cases :
  let m := fn_memmove ex_heap in
  m (Some 0) 1 (Some 1) 0 3 =
    Ret (zupd ex_heap 0 (mk_blob KString false 1 4 [97; 120; 121; 122])) /\
  m (Some 0) 1 (Some 0) 0 3 =
    Ret (zupd ex_heap 0 (mk_blob KString false 1 4 [97; 97; 98; 99])) /\
  m (Some 2) 4 (Some 1) 0 3 =
    Ret (zupd ex_heap 2 (mk_blob KNumArray false 4 2 [1; 0; 0; 0; 120; 121; 122; 0])) /\
  m (Some 0) 2 (Some 1) 0 3 = Die e_dest_range /\
  m (Some 0) 0 (Some 1) 1 3 = Die e_source_range /\
  m (Some 3) 0 (Some 1) 0 1 = Die e_read_only /\
  m (Some 4) 0 (Some 1) 0 0 = Die e_dest_type /\
  m None 0 (Some 1) 0 0 = Die e_dest_undef /\
  m (Some 0) 0 (Some 1) 0 (-1) = Die e_length /\
  fn_memcpy ex_heap (Some 0) 1 (Some 0) 0 3 = UB /\
  m (Some 0) (-1) (Some 1) 0 2 = UB /\
  m (Some 0) INT32_MAX (Some 1) 0 2 = UB /\
  fn_memcmp ex_heap (Some 0) 0 (Some 1) 0 2 = Ret (-1) /\
  fn_memcmp ex_heap (Some 2) 1 (Some 2) 5 3 = Ret 0 /\
  fn_memcmp ex_heap (Some 2) (-4) (Some 2) 0 4 = UB.
Proof. vm_compute. repeat split. Qed.

(** The sum of offset and length overflows an int. *)
Theorem C39_sum_overflow_refuted :
  exists h dest source doff soff n,
    heap_ok h /\ int_sizes h /\ valid_ref h dest /\ valid_ref h source /\
    in_i32 n /\ 0 <= doff <= INT32_MAX /\ 0 <= soff <= INT32_MAX /\
    (forall d s, ~ copy_allowed h dest doff source soff n d s) /\
    fn_memmove h dest doff source soff n = UB.
Proof.
  exists ex_heap, (Some 0), (Some 1), INT32_MAX, 0, 2. destruct C39_heap_ok as [H I].
  split; [exact H |]. split; [exact I |].
  split; [intros a E; injection E as <-; vm_compute; split; congruence |].
  split; [intros a E; injection E as <-; vm_compute; split; congruence |].
  split; [unfold in_i32; lia |]. split; [lia |]. split; [lia |]. split; [| vm_compute; reflexivity].
  intros d s (ds & ss & (Ed & bd & Eb & _ & Ls) & _ & _ & _ & N).
  injection Ed as <-. vm_compute in Eb. injection Eb as <-. vm_compute in Ls. subst ds.
  unfold inside in N. lia.
Qed.

(** memset_char sets exactly the bytes of the range (a negative length means
    the rest of the string) or throws and changes nothing. *)
Theorem C39_memset_char :
  forall (s : list Z) (char offset length len : Z),
    zlen s <= INT32_MAX -> in_i32 offset -> in_i32 length ->
    range_length (zlen s) offset length = len -> offset + len <= INT32_MAX ->
    (0 <= offset /\ 0 <= len /\ offset + len <= zlen s ->
       exists s', memset_char s char offset length = (s', Ret tt) /\
         forall i, znth s' i = if (offset <=? i) && (i <? offset + len) then Some (char mod 256) else znth s i) /\
    (offset < 0 \/ 0 <= len /\ zlen s < offset + len ->
       exists e, memset_char s char offset length = (s, Die e)).
Proof.
  unfold in_i32. intros s char offset length len L Io Il R M. zlen_facts. unfold memset_char.
  assert (W : 0 <= offset -> (if length <? 0 then wrap32 (zlen s - offset) else length) = len).
  { intros. unfold range_length in R. destruct (Z.ltb_spec length 0); auto. rewrite wrap32_id; auto. unfold in_i32. lia. }
  split.
  - intros (H1 & H2 & H3). destruct (Z.geb_spec offset 0); [| lia]. cbn [negb]. cbv zeta. rewrite W by auto.
    rewrite wrap32_id by (unfold in_i32; lia). destruct (Z.leb_spec (offset + len) (zlen s)); [| lia]. cbn [negb].
    destruct (memset_loop_ok (Z.to_nat len) s char offset 0) as (s' & E & L' & V); [lia.. |].
    exists s'. split; auto. intros i. rewrite V. rewrite Z.add_0_r. replace (Z.of_nat (Z.to_nat len)) with len by lia.
    reflexivity.
  - intros D. destruct (Z.geb_spec offset 0); cbn [negb]; [| eauto]. cbv zeta. rewrite W by auto.
    rewrite wrap32_id by (unfold in_i32, range_length in *; destruct (Z.ltb_spec length 0); lia).
    destruct (Z.leb_spec (offset + len) (zlen s)); [lia |]. cbn [negb]. eauto.
Qed.

(** slice of an array of numbers gives the addressed elements. *)
Theorem C39_slice_partial :
  forall h a b offset length,
    heap_ok h -> int_sizes h -> znth h a = Some b ->
    b_kind b = KNumArray \/ b_kind b = KMulArray ->
    0 <= offset -> 0 < length -> offset + length <= b_length b -> b_elem_size b <= INT32_MAX ->
    exists h' sliced,
      slice_numeric h (Some a) offset length = Ret h' /\
      (forall x, 0 <= x < zlen h -> znth h' x = znth h x) /\
      znth h' (zlen h) = Some sliced /\
      b_kind sliced = b_kind b /\ b_length sliced = length /\ b_elem_size sliced = b_elem_size b /\
      forall k j, 0 <= k < length -> 0 <= j < b_elem_size b ->
        byte_at h' (zlen h) (b_elem_size b * k + j) = byte_at h a (b_elem_size b * (offset + k) + j).
Proof.
  intros h a b offset length H IS A K O L B LE. pose proof (znth_Some _ _ _ A) as RA.
  pose proof (heap_ok_at _ _ _ H A) as (O1 & O2 & O3 & O4 & O5). pose proof (int_sizes_at _ _ _ IS A) as SA.
  set (e := b_elem_size b) in *.
  assert (P1 : e * offset + e * length <= e * b_length b).
  { rewrite <- Z.mul_add_distr_l. apply Z.mul_le_mono_nonneg_l; lia. }
  assert (P2 : 0 <= e * offset) by (apply Z.mul_nonneg_nonneg; lia).
  assert (P3 : 0 < e * length) by (apply Z.mul_pos_pos; lia).
  set (sl := mk_blob (b_kind b) false e length (zrep (e * length) 0)).
  assert (SO : blob_ok sl).
  { unfold blob_ok, sl. cbn. rewrite zlen_rep. repeat split; auto; lia. }
  assert (LS : zlen (b_data sl) = e * length) by (cbn; rewrite zlen_rep; lia).
  assert (R : is_raw b = true) by (unfold is_raw; destruct K as [-> | ->]; auto).
  assert (RO : b_read_only b = false).
  { destruct (b_read_only b) eqn:X; auto. specialize (O5 eq_refl). destruct K; congruence. }
  assert (EQ : slice_numeric h (Some a) offset length =
               fn_memcpy (h ++ [sl]) (Some (zlen h)) 0 (Some a) (e * offset) (e * length)).
  { unfold slice_numeric. rewrite A. fold e. fold sl.
    rewrite !wrap32_id by (unfold in_i32; lia).
    destruct (Z.geb_spec length 0); [| lia]. destruct K as [-> | ->]; reflexivity. }
  rewrite EQ. unfold fn_memcpy.
  rewrite (fn_copy_ok false (h ++ [sl]) (zlen h) sl 0 a b (e * offset) (e * length));
    [ | apply heap_ok_app; auto | apply int_sizes_app; auto; lia | apply znth_snoc
      | rewrite znth_app_l; auto | exact R | auto | auto | lia | unfold inside; lia | unfold inside; lia
      | intros _ (X & _); injection X; lia].
  unfold after_copy. rewrite zupd_snoc.
  eexists. eexists. split; [reflexivity |]. split; [| split; [apply znth_snoc |]].
  - intros x X. apply znth_app_l; auto.
  - cbn [b_kind b_length b_elem_size with_data sl]. repeat split.
    intros k j Hk Hj. unfold byte_at. rewrite znth_snoc, A. cbn [b_data with_data].
    rewrite znth_zblit_sub by lia.
    assert (e * k + e <= e * length).
    { replace (e * k + e) with (e * (k + 1)) by lia. apply Z.mul_le_mono_nonneg_l; lia. }
    assert (0 <= e * k) by (apply Z.mul_nonneg_nonneg; lia).
    destruct (Z.leb_spec 0 (e * k + j)); [| lia]. destruct (Z.ltb_spec (e * k + j) (0 + e * length)); [| lia].
    cbn [andb]. f_equal. lia.
Qed.

(** A negative offset is not rejected by slice. *)
Theorem C39_slice_negative_refuted :
  exists h a b, heap_ok h /\ int_sizes h /\ znth h a = Some b /\ b_kind b = KNumArray /\
    slice_numeric h (Some a) (-1) 1 = UB.
Proof.
  exists ex_heap, 2. eexists. destruct C39_heap_ok as [H I]. repeat split; auto; vm_compute; reflexivity.
Qed.

Example C39_slice : slice_numeric ex_heap (Some 2) 1 1 = Ret (ex_heap ++ [mk_blob KNumArray false 4 1 [2; 0; 0; 0]]).
Proof. vm_compute. reflexivity. Qed.

(** ** Reversal in place *)

(** reverse_inplace reverses the elements of every string and every array of
    numbers, and changes nothing else. *)
Theorem C40_reverse_inplace :
  forall h a b,
    heap_ok h -> int_sizes h -> znth h a = Some b -> is_raw b = true -> b_elem_size b <= INT32_MAX ->
    match reverse_inplace h (Some a) with
    | Ret h' => b_read_only b = false /\ reversed h h' a
    | Die _ => b_read_only b = true
    | _ => False
    end.
Proof.
  intros h a b H IS A R LE. destruct (b_read_only b) eqn:RO.
  - pose proof (heap_ok_at _ _ _ H A) as (_ & _ & _ & _ & O5). specialize (O5 RO).
    unfold reverse_inplace. rewrite A, O5, RO. reflexivity.
  - destruct (reverse_inplace_ok h a b) as (h' & -> & V); auto.
Qed.

Example C40_reverse_example :
  match reverse_inplace ex_heap (Some 2) with
  | Ret h => range_at h 2 0 8 = [2; 0; 0; 0; 1; 0; 0; 0] | _ => False end /\
  match reverse_inplace ex_heap (Some 1) with
  | Ret h => range_at h 1 0 3 = [122; 121; 120] | _ => False end.
Proof. vm_compute. split; reflexivity. Qed.

(** ** C40 *)

(** change_endian reverses exactly the addressed bytes of a string, and throws
    exactly when the size is not positive, the offset is negative or the range
    does not lie in the string. *)
Theorem C40_change_endian :
  forall h a b size offset,
    heap_ok h -> int_sizes h -> znth h a = Some b -> b_kind b = KString -> b_read_only b = false ->
    in_i32 size -> in_i32 offset -> offset + size <= INT32_MAX ->
    match change_endian h (Some a) size offset with
    | Ret h' => 0 < size /\ 0 <= offset /\ offset + size <= zlen (b_data b) /\ range_reversed h h' a offset size
    | Die _ => ~ (0 < size /\ 0 <= offset /\ offset + size <= zlen (b_data b))
    | _ => False
    end.
Proof.
  intros h a b size offset H IS A K RO RS RF SUM. unfold in_i32 in *.
  destruct (Z.ltb_spec 0 size) as [S | S].
  2: { unfold change_endian. destruct (Z.gtb_spec size 0); [lia |]. lia. }
  destruct (Z.leb_spec 0 offset) as [O | O].
  2: { unfold change_endian. destruct (Z.gtb_spec size 0); [| lia]. destruct (Z.geb_spec offset 0); [lia |]. lia. }
  destruct (Z.leb_spec (offset + size) (zlen (b_data b))) as [B | B].
  - destruct (change_endian_ok h a b size offset) as (h' & junk & -> & _ & _ & ->); auto.
    repeat split; auto; try lia; apply range_reversed_of; auto.
  - pose proof (heap_ok_at _ _ _ H A) as (_ & _ & E3 & E4 & _). rewrite (E4 K) in E3.
    unfold change_endian. destruct (Z.gtb_spec size 0); [| lia]. destruct (Z.geb_spec offset 0); [| lia].
    rewrite A, wrap32_id by (unfold in_i32; lia).
    destruct (Z.leb_spec (offset + size) (b_length b)); [lia |]. lia.
Qed.

(** Twice is the identity. *)
Theorem C40_involution :
  forall h a b size offset,
    heap_ok h -> int_sizes h -> znth h a = Some b -> b_kind b = KString -> b_read_only b = false ->
    0 < size -> 0 <= offset -> offset + size <= zlen (b_data b) ->
    exists h1 h2, change_endian h (Some a) size offset = Ret h1 /\ change_endian h1 (Some a) size offset = Ret h2 /\
      forall x i, 0 <= x < zlen h -> byte_at h2 x i = byte_at h x i.
Proof.
  intros h a b size offset H IS A K RO S O B. pose proof (znth_Some _ _ _ A) as RA.
  destruct (change_endian_ok h a b size offset) as (h1 & j1 & E1 & H1 & I1 & F1); auto.
  set (b1 := with_data b (zblit (b_data b) offset (rev (zsub (b_data b) offset size)))) in *.
  assert (A1 : znth h1 a = Some b1).
  { rewrite F1, znth_app_l by (rewrite zlen_upd; auto). rewrite znth_upd, Z.eqb_refl.
    destruct (Z.leb_spec 0 a); [| lia]. destruct (Z.ltb_spec a (zlen h)); [| lia]. reflexivity. }
  assert (L1 : zlen (b_data b1) = zlen (b_data b)).
  { unfold b1. cbn. rewrite zlen_blit; auto. rewrite zlen_rev, zlen_sub. lia. }
  destruct (change_endian_ok h1 a b1 size offset) as (h2 & j2 & E2 & H2 & I2 & F2); auto; [lia |].
  exists h1, h2. repeat split; auto. intros x i X.
  assert (V1 : range_reversed h h1 a offset size) by (rewrite F1; apply range_reversed_of; auto).
  assert (V2 : range_reversed h1 h2 a offset size) by (rewrite F2; apply range_reversed_of; auto; lia).
  destruct V1 as [_ V1], V2 as [_ V2].
  assert (Z1 : zlen h <= zlen h1) by (rewrite F1, zlen_app, zlen_upd; pose proof (zlen_nonneg j1); lia).
  rewrite V2 by lia. rewrite !V1 by lia. rewrite Z.eqb_refl. cbn [andb].
  destruct (Z.eqb_spec x a); cbn [andb]; auto. subst x.
  destruct (Z.leb_spec offset i); cbn [andb]; auto.
  destruct (Z.ltb_spec i (offset + size)); auto.
  replace ((offset <=? offset + (offset + size - 1 - i)) && (offset + (offset + size - 1 - i) <? offset + size)) with true by lia.
  f_equal. lia.
Qed.

Lemma big_rev l : big_endian (rev l) = little_endian l.
Proof.
  unfold big_endian.
  induction l as [| x l IH]; [reflexivity |].
  cbn [rev little_endian]. rewrite fold_left_app, IH. cbn [fold_left]. lia.
Qed.

(** The processor reads, after big_endian_to_system_endian, the number that
    was written most significant byte first, and after
    little_endian_to_system_endian the one written least significant first. *)
Theorem C40_value :
  forall little h a b size offset,
    heap_ok h -> int_sizes h -> znth h a = Some b -> b_kind b = KString -> b_read_only b = false ->
    0 < size -> 0 <= offset -> offset + size <= zlen (b_data b) ->
    (exists h', big_endian_to_system_endian little h (Some a) size offset = Ret h' /\
       system_endian little (range_at h' a offset size) = big_endian (range_at h a offset size)) /\
    (exists h', little_endian_to_system_endian little h (Some a) size offset = Ret h' /\
       system_endian little (range_at h' a offset size) = little_endian (range_at h a offset size)).
Proof.
  intros little h a b size offset H IS A K RO S O B. pose proof (znth_Some _ _ _ A) as RA.
  destruct (change_endian_ok h a b size offset) as (h1 & j1 & E1 & H1 & I1 & F1); auto.
  assert (G : range_at h1 a offset size = rev (range_at h a offset size)).
  { unfold range_at. rewrite A, F1, znth_app_l by (rewrite zlen_upd; auto). rewrite znth_upd, Z.eqb_refl.
    destruct (Z.leb_spec 0 a); [| lia]. destruct (Z.ltb_spec a (zlen h)); [| lia]. cbn [andb b_data with_data].
    assert (L : zlen (rev (zsub (b_data b) offset size)) = size) by (rewrite zlen_rev, zlen_sub; lia).
    apply znth_ext. intros i Hi. rewrite znth_sub, znth_blit, L by lia.
    destruct (Z.leb_spec 0 i); [| lia]. cbn [andb]. destruct (Z.ltb_spec i size).
    - destruct (Z.leb_spec offset (Z.max 0 offset + i)); [| lia].
      destruct (Z.ltb_spec (Z.max 0 offset + i) (offset + size)); [| lia]. cbn [andb]. f_equal. lia.
    - symmetry. apply znth_ge. lia. }
  split; destruct little; cbn [big_endian_to_system_endian little_endian_to_system_endian system_endian negb].
  - exists h1. split; auto. rewrite G, <- big_rev, rev_involutive. reflexivity.
  - exists h. auto.
  - exists h. auto.
  - exists h1. split; auto. rewrite G. apply big_rev.
Qed.

(** The conversions between the system order and one fixed order undo each
    other. *)
Theorem C40_conversions_inverse :
  forall (little big : bool) h a b size offset,
    heap_ok h -> int_sizes h -> znth h a = Some b -> b_kind b = KString -> b_read_only b = false ->
    0 < size -> 0 <= offset -> offset + size <= zlen (b_data b) ->
    let to_system := if big then big_endian_to_system_endian else little_endian_to_system_endian in
    let from_system := if big then system_endian_to_big_endian else system_endian_to_little_endian in
    exists h1 h2 h3 h4,
      to_system little h (Some a) size offset = Ret h1 /\ from_system little h1 (Some a) size offset = Ret h2 /\
      from_system little h (Some a) size offset = Ret h3 /\ to_system little h3 (Some a) size offset = Ret h4 /\
      forall x i, 0 <= x < zlen h -> byte_at h2 x i = byte_at h x i /\ byte_at h4 x i = byte_at h x i.
Proof.
  intros little big h a b size offset H IS A K RO S O B.
  destruct (C40_involution h a b size offset) as (h1 & h2 & E1 & E2 & V); auto.
  destruct little, big; cbn;
    first [ solve [exists h1, h2, h1, h2; repeat split; auto] | solve [exists h, h, h, h; repeat split; auto] ].
Qed.

(** The sum of offset and size overflows an int: the check passes and memory
    outside the string is reached. *)
Theorem C40_sum_overflow_refuted :
  exists h a b size offset,
    heap_ok h /\ int_sizes h /\ znth h a = Some b /\ b_kind b = KString /\ b_read_only b = false /\
    in_i32 size /\ in_i32 offset /\ change_endian h (Some a) size offset = UB.
Proof.
  exists ex_heap, 0. eexists. exists 2, INT32_MAX. destruct C39_heap_ok as [H I].
  repeat split; auto; try (unfold in_i32; lia); vm_compute; reflexivity.
Qed.

Example C40_example :
  match change_endian ex_heap (Some 0) 2 1 with
  | Ret h => range_at h 0 0 4 = [97; 99; 98; 100] | _ => False end /\
  change_endian ex_heap (Some 0) 4 1 =
    Die "The byte size $size must be less than or equal to the offset $offset plus the length of the binary data $binary." /\
  big_endian [1; 2] = 258 /\ little_endian [1; 2] = 513.
Proof. vm_compute. repeat split. Qed.

Print Assumptions C39_memmove_partial.
Print Assumptions C39_memcpy_partial.
Print Assumptions C39_memcmp_partial.
Print Assumptions C39_negative_offset_refuted.
Print Assumptions C39_sum_overflow_refuted.
Print Assumptions C39_slice_partial.
Print Assumptions C39_slice_negative_refuted.
Print Assumptions C40_reverse_inplace.
Print Assumptions C40_change_endian.
Print Assumptions C40_involution.
Print Assumptions C40_value.
Print Assumptions C40_conversions_inverse.
Print Assumptions C40_sum_overflow_refuted.

Example C39_memset_char_ex : memset_char [1; 2; 3] 263 1 (-1) = ([1; 7; 7], Ret tt).
Proof. vm_compute. reflexivity. Qed.
Print Assumptions C39_memset_char.
