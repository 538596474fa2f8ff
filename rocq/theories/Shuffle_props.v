(** * C43: shuffle of arrays of numbers *)
From Coq Require Import Lia Permutation.
From Verif Require Import Base CLib Array_model Array_proofs FnMem_model FnMem_spec FnMem_proofs FnRev_proofs Shuffle_model.
Local Open Scope Z_scope.

(** The elements of a block of bytes: [length] elements of [e] bytes. *)
Definition elements (e length : Z) (data : list Z) : list (list Z) :=
  map (fun k => zsub data (e * Z.of_nat k) e) (seq 0 (Z.to_nat length)).

Lemma znth_elements e L D k : znth (elements e L D) k = if (0 <=? k) && (k <? L) then Some (zsub D (e * k) e) else None.
Proof.
  unfold elements, znth. destruct (Z.ltb_spec k 0), (Z.leb_spec 0 k), (Z.ltb_spec k L); try lia; cbn [andb]; auto.
  - rewrite nth_error_map.
    assert (X : nth_error (seq 0 (Z.to_nat L)) (Z.to_nat k) = Some (Z.to_nat k)).
    { rewrite nth_error_nth' with (d := O) by (rewrite seq_length; lia). f_equal. rewrite seq_nth by lia. lia. }
    rewrite X. cbn. rewrite Z2Nat.id by lia. reflexivity.
  - apply nth_error_None. rewrite map_length, seq_length. lia.
Qed.
Lemma zlen_elements e L D : 0 <= L -> zlen (elements e L D) = L.
Proof. intros. unfold elements, zlen. rewrite map_length, seq_length. lia. Qed.

Section Elem.
  Variables (e L : Z).
  Hypothesis E0 : 0 < e.
  Hypothesis L0 : 0 <= L.
  Hypothesis SZ : e * L <= INT32_MAX.

  (** One iteration on the data. *)
  Lemma exchange (D T : list Z) i j :
    zlen D = e * L -> zlen T = e -> 0 <= i < L -> 0 <= j < L ->
    let T1 := zblit T 0 (zsub D (e * i) e) in
    let D1 := zblit D (e * i) (zsub D (e * j) e) in
    let D2 := zblit D1 (e * j) (zsub T1 0 e) in
    zlen T1 = e /\ zlen D1 = e * L /\ zlen D2 = e * L /\
    elements e L D2 = zupd (zupd (elements e L D) i (zsub D (e * j) e)) j (zsub D (e * i) e).
  Proof.
    intros LD LT I J T1 D1 D2.
    pose proof (elem_inside e i L E0 I) as [P1 P2]. pose proof (elem_inside e j L E0 J) as [P3 P4].
    assert (LT1 : zlen T1 = e) by (unfold T1; rewrite zlen_zblit_sub; lia).
    assert (LD1 : zlen D1 = e * L) by (unfold D1; rewrite zlen_zblit_sub; lia).
    assert (LD2 : zlen D2 = e * L) by (unfold D2; rewrite zlen_zblit_sub; lia).
    repeat split; auto. apply znth_ext. intros k _. rewrite !znth_upd, !zlen_upd, !zlen_elements by exact L0. rewrite !znth_elements.
    destruct (Z.leb_spec 0 k), (Z.ltb_spec k L); cbn [andb]; try (replace (k =? j) with false by lia; replace (k =? i) with false by lia; reflexivity).
    replace ((k =? j) && (0 <=? j) && (j <? L)) with (k =? j) by lia. replace ((k =? i) && (0 <=? i) && (i <? L)) with (k =? i) by lia.
    pose proof (elem_inside e k L E0 ltac:(lia)) as [P5 P6].
    assert (V : forall q, 0 <= q < e -> znth D2 (e * k + q) =
       if k =? j then znth D (e * i + q) else if k =? i then znth D (e * j + q) else znth D (e * k + q)).
    { intros q Q. unfold D2. rewrite znth_zblit_sub by lia. rewrite block_pos by exact Q. destruct (Z.eqb_spec k j) as [-> |].
      - unfold T1. rewrite znth_zblit_sub by lia. replace (0 + (e * j + q - e * j)) with q by lia.
        destruct (Z.leb_spec 0 q); [| lia]. destruct (Z.ltb_spec q (0 + e)); [| lia]. cbn [andb]. f_equal. lia.
      - unfold D1. rewrite znth_zblit_sub by lia. rewrite block_pos by exact Q. destruct (Z.eqb_spec k i) as [-> |]; [f_equal; lia | reflexivity]. }
    assert (G : forall o, 0 <= e * o -> (forall q, 0 <= q < e -> znth D2 (e * k + q) = znth D (e * o + q)) -> zsub D2 (e * k) e = zsub D (e * o) e).
    { intros o Q0 H'. apply znth_ext. intros q _. rewrite !znth_sub by lia. destruct (Z.leb_spec 0 q), (Z.ltb_spec q e); cbn [andb]; auto. rewrite !Z.max_r by lia. auto. }
    destruct (Z.eqb_spec k j); [| destruct (Z.eqb_spec k i)]; f_equal; apply G; try lia; exact V.
  Qed.

  Lemma shuffle_numeric_ok n : forall h a b T i seed,
    heap_ok h -> int_sizes h -> znth h a = Some b -> is_raw b = true -> b_read_only b = false ->
    zlen (b_data b) = e * L -> L <= INT32_MAX -> e <= INT32_MAX -> zlen T = e ->
    Z.of_nat n = i -> i < Z.max 1 L ->
    exists D' T' seed', shuffle_numeric_loop true n (h ++ [mk_blob KNumArray false 1 e T]) (zlen h) a e i seed =
        Ret (zupd h a (with_data b D') ++ [mk_blob KNumArray false 1 e T'], seed') /\ zlen D' = e * L /\
      shuffle_loop crand n i seed (elements e L (b_data b)) = Ret (elements e L D', seed').
  Proof.
    induction n as [| n IH]; intros h a b T i seed H IS A R RO LD LL LE LT I B.
    - exists (b_data b), T, seed. repeat split; auto. cbn [shuffle_numeric_loop].
      do 3 f_equal. symmetry. apply zupd_same. rewrite A. destruct b; reflexivity.
    - cbn [shuffle_numeric_loop shuffle_loop]. pose proof (znth_Some _ _ _ A) as RA.
      pose proof (crand_range seed) as CR. destruct (crand seed) as [r seed1]. cbn [fst] in CR.
      rewrite (wrap32_id (i + 1)) by (unfold in_i32; lia).
      assert (J : 0 <= Z.rem r (i + 1) < i + 1) by (apply Z.rem_bound_pos; lia).
      set (j := Z.rem r (i + 1)) in *.
      pose proof (elem_inside e i L E0 ltac:(lia)) as [P1 P2]. pose proof (elem_inside e j L E0 ltac:(lia)) as [P3 P4].
      pose proof (heap_ok_at _ _ _ H A) as BO.
      rewrite (wrap32_id (e * i)), (wrap32_id (e * j)) by (unfold in_i32; lia).
      pose proof (exchange (b_data b) T i j LD LT ltac:(lia) ltac:(lia)) as ST. cbv zeta in ST.
      set (T1 := zblit T 0 (zsub (b_data b) (e * i) e)) in *.
      set (D1 := zblit (b_data b) (e * i) (zsub (b_data b) (e * j) e)) in *.
      set (D2 := zblit D1 (e * j) (zsub T1 0 e)) in *.
      destruct ST as (LT1 & LD1 & LD2 & V).
      set (mkT := fun T => mk_blob KNumArray false 1 e T). change (mk_blob KNumArray false 1 e T) with (mkT T).
      assert (TO : forall T, zlen T = e -> blob_ok (mkT T)).
      { intros T0 Q0. unfold blob_ok, mkT. cbn. repeat split; try lia; intros X; discriminate. }
      assert (DO : forall D, zlen D = e * L -> blob_ok (with_data b D)).
      { intros D Q0. destruct BO as (O1 & O2 & O3 & O4). unfold blob_ok. cbn. repeat split; auto; try lia; apply O4. }
      assert (RR : forall D, is_raw (with_data b D) = true) by (intros; exact R).
      assert (SL : e * L <= INT32_MAX) by exact SZ.
      unfold fn_memcpy.
      rewrite (fn_copy_ok false (h ++ [mkT T]) (zlen h) (mkT T) 0 a b (e * i) e);
        [ | apply heap_ok_app; auto | apply int_sizes_app; auto; cbn; lia | apply znth_snoc
          | rewrite znth_app_l; auto | auto | auto | auto | lia | unfold inside; cbn; lia | unfold inside; lia
          | intros _ (X & _); injection X; lia].
      rewrite obind_ret. unfold after_copy at 1. rewrite zupd_snoc. cbn [b_data mkT with_data]. fold T1.
      change (with_data (mkT T) T1) with (mkT T1).
      rewrite (fn_copy_ok true (h ++ [mkT T1]) a b (e * i) a b (e * j) e);
        [ | apply heap_ok_app; auto | apply int_sizes_app; auto; cbn; lia | rewrite znth_app_l; auto
          | rewrite znth_app_l; auto | auto | auto | auto | lia | unfold inside; lia | unfold inside; lia
          | discriminate].
      rewrite obind_ret. unfold after_copy at 1. rewrite zupd_app_l by auto. fold D1.
      set (b1 := with_data b D1). set (h1 := zupd h a b1).
      assert (A1 : znth h1 a = Some b1).
      { unfold h1. rewrite znth_upd. rewrite Z.eqb_refl.
        destruct (Z.leb_spec 0 a); [| lia]. destruct (Z.ltb_spec a (zlen h)); [| lia]. reflexivity. }
      assert (Z1 : zlen h1 = zlen h) by apply zlen_upd.
      assert (H1 : heap_ok h1) by (apply heap_ok_upd; auto; apply DO; auto).
      assert (I1 : int_sizes h1) by (apply int_sizes_upd; auto; cbn; lia).
      assert (S1 : znth (h1 ++ [mkT T1]) (zlen h) = Some (mkT T1)) by (rewrite <- Z1; apply znth_snoc).
      assert (LL1 : zlen (b_data b1) = e * L) by exact LD1.
      rewrite (fn_copy_ok false (h1 ++ [mkT T1]) a b1 (e * j) (zlen h) (mkT T1) 0 e);
        [ | apply heap_ok_app; auto | apply int_sizes_app; auto; cbn; lia | rewrite znth_app_l by lia; auto
          | auto | apply RR | auto | auto | lia | unfold inside; lia | unfold inside; cbn; lia
          | intros _ (X & _); injection X; lia].
      rewrite obind_ret. unfold after_copy. rewrite zupd_app_l by lia. cbn [b_data mkT b1 with_data]. fold D2.
      change (with_data b1 D2) with (with_data b D2).
      assert (HH : zupd h1 a (with_data b D2) = zupd h a (with_data b D2)).
      { unfold h1. apply znth_ext. intros x X. rewrite !znth_upd, !zlen_upd.
        destruct ((x =? a) && (0 <=? a) && (a <? zlen h)); auto. }
      rewrite HH. set (h2 := zupd h a (with_data b D2)).
      assert (A2 : znth h2 a = Some (with_data b D2)).
      { unfold h2. rewrite znth_upd. rewrite Z.eqb_refl.
        destruct (Z.leb_spec 0 a); [| lia]. destruct (Z.ltb_spec a (zlen h)); [| lia]. reflexivity. }
      assert (Z2 : zlen h2 = zlen h) by apply zlen_upd.
      destruct (IH h2 a (with_data b D2) T1 (i - 1) seed1) as (D' & T' & s' & E & LD' & V'); auto; [ | | lia | lia |].
      { apply heap_ok_upd; auto. }
      { apply int_sizes_upd; auto. cbn. lia. }
      exists D', T', s'. split; [| split; [exact LD' |]].
      + rewrite Z2 in E. cbn beta. change (mkT T1) with (mk_blob KNumArray false 1 e T1). rewrite E. do 3 f_equal. unfold h2. apply znth_ext. intros x X. rewrite !znth_upd, !zlen_upd.
        destruct ((x =? a) && (0 <=? a) && (a <? zlen h)); auto.
      + unfold elem_get. rewrite !znth_elements.
        replace ((0 <=? i) && (i <? L)) with true by lia. replace ((0 <=? j) && (j <? L)) with true by lia. cbn [obind].
        unfold elem_set. rewrite zlen_elements by exact L0. replace ((0 <=? i) && (i <? L)) with true by lia. cbn [obind].
        rewrite zlen_upd, zlen_elements by exact L0. replace ((0 <=? j) && (j <? L)) with true by lia. cbn [obind].
        rewrite <- V. exact V'.
  Qed.
End Elem.

(** An array of numbers (or of multi-numeric values) is shuffled like an array of objects:
    the same positions for the same seed, and so a permutation; the other objects stay as
    they are. Here equal ranges are copied as memmove does. *)
Theorem C43_shuffle_any_numeric_partial h a b seed :
  heap_ok h -> int_sizes h -> znth h a = Some b -> b_kind b = KNumArray \/ b_kind b = KMulArray -> b_elem_size b <= INT32_MAX ->
  exists D' t seed', shuffle_any_numeric true h (Some a) seed = Ret (zupd h a (with_data b D') ++ [t], seed') /\
    zlen D' = zlen (b_data b) /\
    shuffle crand (Some (elements (b_elem_size b) (b_length b) (b_data b))) seed = Ret (elements (b_elem_size b) (b_length b) D', seed') /\
    Permutation (elements (b_elem_size b) (b_length b) (b_data b)) (elements (b_elem_size b) (b_length b) D').
Proof.
  intros H IS A K LE. pose proof (heap_ok_at _ _ _ H A) as (O1 & O2 & O3 & O4 & O5). pose proof (int_sizes_at _ _ _ IS A).
  set (e := b_elem_size b) in *. set (L := b_length b) in *.
  assert (RO : b_read_only b = false). { destruct (b_read_only b); [| reflexivity]. specialize (O5 eq_refl). destruct K; congruence. }
  assert (R : is_raw b = true) by (unfold is_raw; destruct K as [-> | ->]; reflexivity).
  unfold shuffle_any_numeric. rewrite A. fold e L.
  destruct (shuffle_numeric_ok e L ltac:(lia) ltac:(lia) ltac:(lia) (Z.to_nat (L - 1)) h a b (zrep e 0) (Z.max 0 (L - 1)) seed) as (D' & T' & s' & E & LD & V);
    auto; try lia; [rewrite zlen_rep; lia |].
  assert (S : shuffle crand (Some (elements e L (b_data b))) seed = Ret (elements e L D', s')).
  { cbn [shuffle]. rewrite zlen_elements by lia. destruct (Z.eq_dec L 0) as [Lz |]; [rewrite Lz in *; exact V |].
    replace (Z.max 0 (L - 1)) with (L - 1) in V by lia. exact V. }
  exists D', (mk_blob KNumArray false 1 e T'), s'. split; [| split; [lia | split; [exact S |]]].
  - assert (Q : shuffle_numeric_loop true (Z.to_nat (L - 1)) (h ++ [mk_blob KNumArray false 1 e (zrep e 0)]) (zlen h) a e (L - 1) seed
       = Ret (zupd h a (with_data b D') ++ [mk_blob KNumArray false 1 e T'], s')).
    { destruct (Z.eq_dec L 0) as [Lz |]; [rewrite Lz in *; exact E |]. replace (Z.max 0 (L - 1)) with (L - 1) in E by lia. exact E. }
    destruct K as [-> | ->]; exact Q.
  - destruct (Z.eq_dec L 0) as [Lz |].
    + rewrite Lz. constructor.
    + cbn [shuffle] in S. destruct (shuffle_loop_ok crand (Z.to_nat (zlen (elements e L (b_data b)) - 1)) (zlen (elements e L (b_data b)) - 1) seed
        (elements e L (b_data b))) as (x & y & Q & P); [intros z; pose proof (crand_range z); lia | rewrite zlen_elements by lia; lia | lia |].
      rewrite S in Q. injection Q as <- <-. exact P.
Qed.

(** With the memcpy of the C standard the same happens, or the behaviour is undefined. *)
Lemma fn_copy_std h d doff s soff n : fn_copy false h d doff s soff n = UB \/ fn_copy false h d doff s soff n = fn_copy true h d doff s soff n.
Proof.
  unfold fn_copy. destruct (get_raw h d _ _) as [[d' bd] | | |]; cbn [obind]; auto.
  destruct (get_raw h s _ _) as [[s' bs] | | |]; cbn [obind]; auto.
  destruct (negb _); auto. destruct (n >=? 0); auto. destruct (n =? 0); auto.
  destruct (byte_length bd); cbn [obind]; auto. destruct (c_add doff n); cbn [obind]; auto. destruct (_ <=? _); auto.
  destruct (byte_length bs); cbn [obind]; auto. destruct (c_add soff n); cbn [obind]; auto. destruct (_ <=? _); auto.
  unfold c_copy. destruct (block_copy _ _ _ _ _); cbn [obind]; auto. cbn [negb andb]. destruct (_ && _); auto.
Qed.
Lemma loop_std n : forall h t a e i seed, shuffle_numeric_loop false n h t a e i seed = UB \/
  shuffle_numeric_loop false n h t a e i seed = shuffle_numeric_loop true n h t a e i seed.
Proof.
  induction n as [| n IH]; intros; [auto |]. cbn [shuffle_numeric_loop]. destruct (crand seed) as [r seed1].
  destruct (fn_memcpy h _ _ _ _ _) as [h1 | | |]; cbn [obind]; auto.
  destruct (fn_copy_std h1 (Some a) (wrap32 (e * i)) (Some a) (wrap32 (e * Z.rem r (wrap32 (i + 1)))) e) as [-> | ->]; [auto |].
  destruct (fn_copy true _ _ _ _ _ _) as [h2 | | |]; cbn [obind]; auto. destruct (fn_memcpy h2 _ _ _ _ _); cbn [obind]; auto.
Qed.
Theorem C43_shuffle_any_numeric_std_partial h o seed :
  shuffle_any_numeric false h o seed = UB \/ shuffle_any_numeric false h o seed = shuffle_any_numeric true h o seed.
Proof.
  unfold shuffle_any_numeric. destruct o as [a |]; [| auto]. destruct (znth h a) as [b |]; [| auto].
  destruct (b_kind b); auto; apply loop_std.
Qed.
(** It is undefined as soon as an element is to be exchanged with itself: memcpy is called
    with equal ranges (Array.spvm:1454). *)
Definition two_ints : heap := [mk_blob KNumArray false 4 2 [1; 0; 0; 0; 2; 0; 0; 0]].
Theorem C43_shuffle_any_numeric_refuted : exists h seed, heap_ok h /\ int_sizes h /\ shuffle_any_numeric false h (Some 0) seed = UB.
Proof.
  exists two_ints, 1. split; [| split; [| vm_compute; reflexivity]].
  - constructor; [| constructor]. unfold blob_ok. cbn. repeat split; try lia; discriminate.
  - constructor; [| constructor]. unfold zlen. cbn. lia.
Qed.
Example shuffle_any_numeric_ex : exists t s, shuffle_any_numeric false two_ints (Some 0) 5 =
  Ret ([mk_blob KNumArray false 4 2 [2; 0; 0; 0; 1; 0; 0; 0]; t], s).
Proof. do 2 eexists. vm_compute. reflexivity. Qed.
Example elements_ex : elements 4 2 [1; 0; 0; 0; 2; 0; 0; 0] = [[1; 0; 0; 0]; [2; 0; 0; 0]].
Proof. reflexivity. Qed.

Print Assumptions C43_shuffle_any_numeric_partial.
Print Assumptions C43_shuffle_any_numeric_std_partial.
Print Assumptions C43_shuffle_any_numeric_refuted.
