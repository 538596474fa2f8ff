(** * Proofs about the string functions of Fn *)
From Verif Require Import Base CLib Array_model FnMem_model FnMem_spec FnMem_proofs FnRev_proofs FnStr_model FnStr_spec.

Lemma wrap8_byte b : 0 <= b <= 255 -> wrap8 b = if b <? 128 then b else b - 256.
Proof.
  intros. destruct (Z.ltb_spec b 128).
  - apply wrap8_id. unfold in_i8. lia.
  - unfold wrap8, wrap. replace (b + 128) with (b - 128 + 1 * (2 * 128)) by lia.
    rewrite Z.mod_add by lia. rewrite Z.mod_small; lia.
Qed.
Lemma wrap8_inj b c : 0 <= b <= 255 -> 0 <= c <= 255 -> wrap8 b = wrap8 c -> b = c.
Proof. intros. rewrite !wrap8_byte in * by auto. destruct (Z.ltb_spec b 128); destruct (Z.ltb_spec c 128); lia. Qed.
Lemma to_byte_wrap8 b : 0 <= b <= 255 -> to_byte (wrap8 b) = b.
Proof.
  intros. rewrite wrap8_byte by auto. unfold to_byte, u8. destruct (Z.ltb_spec b 128).
  - apply Z.mod_small. lia.
  - replace (b - 256) with (b + (-1) * 256) by lia. rewrite Z.mod_add by lia. apply Z.mod_small. lia.
Qed.
Lemma to_byte_small b : 0 <= b <= 255 -> to_byte b = b.
Proof. intros. unfold to_byte, u8. apply Z.mod_small. lia. Qed.

Lemma string_byte s i b : is_string s -> znth s i = Some b -> 0 <= b <= 255.
Proof. intros [F _] E. apply znth_In in E. rewrite Forall_forall in F. apply (F _ E). Qed.

Lemma char_at_ok s i b : znth s i = Some b -> char_at s i = Ret (wrap8 b).
Proof. intros E. unfold char_at. rewrite (elem_get_ok _ _ _ E). reflexivity. Qed.

Lemma new_string_len_ok n : 0 <= n < INT32_MAX -> new_string_len n = Ret (zrep n 0).
Proof.
  intros. unfold new_string_len. destruct (Z.leb_spec 0 n); [| lia]. destruct (Z.eqb_spec n INT32_MAX); [lia |]. reflexivity.
Qed.

Lemma concat_ok a b : zlen a + zlen b < INT32_MAX -> concat a b = Ret (a ++ b).
Proof.
  intros. unfold concat. pose proof (zlen_nonneg a). pose proof (zlen_nonneg b).
  rewrite c_add_range, obind_ret by (unfold in_i32; lia).
  destruct (Z.eqb_spec (zlen a + zlen b) INT32_MAX); [lia |]. reflexivity.
Qed.

Lemma bytes_copy_ok d doff s soff n :
  zlen d <= INT32_MAX -> zlen s <= INT32_MAX ->
  0 <= n -> n = 0 \/ inside (zlen d) doff n /\ inside (zlen s) soff n ->
  bytes_copy d doff s soff n = Ret (if n =? 0 then d else zblit d doff (zsub s soff n)).
Proof.
  intros LD LS N I. unfold bytes_copy. destruct (Z.geb_spec n 0); [| lia].
  destruct (Z.eqb_spec n 0); auto. destruct I as [I | [I1 I2]]; [lia |].
  pose proof I1. pose proof I2. unfold inside in *.
  rewrite c_add_range, obind_ret by (unfold in_i32; lia).
  destruct (Z.leb_spec (doff + n) (zlen d)); [| lia].
  rewrite c_add_range, obind_ret by (unfold in_i32; lia).
  destruct (Z.leb_spec (soff + n) (zlen s)); [| lia].
  apply block_copy_ok; auto.
Qed.

(** [bytes_copy] is memcpy and memmove on two different strings. *)
Lemma fn_copy_strings move h d bd doff s bs soff n :
  heap_ok h -> znth h d = Some bd -> znth h s = Some bs -> d <> s \/ move = true ->
  b_kind bd = KString -> b_kind bs = KString -> b_read_only bd = false ->
  fn_copy move h (Some d) doff (Some s) soff n =
  (let! data := bytes_copy (b_data bd) doff (b_data bs) soff n in
   Ret (if n =? 0 then h else zupd h d (with_data bd data))).
Proof.
  intros H D S NE K1 K2 RO.
  pose proof (heap_ok_at _ _ _ H D) as (A1 & A2 & A3 & A4 & _). specialize (A4 K1). rewrite A4 in A3.
  pose proof (heap_ok_at _ _ _ H S) as (B1 & B2 & B3 & B4 & _). specialize (B4 K2). rewrite B4 in B3.
  unfold fn_copy, get_raw. rewrite D, S. unfold is_raw. rewrite K1, K2. cbn [obind]. rewrite RO. cbn [negb].
  unfold bytes_copy. destruct (n >=? 0); [| reflexivity].
  destruct (Z.eqb_spec n 0); [reflexivity |].
  rewrite (byte_length_ok bd), obind_ret by (try apply (heap_ok_at _ _ _ H D); lia).
  destruct (c_add doff n); cbn [obind]; auto.
  rewrite A3. destruct (a <=? 1 * b_length bd); auto.
  rewrite (byte_length_ok bs), obind_ret by (try apply (heap_ok_at _ _ _ H S); lia).
  destruct (c_add soff n); cbn [obind]; auto.
  rewrite B3. destruct (a0 <=? 1 * b_length bs); auto.
  unfold c_copy. destruct (block_copy (b_data bd) doff (b_data bs) soff n); cbn [obind]; auto.
  destruct NE as [NE | ->].
  - destruct (Z.eqb_spec d s); [lia |]. rewrite andb_false_r. reflexivity.
  - reflexivity.
Qed.

(** ** substr *)

Lemma substr_take (s : list Z) off n :
  0 <= off -> 0 <= n -> off + n <= zlen s ->
  (if n =? 0 then zrep n 0 else zblit (zrep n 0) 0 (zsub s off n)) = zsub s off n.
Proof.
  intros O N L. destruct (Z.eqb_spec n 0) as [-> | NZ].
  - symmetry. apply zlen_0_nil. rewrite zlen_sub. lia.
  - apply znth_ext. intros i I. rewrite znth_zblit_sub by (rewrite ?zlen_rep; lia). rewrite znth_rep, znth_sub.
    destruct (Z.leb_spec 0 i); [| lia]. cbn [andb].
    destruct (Z.ltb_spec i (0 + n)); destruct (Z.ltb_spec i n); try lia; auto. f_equal. lia.
Qed.

Definition effective_length (s : list Z) (off n : Z) : Z := if n <? 0 then zlen s - off else n.

Lemma substr0_ok s off n :
  is_string s -> 0 <= off -> let m := effective_length s off n in 0 <= m -> off + m <= zlen s ->
  substr0 (Some s) off n = Ret (zsub s off m).
Proof.
  intros [_ L] O m M B. unfold substr0. pose proof (zlen_nonneg s).
  destruct (Z.geb_spec off 0); [| lia].
  assert (E : (if n <? 0 then wrap32 (zlen s - off) else n) = m).
  { unfold m, effective_length in *. destruct (n <? 0); auto. apply wrap32_id. unfold in_i32. lia. }
  rewrite E. rewrite wrap32_id by (unfold in_i32; lia).
  destruct (Z.leb_spec (off + m) (zlen s)); [| lia].
  rewrite new_string_len_ok, obind_ret by lia.
  rewrite bytes_copy_ok; [rewrite substr_take by lia; reflexivity | rewrite zlen_rep; lia | lia | lia |].
  right. unfold inside. rewrite zlen_rep. lia.
Qed.

(** All calls whose offset + length is an int. *)
Lemma substr0_spec s off n :
  is_string s -> in_i32 off -> in_i32 n -> off + n <= INT32_MAX ->
  let m := effective_length s off n in
  match substr0 (Some s) off n with
  | Ret t => 0 <= off /\ 0 <= m /\ off + m <= zlen s /\ t = zsub s off m
  | Die _ => ~ (0 <= off /\ 0 <= m /\ off + m <= zlen s)
  | _ => False
  end.
Proof.
  intros IS O N SUM m. pose proof IS as [_ L]. pose proof (zlen_nonneg s). unfold in_i32 in *.
  destruct (Z.leb_spec 0 off) as [O0 | O0].
  2: { unfold substr0. destruct (Z.geb_spec off 0); [lia |]. lia. }
  destruct (Z.leb_spec 0 m) as [M0 | M0]; [destruct (Z.leb_spec (off + m) (zlen s)) as [B | B] |].
  - rewrite substr0_ok by auto. auto.
  - unfold substr0. destruct (Z.geb_spec off 0); [| lia].
    assert (E : (if n <? 0 then wrap32 (zlen s - off) else n) = m).
    { unfold m, effective_length in *. destruct (n <? 0); auto. apply wrap32_id. unfold in_i32. lia. }
    rewrite E. unfold m, effective_length in *. destruct (Z.ltb_spec n 0); [lia |].
    rewrite wrap32_id by (unfold in_i32; lia).
    destruct (Z.leb_spec (off + n) (zlen s)); [lia |]. lia.
  - unfold substr0. destruct (Z.geb_spec off 0); [| lia].
    unfold m, effective_length in *. destruct (Z.ltb_spec n 0); [| lia].
    rewrite (wrap32_id (zlen s - off)), wrap32_id by (unfold in_i32; lia).
    destruct (Z.leb_spec (off + (zlen s - off)) (zlen s)); [| lia].
    unfold new_string_len. destruct (Z.leb_spec 0 (zlen s - off)); [lia |]. cbn [obind]. lia.
Qed.

Lemma substr_replace_spec s off n r :
  is_string s -> zlen r < INT32_MAX -> in_i32 off -> in_i32 n -> off + n <= INT32_MAX ->
  let m := effective_length s off n in
  zlen s + zlen r < INT32_MAX ->
  match substr (Some s) off n (Some r) with
  | Ret t => 0 <= off /\ 0 <= m /\ off + m <= zlen s /\ t = ztake off s ++ r ++ zdrop (off + m) s
  | Die _ => ~ (0 <= off /\ 0 <= m /\ off + m <= zlen s)
  | _ => False
  end.
Proof.
  intros IS LR O N SUM m SZ. pose proof IS as [F L]. pose proof (zlen_nonneg s). pose proof (zlen_nonneg r). unfold in_i32 in *.
  unfold substr. destruct (Z.geb_spec off 0); [| lia].
  assert (E : (if n <? 0 then wrap32 (zlen s - off) else n) = m).
  { unfold m, effective_length in *. destruct (n <? 0); auto. apply wrap32_id. unfold in_i32. lia. }
  rewrite E. assert (SM : in_i32 (off + m)).
  { unfold in_i32, m, effective_length in *. destruct (Z.ltb_spec n 0); lia. }
  unfold in_i32 in SM.
  rewrite wrap32_id by (unfold in_i32; lia).
  destruct (Z.leb_spec (off + m) (zlen s)) as [B | B]; [| lia].
  destruct (Z.leb_spec off (zlen s)) as [OL | OL].
  - assert (M0 : 0 <= m) by (unfold m, effective_length in *; destruct (Z.ltb_spec n 0); lia).
    rewrite substr0_ok; [| auto | lia | unfold effective_length; destruct (Z.ltb_spec off 0); lia
                         | unfold effective_length; destruct (Z.ltb_spec off 0); lia].
    rewrite obind_ret. unfold effective_length at 1. destruct (Z.ltb_spec off 0); [lia |].
    rewrite concat_ok by (rewrite zlen_sub; lia). rewrite obind_ret.
    rewrite substr0_ok; [| auto | lia | unfold effective_length; cbn; lia | unfold effective_length; cbn; lia].
    unfold effective_length at 1. change (-1 <? 0) with true. cbn iota.
    rewrite obind_ret, concat_ok by (rewrite !zlen_app, !zlen_sub; lia).
    assert (ES : zsub s (off + m) (zlen s - (off + m)) = zdrop (off + m) s).
    { unfold zsub. apply ztake_all. rewrite zlen_drop. lia. }
    rewrite ES, <- app_assoc. rewrite zsub_0 by auto. auto.
  - unfold substr0 at 1. change (0 >=? 0) with true. cbn iota. destruct (Z.ltb_spec off 0); [lia |].
    rewrite wrap32_id by (unfold in_i32; lia). destruct (Z.leb_spec (0 + off) (zlen s)); [lia |]. cbn [obind].
    unfold m, effective_length in *. destruct (Z.ltb_spec n 0); lia.
Qed.

(** ** index *)

Lemma occurs_pointwise s sub i :
  occurs s sub i <->
  0 <= i /\ i + zlen sub <= zlen s /\ forall j, 0 <= j < zlen sub -> znth s (i + j) = znth sub j.
Proof.
  split.
  - intros (b & a & -> & <-). zlens. pose proof (zlen_nonneg a). split; [auto |]. split; [lia |].
    intros j J. rewrite !znth_app. pose proof (zlen_nonneg b).
    destruct (Z.ltb_spec (zlen b + j) (zlen b)); [lia |].
    replace (zlen b + j - zlen b) with j by lia. destruct (Z.ltb_spec j (zlen sub)); [auto | lia].
  - intros (I & L & V). exists (ztake i s), (zdrop (i + zlen sub) s). pose proof (zlen_nonneg sub).
    split; [| rewrite zlen_take; lia].
    apply znth_ext. intros k K. rewrite !znth_app, zlen_take, znth_take, znth_drop.
    replace (Z.min (Z.max 0 i) (zlen s)) with i by lia.
    destruct (Z.ltb_spec k i); auto. destruct (Z.ltb_spec (k - i) (zlen sub)).
    + rewrite <- V by lia. f_equal. lia.
    + destruct (Z.ltb_spec (k - i - zlen sub) 0); [lia |]. f_equal. lia.
Qed.

Lemma match_loop_ok n : forall s sub end_ i k,
  is_string s -> is_string sub -> 0 <= i -> end_ < zlen s -> 0 <= k -> k + Z.of_nat n = zlen sub ->
  i <= end_ + 1 -> i + k <= end_ + 1 ->
  exists r, match_loop n s sub end_ i k = Ret r /\
    (r = true <-> forall j, k <= j < zlen sub -> i + j <= end_ /\ znth s (i + j) = znth sub j).
Proof.
  induction n as [| n IH]; intros s sub end_ i k S B I E K N IE IK.
  - exists true. cbn. split; auto. split; auto. intros; lia.
  - cbn [match_loop]. pose proof S as [_ LS]. pose proof B as [_ LB]. pose proof (zlen_nonneg s).
    rewrite wrap32_id by (unfold in_i32; lia).
    destruct (Z.gtb_spec (i + k) end_).
    { exists false. split; auto. split; [discriminate |]. intros V. specialize (V k ltac:(lia)). lia. }
    destruct (znth_lt s (i + k)) as [x X]; [lia |]. destruct (znth_lt sub k) as [y Y]; [lia |].
    rewrite (char_at_ok _ _ _ X), obind_ret, (char_at_ok _ _ _ Y), obind_ret.
    pose proof (string_byte _ _ _ S X). pose proof (string_byte _ _ _ B Y).
    destruct (Z.eqb_spec (wrap8 x) (wrap8 y)) as [E1 | E1].
    + apply wrap8_inj in E1; auto. subst y.
      destruct (IH s sub end_ i (k + 1)) as (r & R & V); auto; try lia.
      exists r. split; auto. rewrite V. split; intros W j J.
      * destruct (Z.eqb_spec j k); [subst; split; [lia | congruence] | apply W; lia].
      * apply W. lia.
    + exists false. split; auto. split; [discriminate |]. intros V. destruct (V k ltac:(lia)) as [_ V'].
      rewrite X, Y in V'. congruence.
Qed.

Lemma match_ok s sub end_ i :
  is_string s -> is_string sub -> 0 < zlen sub -> 0 <= i -> i <= end_ + 1 -> end_ < zlen s ->
  exists r, match_loop (Z.to_nat (zlen sub)) s sub end_ i 0 = Ret r /\
    (r = true <-> occurs s sub i /\ i + zlen sub - 1 <= end_).
Proof.
  intros S B P I IE E. destruct (match_loop_ok (Z.to_nat (zlen sub)) s sub end_ i 0) as (r & R & V); auto; try lia.
  exists r. split; auto. rewrite V, occurs_pointwise. split.
  - intros W. destruct (W (zlen sub - 1)); [lia |]. repeat split; auto; try lia. intros j J. apply W. lia.
  - intros [(_ & _ & W) L] j J. split; [lia | auto].
Qed.

Lemma index_loop_ok n : forall s sub last i,
  is_string s -> is_string sub -> 0 < zlen sub -> 0 <= i -> last < zlen s -> Z.of_nat n = Z.max 0 (last - i + 1) ->
  exists r, index_loop n s sub last i = Ret r /\ least_occurrence s sub i last r.
Proof.
  induction n as [| n IH]; intros s sub last i S B P I L N.
  - exists (-1). split; auto. right. split; auto. intros j (J1 & J2 & _). lia.
  - cbn [index_loop]. destruct (match_ok s sub last i) as (f & F & V); auto; [lia |].
    rewrite F, obind_ret. destruct f.
    + exists i. split; auto. left. destruct V as [V _]. destruct (V eq_refl). split.
      * unfold occurs_between. repeat split; auto; lia.
      * intros j (J & _). lia.
    + destruct (IH s sub last (i + 1)) as (r & R & W); auto; try lia. exists r. split; auto.
      assert (NO : forall j, occurs_between s sub i last j -> occurs_between s sub (i + 1) last j).
      { intros j (J1 & J2 & J3). destruct (Z.eqb_spec j i).
        - subst. destruct V as [_ V]. discriminate V; auto.
        - repeat split; auto; lia. }
      destruct W as [[(W1 & W2 & W3) W] | [-> W]].
      * left. split; [repeat split; auto; lia |]. intros j J. apply W, NO, J.
      * right. split; auto. intros j J. apply (W j), NO, J.
Qed.

Lemma rindex_loop_ok n : forall s sub begin last i,
  is_string s -> is_string sub -> 0 < zlen sub -> 0 <= begin -> i <= last -> last < zlen s ->
  Z.of_nat n = Z.max 0 (i - begin + 1) ->
  exists r, rindex_loop n s sub last i = Ret r /\
    ((occurs_between s sub begin last r /\ r <= i /\
      forall j, occurs_between s sub begin last j -> j <= i -> j <= r) \/
     (r = -1 /\ forall j, j <= i -> ~ occurs_between s sub begin last j)).
Proof.
  induction n as [| n IH]; intros s sub begin last i S B P I LI L N.
  - exists (-1). split; auto. right. split; auto. intros j J1 (J2 & J3 & _). lia.
  - cbn [rindex_loop]. destruct (match_ok s sub last i) as (f & F & V); auto; [lia | lia |].
    rewrite F, obind_ret. destruct f.
    + exists i. split; auto. left. destruct V as [V _]. destruct (V eq_refl). split; [| split; [lia |]].
      * unfold occurs_between. repeat split; auto; lia.
      * auto.
    + destruct (IH s sub begin last (i - 1)) as (r & R & W); auto; try lia. exists r. split; auto.
      assert (NO : forall j, occurs_between s sub begin last j -> j <= i -> j <= i - 1).
      { intros j (J1 & J2 & J3) J4. destruct (Z.eqb_spec j i); [| lia].
        subst. destruct V as [_ V]. discriminate V; auto. }
      destruct W as [(W1 & W2 & W) | [-> W]].
      * left. split; [auto |]. split; [lia |]. intros j J J'. apply W; auto.
      * right. split; auto. intros j J J'. apply (W j); auto.
Qed.

Lemma search_args_spec s sub begin end_ :
  0 <= zlen s ->
  match search_args (Some s) (Some sub) begin end_ with
  | Ret (s', sub', e) => range_ok s begin end_ /\ s' = s /\ sub' = sub /\ e = if end_ <? 0 then zlen s else end_
  | Die _ => ~ range_ok s begin end_
  | _ => False
  end.
Proof.
  intros. unfold search_args, range_ok.
  destruct (Z.geb_spec begin 0); cbn [andb]; [| lia].
  destruct (Z.leb_spec begin (zlen s)); [| lia].
  destruct (Z.ltb_spec end_ 0).
  - destruct (Z.leb_spec (zlen s) (zlen s)); [| lia]. destruct (Z.geb_spec (zlen s) begin); [| lia].
    repeat split; auto; lia.
  - destruct (Z.leb_spec end_ (zlen s)); [| lia]. destruct (Z.geb_spec end_ begin); [| lia].
    repeat split; auto; lia.
Qed.

Lemma last_facts s begin end_ :
  range_ok s begin end_ ->
  let e := if end_ <? 0 then zlen s else end_ in
  (if e =? zlen s then e - 1 else e) = last_position s end_ /\ last_position s end_ < zlen s /\
  begin <= last_position s end_ + 1.
Proof.
  unfold range_ok, last_position. intros R. cbv zeta.
  destruct (Z.ltb_spec end_ 0); cbn [orb].
  - rewrite Z.eqb_refl. lia.
  - destruct (Z.eqb_spec end_ (zlen s)); lia.
Qed.

Lemma index_spec s sub begin end_ :
  is_string s -> is_string sub ->
  match index (Some s) (Some sub) begin end_ with
  | Ret r => range_ok s begin end_ /\
      (sub = [] -> r = begin) /\ (sub <> [] -> least_occurrence s sub begin (last_position s end_) r)
  | Die _ => ~ range_ok s begin end_
  | _ => False
  end.
Proof.
  intros S B. unfold index. pose proof (search_args_spec s sub begin end_ (zlen_nonneg s)) as A.
  destruct (search_args (Some s) (Some sub) begin end_) as [[[s' sub'] e] | | |]; cbn [obind]; auto.
  destruct A as (R & -> & -> & ->).
  pose proof (last_facts s begin end_ R) as (LF & LL & LB). cbv zeta in LF.
  destruct (Z.eqb_spec (zlen sub) 0) as [Z0 | NZ].
  - split; auto. split; auto. intros N. apply zlen_0_nil in Z0. congruence.
  - rewrite LF. pose proof (zlen_nonneg sub). destruct R as (R1 & R2 & R3).
    destruct (index_loop_ok (Z.to_nat (last_position s end_ - begin + 1)) s sub (last_position s end_) begin) as (r & -> & V);
      auto; try lia.
    split; [repeat split; auto; lia |]. split; auto. intros ->. rewrite zlen_nil in NZ. lia.
Qed.

Lemma rindex_spec s sub begin end_ :
  is_string s -> is_string sub ->
  match rindex (Some s) (Some sub) end_ begin with
  | Ret r => range_ok s begin end_ /\
      (sub = [] -> r = if end_ <? 0 then zlen s else end_) /\
      (sub <> [] -> greatest_occurrence s sub begin (last_position s end_) r)
  | Die _ => ~ range_ok s begin end_
  | _ => False
  end.
Proof.
  intros S B. unfold rindex. pose proof (search_args_spec s sub begin end_ (zlen_nonneg s)) as A.
  destruct (search_args (Some s) (Some sub) begin end_) as [[[s' sub'] e] | | |]; cbn [obind]; auto.
  destruct A as (R & -> & -> & ->).
  pose proof (last_facts s begin end_ R) as (LF & LL & LB). cbv zeta in LF.
  destruct (Z.eqb_spec (zlen sub) 0) as [Z0 | NZ].
  - split; auto. split; auto. intros N. apply zlen_0_nil in Z0. congruence.
  - rewrite LF. pose proof (zlen_nonneg sub). destruct R as (R1 & R2 & R3).
    destruct (rindex_loop_ok (Z.to_nat (last_position s end_ - begin + 1)) s sub begin (last_position s end_) (last_position s end_))
      as (r & -> & V); auto; try lia.
    split; [repeat split; auto; lia |]. split; [intros ->; rewrite zlen_nil in NZ; lia |]. intros _.
    destruct V as [(V1 & V2 & V3) | [-> V]].
    + left. split; auto. intros i I. apply V3; auto. destruct I as (I1 & I2 & _). lia.
    + right. split; auto. intros i I. apply (V i); auto. destruct I as (I1 & I2 & _). lia.
Qed.

(** ** Letter case *)

Lemma case_loop_ok (f : Z -> Z) lo hi delta :
  (forall b, 0 <= b <= 255 ->
     to_byte (if (wrap8 b >=? lo) && (wrap8 b <=? hi) then wrap32 (wrap8 b + delta) else wrap8 b) = f b) ->
  forall n s out i, is_string s -> zlen out = zlen s -> 0 <= i -> i + Z.of_nat n = zlen s ->
    case_loop n s out lo hi delta i = Ret (ztake i out ++ map f (zdrop i s)).
Proof.
  intros HF. induction n as [| n IH]; intros s out i S L I N.
  - cbn. rewrite ztake_all, zdrop_all by lia. cbn [map]. rewrite app_nil_r. reflexivity.
  - cbn [case_loop]. destruct (znth_lt s i) as [b B]; [lia |].
    rewrite (char_at_ok _ _ _ B), obind_ret. pose proof (string_byte _ _ _ S B) as RB.
    specialize (HF b RB).
    set (v := if (wrap8 b >=? lo) && (wrap8 b <=? hi) then wrap32 (wrap8 b + delta) else wrap8 b) in *.
    assert (E : (if (wrap8 b >=? lo) && (wrap8 b <=? hi) then elem_set out i (to_byte (wrap32 (wrap8 b + delta)))
                 else elem_set out i (to_byte (wrap8 b))) = Ret (zupd out i (f b))).
    { rewrite <- HF. unfold v. destruct ((wrap8 b >=? lo) && (wrap8 b <=? hi)); apply elem_set_ok; lia. }
    rewrite E, obind_ret, IH; [| auto | rewrite zlen_upd; auto | lia | lia].
    f_equal. rewrite (zdrop_cons s i b B). cbn [map].
    replace (ztake (i + 1) (zupd out i (f b))) with (ztake i out ++ [f b]).
    + rewrite <- app_assoc. reflexivity.
    + rewrite (ztake_snoc _ i (f b)).
      * f_equal. apply znth_ext. intros k K. rewrite !znth_take, znth_upd.
        destruct (Z.ltb_spec k i); auto. destruct (Z.eqb_spec k i); [lia | reflexivity].
      * rewrite znth_upd, Z.eqb_refl. destruct (Z.leb_spec 0 i); [| lia]. destruct (Z.ltb_spec i (zlen out)); [| lia]. reflexivity.
Qed.

Lemma lower_byte b : 0 <= b <= 255 ->
  to_byte (if (wrap8 b >=? 65) && (wrap8 b <=? 90) then wrap32 (wrap8 b + 32) else wrap8 b) = lower b.
Proof.
  intros. rewrite <- (to_byte_wrap8 b) at 4 by auto. unfold lower, capital. rewrite to_byte_wrap8 by auto.
  rewrite wrap8_byte by auto. destruct (Z.ltb_spec b 128).
  - destruct (Z.geb_spec b 65); destruct (Z.leb_spec b 90); destruct (Z.leb_spec 65 b); try lia; cbn [andb];
      rewrite ?wrap32_id by (unfold in_i32; lia); apply to_byte_small; lia.
  - replace ((b - 256 >=? 65) && (b - 256 <=? 90)) with false by lia.
    replace ((65 <=? b) && (b <=? 90)) with false by lia.
    rewrite <- (to_byte_wrap8 b) at 2 by auto. rewrite wrap8_byte by auto.
    destruct (Z.ltb_spec b 128); [lia | reflexivity].
Qed.
Lemma upper_byte b : 0 <= b <= 255 ->
  to_byte (if (wrap8 b >=? 97) && (wrap8 b <=? 122) then wrap32 (wrap8 b + -32) else wrap8 b) = upper b.
Proof.
  intros. unfold upper, small.
  rewrite wrap8_byte by auto. destruct (Z.ltb_spec b 128).
  - destruct (Z.geb_spec b 97); destruct (Z.leb_spec b 122); destruct (Z.leb_spec 97 b); try lia; cbn [andb];
      rewrite ?wrap32_id by (unfold in_i32; lia); rewrite to_byte_small; lia.
  - replace ((b - 256 >=? 97) && (b - 256 <=? 122)) with false by lia.
    replace ((97 <=? b) && (b <=? 122)) with false by lia.
    rewrite <- (to_byte_wrap8 b) at 2 by auto. rewrite wrap8_byte by auto.
    destruct (Z.ltb_spec b 128); [lia | reflexivity].
Qed.

Lemma case_map_ok (f : Z -> Z) lo hi delta s :
  (forall b, 0 <= b <= 255 ->
     to_byte (if (wrap8 b >=? lo) && (wrap8 b <=? hi) then wrap32 (wrap8 b + delta) else wrap8 b) = f b) ->
  is_string s -> case_map (Some s) lo hi delta = Ret (map f s).
Proof.
  intros HF S. unfold case_map. pose proof S as [_ L]. pose proof (zlen_nonneg s).
  rewrite new_string_len_ok, obind_ret by lia.
  rewrite (case_loop_ok f) by (auto; rewrite ?zlen_rep; lia).
  rewrite ztake_0, zdrop_0 by lia. reflexivity.
Qed.

Lemma first_map_ok (f : Z -> Z) lo hi delta s :
  (forall b, 0 <= b <= 255 ->
     to_byte (if (wrap8 b >=? lo) && (wrap8 b <=? hi) then wrap32 (wrap8 b + delta) else wrap8 b) = f b) ->
  is_string s -> s <> [] -> first_map (Some s) lo hi delta = Ret (on_first f s).
Proof.
  intros HF S NE. destruct s as [| b s]; [congruence |]. pose proof S as [_ L]. rewrite zlen_cons in L.
  pose proof (zlen_nonneg s). unfold first_map. rewrite zlen_cons, new_string_len_ok, obind_ret by lia.
  assert (B : znth (b :: s) 0 = Some b) by (rewrite znth_cons; reflexivity).
  pose proof (string_byte _ _ _ S B) as RB. specialize (HF b RB).
  destruct (Z.gtb_spec (1 + zlen s) 0); [| lia].
  rewrite (char_at_ok _ _ _ B), obind_ret.
  assert (E : (if (wrap8 b >=? lo) && (wrap8 b <=? hi) then elem_set (zrep (1 + zlen s) 0) 0 (to_byte (wrap32 (wrap8 b + delta)))
               else elem_set (zrep (1 + zlen s) 0) 0 (to_byte (wrap8 b))) = Ret (zupd (zrep (1 + zlen s) 0) 0 (f b))).
  { rewrite <- HF. destruct ((wrap8 b >=? lo) && (wrap8 b <=? hi)); apply elem_set_ok; rewrite zlen_rep; lia. }
  rewrite E, obind_ret, wrap32_id by (unfold in_i32; lia).
  assert (LU : zlen (zupd (zrep (1 + zlen s) 0) 0 (f b)) = 1 + zlen s) by (rewrite zlen_upd, zlen_rep; lia).
  rewrite bytes_copy_ok; [| lia | rewrite zlen_cons; lia | lia |].
  2: { destruct (Z.eqb_spec (1 + zlen s - 1) 0); [auto |]. right. unfold inside. rewrite LU, zlen_cons. lia. }
  f_equal. cbn [on_first]. destruct (Z.eqb_spec (1 + zlen s - 1) 0) as [Z0 | NZ].
  - assert (s = []) by (apply zlen_0_nil; lia). subst s. reflexivity.
  - apply znth_ext. intros k K. rewrite znth_zblit_sub by (rewrite ?LU, ?zlen_cons; lia).
    rewrite znth_upd, zlen_rep, znth_rep, !znth_cons.
    destruct (Z.eqb_spec k 0).
    + subst. destruct (Z.leb_spec 1 0); [lia |]. cbn [andb]. change (0 <=? 0) with true. cbn [andb].
      destruct (Z.ltb_spec 0 (Z.max 0 (1 + zlen s))); [reflexivity | lia].
    + destruct (Z.leb_spec 1 k); [| lia]. cbn [andb].
      destruct (Z.ltb_spec k (1 + (1 + zlen s - 1))).
      * destruct (Z.eqb_spec (1 + (k - 1)) 0); [lia |]. f_equal. lia.
      * destruct (Z.leb_spec 0 k); [| lia]. destruct (Z.ltb_spec k (1 + zlen s)); [lia |]. cbn [andb].
        symmetry. apply znth_ge. lia.
Qed.

Lemma first_map_empty lo hi delta : first_map (Some []) lo hi delta = Die e_length.
Proof. reflexivity. Qed.

(** ** trim *)

Lemma space_char b : 0 <= b <= 255 -> (is_space (wrap8 b) =? 1) = space b.
Proof.
  intros. unfold is_space, flag01, space. rewrite wrap8_byte by auto. cbn [existsb].
  destruct (Z.ltb_spec b 128).
  - destruct (((b >=? 9) && (b <=? 13)) || (b =? 32)) eqn:E; cbn; lia.
  - replace (((b - 256 >=? 9) && (b - 256 <=? 13)) || (b - 256 =? 32)) with false by lia. cbn. lia.
Qed.

Definition all_space (l : list Z) : Prop := Forall (fun b => space b = true) l.

Lemma trim_up n : forall s i, is_string s -> 0 <= i -> i + Z.of_nat n = zlen s ->
  exists r, trim_loop n s i 1 = Ret r /\
    ((r = -1 /\ all_space (zdrop i s)) \/
     (i <= r < zlen s /\ all_space (zsub s i (r - i)) /\ exists b, znth s r = Some b /\ space b = false)).
Proof.
  induction n as [| n IH]; intros s i S I N.
  - exists (-1). split; auto. left. split; auto. rewrite zdrop_all by lia. constructor.
  - cbn [trim_loop]. destruct (znth_lt s i) as [b B]; [lia |].
    rewrite (char_at_ok _ _ _ B), obind_ret, space_char by apply (string_byte _ _ _ S B).
    destruct (space b) eqn:SP.
    + destruct (IH s (i + 1)) as (r & -> & V); auto; try lia. exists r. split; auto.
      destruct V as [[-> V] | (R & V & X)].
      * left. split; auto. rewrite (zdrop_cons _ _ _ B). constructor; auto.
      * right. split; [lia |]. split; auto. unfold all_space in *.
        replace (zsub s i (r - i)) with (b :: zsub s (i + 1) (r - (i + 1))); [constructor; auto |].
        unfold zsub. rewrite (zdrop_cons _ _ _ B). unfold ztake.
        replace (Z.to_nat (r - i)) with (Datatypes.S (Z.to_nat (r - (i + 1)))) by lia. reflexivity.
    + exists i. split; auto. right. split; [lia |]. split; eauto.
      replace (i - i) with 0 by lia. unfold zsub. rewrite ztake_0 by lia. constructor.
Qed.

Lemma trim_down n : forall s i, is_string s -> i < zlen s -> i + 1 = Z.of_nat n ->
  exists r, trim_loop n s i (-1) = Ret r /\
    ((r = -1 /\ all_space (ztake (i + 1) s)) \/
     (0 <= r <= i /\ all_space (zsub s (r + 1) (i - r)) /\ exists b, znth s r = Some b /\ space b = false)).
Proof.
  induction n as [| n IH]; intros s i S I N.
  - exists (-1). split; auto. left. split; auto. rewrite ztake_0 by lia. constructor.
  - cbn [trim_loop]. destruct (znth_lt s i) as [b B]; [lia |].
    rewrite (char_at_ok _ _ _ B), obind_ret, space_char by apply (string_byte _ _ _ S B).
    destruct (space b) eqn:SP.
    + destruct (IH s (i + -1)) as (r & -> & V); auto; try lia. exists r. split; auto.
      destruct V as [[-> V] | (R & V & X)].
      * left. split; auto. rewrite (ztake_snoc _ _ _ B). replace (i + -1 + 1) with i in V by lia.
        apply Forall_app. split; auto.
      * right. split; [lia |]. split; auto. unfold all_space in *.
        replace (zsub s (r + 1) (i - r)) with (zsub s (r + 1) (i + -1 - r) ++ [b]); [apply Forall_app; auto |].
        assert (zlen s > i) by lia.
        apply znth_ext. intros k K. rewrite znth_app, zlen_sub, !znth_sub, znth_cons, znth_nil.
        destruct (Z.leb_spec 0 k); [| lia]. cbn [andb].
        destruct (Z.ltb_spec k (Z.min (Z.max 0 (i + -1 - r)) (Z.max 0 (zlen s - Z.max 0 (r + 1))))).
        -- destruct (Z.ltb_spec k (i + -1 - r)); [| lia]. destruct (Z.ltb_spec k (i - r)); [reflexivity | lia].
        -- destruct (Z.eqb_spec (k - Z.min (Z.max 0 (i + -1 - r)) (Z.max 0 (zlen s - Z.max 0 (r + 1)))) 0).
           ++ destruct (Z.ltb_spec k (i - r)); [| lia]. rewrite <- B. f_equal. lia.
           ++ destruct (Z.ltb_spec k (i - r)); [lia | reflexivity].
    + exists i. split; auto. right. split; [lia |]. split; eauto.
      replace (i - i) with 0 by lia. unfold zsub. rewrite ztake_0 by lia. constructor.
Qed.

Lemma trim_spec s : is_string s -> exists t, trim (Some s) = Ret t /\ trimmed s t.
Proof.
  intros S. pose proof S as [_ L]. pose proof (zlen_nonneg s). unfold trim.
  destruct (trim_up (Z.to_nat (zlen s)) s 0) as (b & -> & VB); auto; try lia. rewrite obind_ret.
  destruct (trim_down (Z.to_nat (zlen s)) s (zlen s - 1)) as (e & -> & VE); auto; try lia. rewrite obind_ret.
  destruct VB as [[-> VB] | (RB & VB & x & X & SX)].
  - assert (e = -1).
    { destruct VE as [[-> _] | (RE & _ & y & Y & SY)]; auto. rewrite zdrop_0 in VB by lia.
      unfold all_space in VB. rewrite Forall_forall in VB. apply znth_In in Y. rewrite (VB _ Y) in SY. discriminate. }
    subst e. cbn. exists []. split; auto. exists s, []. cbn. rewrite app_nil_r. split; auto.
    rewrite zdrop_0 in VB by lia. repeat split; auto; intros z Zz; rewrite znth_nil in Zz; discriminate.
  - destruct VE as [[-> VE] | (RE & VE & y & Y & SY)].
    + exfalso. replace (zlen s - 1 + 1) with (zlen s) in VE by lia. rewrite ztake_all in VE by lia.
      unfold all_space in VE. rewrite Forall_forall in VE. apply znth_In in X. rewrite (VE _ X) in SX. discriminate.
    + destruct (Z.eqb_spec b (-1)); [lia |]. cbn [andb]. destruct (Z.eqb_spec e (-1)); [lia |].
      assert (BE : b <= e).
      { destruct (Z.leb_spec b e); auto. exfalso.
        (* position e is before b, hence a space *)
        unfold all_space in VB. rewrite Forall_forall in VB.
        assert (IN : In y (zsub s 0 (b - 0))).
        { apply znth_In with (i := e). rewrite znth_sub. destruct (Z.leb_spec 0 e); [| lia].
          destruct (Z.ltb_spec e (b - 0)); [| lia]. cbn [andb]. rewrite <- Y. reflexivity. }
        rewrite (VB _ IN) in SY. discriminate. }
      rewrite !wrap32_id by (unfold in_i32; rewrite ?wrap32_id by (unfold in_i32; lia); lia).
      unfold substr. rewrite substr0_ok;
        [| auto | lia | unfold effective_length; destruct (Z.ltb_spec (e - b + 1) 0); lia
         | unfold effective_length; destruct (Z.ltb_spec (e - b + 1) 0); lia].
      unfold effective_length. destruct (Z.ltb_spec (e - b + 1) 0); [lia |].
      eexists. split; [reflexivity |].
      exists (ztake b s), (zdrop (e + 1) s). split; [| split; [| split; [| split]]].
      * apply znth_ext. intros k K. rewrite !znth_app, zlen_take, znth_take, zlen_sub, znth_sub, znth_drop.
        replace (Z.min (Z.max 0 b) (zlen s)) with b by lia.
        replace (Z.min (Z.max 0 (e - b + 1)) (Z.max 0 (zlen s - Z.max 0 b))) with (e - b + 1) by lia.
        destruct (Z.ltb_spec k b); auto. destruct (Z.ltb_spec (k - b) (e - b + 1)).
        -- destruct (Z.leb_spec 0 (k - b)); [| lia]. cbn [andb]. f_equal. lia.
        -- destruct (Z.ltb_spec (k - b - (e - b + 1)) 0); [lia |]. f_equal. lia.
      * replace (b - 0) with b in VB by lia. rewrite zsub_0 in VB by auto. exact VB.
      * replace (zdrop (e + 1) s) with (zsub s (e + 1) (zlen s - 1 - e)); [exact VE |].
        unfold zsub. apply ztake_all. rewrite zlen_drop. lia.
      * intros z Zz. rewrite znth_sub in Zz. destruct (Z.ltb_spec 0 (e - b + 1)); [| lia].
        replace (Z.max 0 b + 0) with b in Zz by lia. cbn [andb] in Zz. change (0 <=? 0) with true in Zz.
        cbn [andb] in Zz. congruence.
      * intros z Zz. rewrite znth_sub, zlen_sub in Zz.
        replace (Z.min (Z.max 0 (e - b + 1)) (Z.max 0 (zlen s - Z.max 0 b))) with (e - b + 1) in Zz by lia.
        destruct (Z.leb_spec 0 (e - b + 1 - 1)); [| lia]. destruct (Z.ltb_spec (e - b + 1 - 1) (e - b + 1)); [| lia].
        cbn [andb] in Zz. replace (Z.max 0 b + (e - b + 1 - 1)) with e in Zz by lia. congruence.
Qed.

(** ** chomp *)

Lemma last_byte (s : list Z) : s <> [] -> exists t b, s = t ++ [b].
Proof. intros. destruct (exists_last H) as (t & b & ->). eauto. Qed.

Lemma wrap8_is b c : 0 <= b <= 255 -> 0 <= c < 128 -> (wrap8 b =? c) = (b =? c).
Proof. intros. rewrite wrap8_byte by auto. destruct (Z.ltb_spec b 128); lia. Qed.

Lemma shorten_ok s n : 0 <= n -> shorten s n = Ret (ztake n s).
Proof.
  intros. unfold shorten. destruct (Z.geb_spec n 0); [| lia]. destruct (Z.geb_spec n (zlen s)); auto.
  rewrite ztake_all by lia. reflexivity.
Qed.

Lemma znth_last2 (t : list Z) a b :
  znth (t ++ [a; b]) (zlen t) = Some a /\ znth (t ++ [a; b]) (zlen t + 1) = Some b.
Proof.
  rewrite !znth_app, !znth_cons. pose proof (zlen_nonneg t).
  destruct (Z.ltb_spec (zlen t) (zlen t)); [lia |]. destruct (Z.ltb_spec (zlen t + 1) (zlen t)); [lia |].
  destruct (Z.eqb_spec (zlen t - zlen t) 0); [| lia]. destruct (Z.eqb_spec (zlen t + 1 - zlen t) 0); [lia |].
  destruct (Z.eqb_spec (zlen t + 1 - zlen t - 1) 0); [| lia]. auto.
Qed.

Lemma chomp_spec s : is_string s -> exists t, chomp (Some s) = Ret t /\ chomped s t.
Proof.
  intros S. pose proof S as [_ L]. unfold chomp.
  destruct (list_eq_dec Z.eq_dec s []) as [-> | NE].
  { exists []. split; auto. right. right. split; auto. intros u E. destruct u; discriminate. }
  destruct (last_byte s NE) as (t & b & ->). clear NE. rewrite !zlen_app, !zlen_cons, !zlen_nil in *.
  pose proof (zlen_nonneg t). rewrite !(wrap32_id (zlen t + (1 + 0) - 1)) by (unfold in_i32; lia).
  replace (zlen t + (1 + 0) - 1) with (zlen t) by lia.
  assert (B : znth (t ++ [b]) (zlen t) = Some b) by apply znth_snoc.
  pose proof (string_byte _ _ _ S B) as RB.
  rewrite (char_at_ok _ _ _ B), !obind_ret, (wrap8_is b 10) by lia.
  destruct (Z.geb_spec (zlen t + (1 + 0)) 1); [| lia]. rewrite obind_ret.
  assert (T1 : ztake (zlen t) (t ++ [b]) = t) by (rewrite ztake_app_l, ztake_all by lia; reflexivity).
  assert (NOCR : (forall u, t ++ [b] <> u ++ [13; 10]) ->
            (if b =? 10 then shorten (t ++ [b]) (zlen t) else Ret (t ++ [b])) = Ret (if b =? 10 then t else t ++ [b]) /\
            chomped (t ++ [b]) (if b =? 10 then t else t ++ [b])).
  { intros N. destruct (Z.eqb_spec b 10).
    - subst. rewrite shorten_ok, T1 by lia. split; auto. right. left. auto.
    - split; auto. right. right. split; auto. intros u E. apply app_inj_tail in E. destruct E; congruence. }
  destruct (list_eq_dec Z.eq_dec t []) as [-> | NE].
  { cbn [app zlen]. change (zlen (@nil Z)) with 0 in *. change (0 + (1 + 0) >=? 2) with false. cbn iota. rewrite obind_ret.
    cbn [app] in *. eexists. apply NOCR. intros u E. destruct u as [| ? [| ]]; discriminate. }
  destruct (last_byte t NE) as (u & a & ->). clear NE. rewrite zlen_app, zlen_cons, zlen_nil in *.
  pose proof (zlen_nonneg u).
  destruct (Z.geb_spec (zlen u + (1 + 0) + (1 + 0)) 2); [| lia].
  rewrite (wrap32_id (zlen u + (1 + 0) + (1 + 0) - 2)) by (unfold in_i32; lia).
  replace (zlen u + (1 + 0) + (1 + 0) - 2) with (zlen u) by lia.
  rewrite <- !app_assoc in *. cbn [app] in *.
  destruct (znth_last2 u a b) as [A _]. pose proof (string_byte _ _ _ S A) as RA.
  rewrite (char_at_ok _ _ _ A), obind_ret, (wrap8_is a 13) by lia.
  destruct (Z.eqb_spec a 13).
  - subst a. destruct (Z.eqb_spec b 10).
    + subst b. rewrite obind_ret. cbn iota. exists u. split; [| left; auto].
      rewrite shorten_ok by lia. rewrite ztake_app_l, ztake_all by lia. reflexivity.
    + rewrite obind_ret. cbn iota. eexists. split; [reflexivity |]. right. right. split; auto.
      intros v E. replace (u ++ [13; b]) with ((u ++ [13]) ++ [b]) in E by (rewrite <- app_assoc; auto).
      apply app_inj_tail in E. destruct E. congruence.
  - rewrite obind_ret. eexists. apply NOCR. intros v E.
    replace (u ++ [a; b]) with ((u ++ [a]) ++ [b]) in E by (rewrite <- app_assoc; auto).
    replace (v ++ [13; 10]) with ((v ++ [13]) ++ [10]) in E by (rewrite <- app_assoc; auto).
    apply app_inj_tail in E. destruct E as [E _]. apply app_inj_tail in E. destruct E. congruence.
Qed.

(** ** shorten_null_char *)

Lemma null_loop_ok n : forall s i, is_string s -> 0 <= i -> i + Z.of_nat n = zlen s ->
  exists r, null_loop n s i = Ret r /\
    ((r = -1 /\ ~ In 0 (zdrop i s)) \/ (i <= r < zlen s /\ ~ In 0 (zsub s i (r - i)) /\ znth s r = Some 0)).
Proof.
  induction n as [| n IH]; intros s i S I N.
  - exists (-1). split; auto. left. split; auto. rewrite zdrop_all by lia. auto.
  - cbn [null_loop]. destruct (znth_lt s i) as [b B]; [lia |].
    rewrite (char_at_ok _ _ _ B), obind_ret, wrap8_is by (try apply (string_byte _ _ _ S B); lia).
    destruct (Z.eqb_spec b 0).
    + subst. exists i. split; auto. right. split; [lia |]. replace (i - i) with 0 by lia.
      unfold zsub. rewrite ztake_0 by lia. auto.
    + destruct (IH s (i + 1)) as (r & -> & V); auto; try lia. exists r. split; auto.
      destruct V as [[-> V] | (R & V & X)].
      * left. split; auto. rewrite (zdrop_cons _ _ _ B). intros [|]; auto.
      * right. split; [lia |]. split; auto.
        replace (zsub s i (r - i)) with (b :: zsub s (i + 1) (r - (i + 1))); [intros [|]; auto |].
        unfold zsub. rewrite (zdrop_cons _ _ _ B). unfold ztake.
        replace (Z.to_nat (r - i)) with (Datatypes.S (Z.to_nat (r - (i + 1)))) by lia. reflexivity.
Qed.

Lemma shorten_null_spec s : is_string s ->
  exists t, shorten_null_char (Some s) = Ret t /\ ~ In 0 t /\ (s = t \/ exists r, s = t ++ 0 :: r).
Proof.
  intros S. pose proof (zlen_nonneg s). unfold shorten_null_char.
  destruct (null_loop_ok (Z.to_nat (zlen s)) s 0) as (r & -> & V); auto; try lia. rewrite obind_ret.
  destruct V as [[-> V] | (R & V & X)].
  - exists s. cbn. rewrite zdrop_0 in V by lia. auto.
  - destruct (Z.geb_spec r 0); [| lia]. rewrite shorten_ok by lia. eexists. split; [reflexivity |].
    replace (r - 0) with r in V by lia. rewrite zsub_0 in V by auto. split; auto. right.
    exists (zdrop (r + 1) s). rewrite <- (zdrop_cons _ _ _ X). symmetry. apply ztake_zdrop.
Qed.

(** ** replace_chars *)

Lemma replace_chars_loop_ok from_ch to_ch n : forall s i,
  is_string s -> 0 <= i -> i + Z.of_nat n = zlen s ->
  replace_chars_loop n s from_ch to_ch i =
  Ret (ztake i s ++ map (fun b => if wrap8 b =? from_ch then to_byte to_ch else b) (zdrop i s)).
Proof.
  induction n as [| n IH]; intros s i S I N.
  - cbn. rewrite ztake_all, zdrop_all by lia. cbn [map]. rewrite app_nil_r. reflexivity.
  - cbn [replace_chars_loop]. destruct (znth_lt s i) as [b B]; [lia |].
    rewrite (char_at_ok _ _ _ B), obind_ret. rewrite (zdrop_cons _ _ _ B). cbn [map].
    destruct (Z.eqb_spec (wrap8 b) from_ch).
    + rewrite elem_set_ok, obind_ret by lia.
      assert (S' : is_string (zupd s i (to_byte to_ch))).
      { destruct S as [F L]. split; [| rewrite zlen_upd; auto].
        apply Forall_forall. intros x X. apply In_znth in X. destruct X as (k & _ & X).
        rewrite znth_upd in X. rewrite Forall_forall in F.
        destruct ((k =? i) && (0 <=? i) && (i <? zlen s)).
        - injection X as <-. unfold to_byte, u8. pose proof (Z.mod_pos_bound to_ch 256). lia.
        - apply F. apply znth_In in X. auto. }
      rewrite IH by (auto; rewrite ?zlen_upd; lia). f_equal.
      rewrite (ztake_snoc _ i (to_byte to_ch)), <- app_assoc.
      2: { rewrite znth_upd, Z.eqb_refl. destruct (Z.leb_spec 0 i); [| lia]. destruct (Z.ltb_spec i (zlen s)); [reflexivity | lia]. }
      cbn [app]. f_equal; [| f_equal; f_equal]; apply znth_ext; intros k K.
      * rewrite !znth_take, znth_upd. destruct (Z.ltb_spec k i); auto. destruct (Z.eqb_spec k i); [lia | reflexivity].
      * rewrite !znth_drop, znth_upd. destruct (Z.ltb_spec k 0); auto.
        destruct (Z.eqb_spec (Z.max 0 (i + 1) + k) i); [lia | reflexivity].
    + rewrite obind_ret, IH by (auto; lia). f_equal. rewrite (ztake_snoc _ _ _ B), <- app_assoc. reflexivity.
Qed.

Lemma replace_chars_ok s from_ch to_ch : is_string s ->
  replace_chars (Some s) from_ch to_ch = Ret (map (fun b => if wrap8 b =? from_ch then to_byte to_ch else b) s).
Proof.
  intros S. pose proof (zlen_nonneg s). unfold replace_chars. rewrite replace_chars_loop_ok by (auto; lia).
  rewrite ztake_0, zdrop_0 by lia. reflexivity.
Qed.

(** ** equals_string_range *)

Lemma range_eq_loop_ok n : forall s1 s2 o1 o2 i,
  is_string s1 -> is_string s2 -> 0 <= o1 -> 0 <= o2 -> 0 <= i ->
  o1 + i + Z.of_nat n <= zlen s1 -> o2 + i + Z.of_nat n <= zlen s2 ->
  exists r, range_eq_loop n s1 s2 o1 o2 i = Ret r /\ (r = 0 \/ r = 1) /\
    (r = 1 <-> forall j, i <= j < i + Z.of_nat n -> znth s1 (o1 + j) = znth s2 (o2 + j)).
Proof.
  induction n as [| n IH]; intros s1 s2 o1 o2 i S1 S2 O1 O2 I L1 L2.
  - exists 1. cbn. repeat split; auto. intros; lia.
  - cbn [range_eq_loop]. pose proof S1 as [_ B1]. pose proof S2 as [_ B2].
    rewrite !wrap32_id by (unfold in_i32; lia).
    destruct (znth_lt s1 (o1 + i)) as [x X]; [lia |]. destruct (znth_lt s2 (o2 + i)) as [y Y]; [lia |].
    rewrite (char_at_ok _ _ _ X), obind_ret, (char_at_ok _ _ _ Y), obind_ret.
    destruct (Z.eqb_spec (wrap8 x) (wrap8 y)) as [E | E].
    + apply wrap8_inj in E; [| apply (string_byte _ _ _ S1 X) | apply (string_byte _ _ _ S2 Y)]. subst y.
      destruct (IH s1 s2 o1 o2 (i + 1)) as (r & -> & R & V); auto; try lia. exists r. split; auto. split; auto.
      rewrite V. split; intros W j J.
      * destruct (Z.eqb_spec j i); [subst; congruence | apply W; lia].
      * apply W. lia.
    + exists 0. split; auto. split; auto. split; [lia |]. intros W. exfalso. apply E.
      specialize (W i ltac:(lia)). congruence.
Qed.

Lemma equals_range_ok s1 o1 s2 o2 n :
  is_string s1 -> is_string s2 -> 0 <= o1 -> 0 <= o2 -> 0 <= n ->
  o1 + n <= zlen s1 -> o2 + n <= zlen s2 -> o1 + n <= zlen s2 ->
  exists r, equals_string_range (Some s1) o1 (Some s2) o2 n = Ret r /\ (r = 0 \/ r = 1) /\
    (r = 1 <-> zsub s1 o1 n = zsub s2 o2 n).
Proof.
  intros S1 S2 O1 O2 N L1 L2 L3. pose proof S1 as [_ B1]. pose proof S2 as [_ B2].
  unfold equals_string_range. destruct (Z.geb_spec o1 0); [| lia]. destruct (Z.geb_spec o2 0); [| lia].
  rewrite wrap32_id by (unfold in_i32; lia).
  destruct (Z.leb_spec (o1 + n) (zlen s1)); [| lia]. destruct (Z.leb_spec (o1 + n) (zlen s2)); [| lia]. cbn [negb].
  destruct (range_eq_loop_ok (Z.to_nat n) s1 s2 o1 o2 0) as (r & -> & R & V); auto; try lia.
  exists r. split; auto. split; auto. rewrite V. split.
  - intros W. apply znth_ext. intros i I. rewrite !znth_sub.
    destruct (Z.leb_spec 0 i); auto. destruct (Z.ltb_spec i n); auto. cbn [andb].
    rewrite !Z.max_r by lia. apply W. lia.
  - intros E j J. assert (X : znth (zsub s1 o1 n) j = znth (zsub s2 o2 n) j) by congruence.
    rewrite !znth_sub in X. destruct (Z.leb_spec 0 j); [| lia]. destruct (Z.ltb_spec j n); [| lia]. cbn [andb] in X.
    rewrite !Z.max_r in X by lia. auto.
Qed.
