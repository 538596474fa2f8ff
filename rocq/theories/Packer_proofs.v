(** * pack and unpack of one object *)
From Verif Require Import Base StM CLib Dec Array_model Bytes FnMem_model FnMem_spec FnMem_proofs FnRev_proofs FnMem_props
  FnStr_model FnStr_spec FnStr_proofs FnNum_model FnNum_spec FnNum_proofs FnNum_props FnUtf8_model StrBuf_model StrBuf_spec StrBuf_proofs
  Format_model Format_proofs Packer_model Packer_spec FormatParse_proofs PackerParse_proofs.

(** ** Memory *)
Lemma string_blob_ok d : zlen d <= INT32_MAX -> blob_ok (string_blob d).
Proof.
  intros L. pose proof (zlen_nonneg d). unfold blob_ok, string_blob. cbn [b_elem_size b_length b_data b_kind b_read_only].
  split; [lia |]. split; [lia |]. split; [lia |]. split; auto.
Qed.
Lemma string_data d d' : zlen d' = zlen d -> with_data (string_blob d) d' = string_blob d'.
Proof. intros E. unfold with_data, string_blob. cbn [b_elem_size b_length b_data b_kind b_read_only]. rewrite E. reflexivity. Qed.

Lemma flat_encode_len k l : zlen (flat_map (encode k) l) = ksize k * zlen l.
Proof.
  induction l as [| v l IH]; [cbn [flat_map]; change (@zlen Z []) with 0; lia |]. cbn [flat_map]. rewrite zlen_app, zlen_encode, IH, zlen_cons. lia.
Qed.
Lemma num_blob_ok k l : ksize k * zlen l <= INT32_MAX -> blob_ok (num_blob k l).
Proof.
  intros L. pose proof (zlen_nonneg l). pose proof (ksize_pos k). unfold blob_ok, num_blob. cbn [b_elem_size b_length b_data b_kind b_read_only].
  split; [lia |]. split; [nia |]. split; [apply flat_encode_len |]. split; discriminate.
Qed.

Lemma zblit_start {A} (d s : list A) : zlen s <= zlen d -> zblit d 0 s = s ++ zdrop (zlen s) d.
Proof. intros. pose proof (zlen_nonneg s). zext. Qed.
Lemma zrep_0 {A} (x : A) n : n <= 0 -> zrep n x = [].
Proof. intros. unfold zrep. replace (Z.to_nat n) with O by lia. reflexivity. Qed.

(** Copying the values into a new string. *)
Lemma fill_ok V size m copy :
  blob_ok V -> is_raw V = true -> zlen (b_data V) <= INT32_MAX -> 0 <= m < INT32_MAX ->
  0 < size -> copy = Z.min m (zlen (b_data V)) ->
  fn_memcpy [string_blob (zrep m 0); V] (Some 0) 0 (Some 1) 0 copy = Ret [string_blob (filled m (b_data V)); V].
Proof.
  intros BO RW SZ M SP C. pose proof (zlen_nonneg (b_data V)) as NN.
  assert (LR : zlen (@zrep Z m 0) = m) by (rewrite zlen_rep; lia).
  destruct (Z.eq_dec copy 0) as [C0 | C0].
  - unfold fn_memcpy, fn_copy, get_raw. change (znth [string_blob (zrep m 0); V] 0) with (Some (string_blob (zrep m 0))).
    change (znth [string_blob (zrep m 0); V] 1) with (Some V). cbn iota. change (is_raw (string_blob (zrep m 0))) with true. rewrite RW. cbn iota.
    rewrite !obind_ret. cbn [string_blob b_read_only negb]. rewrite C0. cbn [Z.geb Z.compare Z.eqb]. f_equal. f_equal. unfold filled.
    destruct (Z.eq_dec m 0) as [-> |].
    + rewrite (zrep_0 0 (0 - zlen (b_data V))) by lia. reflexivity.
    + assert (E : zlen (b_data V) = 0) by lia. apply zlen_0_nil in E. rewrite E. change (@zlen Z []) with 0. rewrite Z.sub_0_r, ztake_all by (change (@zlen Z []) with 0; lia). reflexivity.
  - unfold fn_memcpy. rewrite (fn_copy_ok false _ 0 (string_blob (zrep m 0)) 0 1 V 0 copy); auto; try reflexivity; try lia.
    + unfold after_copy. cbn [string_blob b_data]. rewrite string_data by (rewrite zlen_blit; rewrite ?zlen_sub; lia).
      unfold filled. f_equal. change (zupd [string_blob (zrep m 0); V] 0 ?x) with [x; V]. f_equal. f_equal.
      rewrite zblit_start by (rewrite zlen_sub; lia). rewrite zlen_sub by lia.
      destruct (Z.leb_spec m (zlen (b_data V))).
      * rewrite (zrep_0 0 (m - _)) by lia. replace copy with m by lia. rewrite zsub_0 by lia. rewrite zdrop_all by lia. reflexivity.
      * replace copy with (zlen (b_data V)) by lia. rewrite zsub_0 by lia. rewrite (ztake_all m) by lia. rewrite (ztake_all (zlen _)) by lia.
        f_equal. zext.
    + constructor; [apply string_blob_ok; lia | constructor; [auto | constructor]].
    + constructor; [cbn; lia | constructor; [auto | constructor]].
    + cbn [string_blob b_data]. split; lia.
    + split; lia.
    + intros _ (E & _). discriminate.
Qed.

(** ** Byte order *)
Definition swap_first (size : Z) (d : list Z) : list Z := rev (ztake size d) ++ zdrop size d.
Lemma swap_first_len size d : zlen (swap_first size d) = zlen d.
Proof. unfold swap_first. rewrite zlen_app, zlen_rev, <- zlen_app, ztake_zdrop. reflexivity. Qed.
Lemma swap_first_twice size d : 0 <= size <= zlen d -> swap_first size (swap_first size d) = d.
Proof.
  intros S. unfold swap_first. assert (L : zlen (rev (ztake size d)) = size) by (rewrite zlen_rev, zlen_take; lia).
  rewrite ztake_app_l by lia. rewrite (ztake_all size (rev _)) by lia. rewrite zdrop_app_r by lia. rewrite L, Z.sub_diag, (zdrop_0 0) by lia.
  rewrite rev_involutive. apply ztake_zdrop.
Qed.
Definition swaps (n : nat) (size : Z) (d : list Z) : list Z := Nat.iter n (swap_first size) d.
Lemma swaps_len n size d : zlen (swaps n size d) = zlen d.
Proof. induction n as [| n IH]; cbn [swaps Nat.iter nat_rect]; [reflexivity |]. change (zlen (swap_first size (swaps n size d)) = zlen d). rewrite swap_first_len. exact IH. Qed.
Lemma swaps_succ n size d : swaps (S n) size d = swaps n size (swap_first size d).
Proof. unfold swaps. induction n as [| n IH]; [reflexivity |]. cbn [Nat.iter nat_rect] in *. f_equal. exact IH. Qed.
Lemma swaps_back n size d : 0 <= size <= zlen d -> swaps n size (swaps n size d) = d.
Proof.
  intros S. induction n as [| n IH]; [reflexivity |]. rewrite swaps_succ.
  change (swaps (Datatypes.S n) size d) with (swap_first size (swaps n size d)). rewrite swap_first_twice by (rewrite swaps_len; auto). exact IH.
Qed.
Lemma swap_one d : swap_first 1 d = d.
Proof. unfold swap_first. destruct d as [| b d]; [reflexivity |]. cbn. reflexivity. Qed.

Lemma big_loop_ok n : forall size h d, heap_ok h -> int_sizes h -> znth h 0 = Some (string_blob d) ->
  (n <> O -> 0 < size <= zlen d) ->
  exists h', pack_endian_loop n EBig size h = Ret h' /\ data_at h' 0 = Ret (swaps n size d).
Proof.
  induction n as [| n IH]; intros size h d H IS A S; cbn [pack_endian_loop].
  - exists h. split; auto. unfold data_at. rewrite A. reflexivity.
  - specialize (S ltac:(lia)). unfold system_endian_to_big_endian.
    destruct (change_endian_ok h 0 (string_blob d) size 0 H IS A) as (h' & junk & -> & H' & IS' & E); try reflexivity; try lia.
    { cbn; lia. }
    rewrite obind_ret. pose proof (znth_Some _ _ _ A) as R.
    destruct (IH size h' (swap_first size d)) as (h2 & E2 & D2); auto.
    + rewrite E, znth_app_l by (rewrite zlen_upd; lia). rewrite znth_upd. replace (0 <? zlen h) with true by lia. cbn [Z.eqb Z.leb Z.compare andb]. f_equal. cbn [string_blob b_data].
      rewrite zsub_0 by lia. rewrite string_data by (rewrite zlen_blit; rewrite ?zlen_rev, ?zlen_take; lia). f_equal.
      unfold swap_first. rewrite zblit_start by (rewrite zlen_rev, zlen_take; lia). rewrite zlen_rev, zlen_take.
      replace (Z.min (Z.max 0 size) (zlen d)) with size by lia. reflexivity.
    + rewrite swap_first_len. auto.
    + exists h2. split; auto. rewrite D2. rewrite swaps_succ. reflexivity.
Qed.
Lemma little_loop_ok n : forall size h, pack_endian_loop n ELittle size h = Ret h.
Proof. induction n as [| n IH]; intros; cbn [pack_endian_loop system_endian_to_little_endian negb]; auto. rewrite obind_ret. apply IH. Qed.
Lemma unpack_loop_same n : forall e size h, unpack_endian_loop n e size h = pack_endian_loop n e size h.
Proof. intros. reflexivity. Qed.

(** What the endian loop makes of the bytes. *)
Definition ordered (e : endian) (n size : Z) (d : list Z) : list Z :=
  match e with EBig => swaps (Z.to_nat n) size d | _ => d end.
Lemma endian_ok e n size V d : blob_ok V -> zlen (b_data V) <= INT32_MAX -> zlen d = size * n -> 0 <= n -> 0 < size -> zlen d <= INT32_MAX ->
  exists h, match e with ENone => Ret [string_blob d; V] | e => pack_endian_loop (Z.to_nat n) e size [string_blob d; V] end = Ret h /\
    data_at h 0 = Ret (ordered e n size d).
Proof.
  intros BO SV L N S LD. destruct e; cbn [ordered].
  - eexists. split; reflexivity.
  - rewrite little_loop_ok. eexists. split; reflexivity.
  - apply big_loop_ok.
    + constructor; [apply string_blob_ok; lia | constructor; [auto | constructor]].
    + constructor; [cbn; lia | constructor; [auto | constructor]].
    + reflexivity.
    + intros NZ. assert (1 <= n) by lia. nia.
Qed.

(** ** One object, given its values *)
Lemma pack_part sp o size V n :
  values_of sp o = Ret (size, Some V) -> blob_ok V -> is_raw V = true -> b_elem_size V = size -> zlen (b_data V) <= INT32_MAX ->
  n = (let n := if p_star sp then b_length V else p_length sp in if is_hex (p_type sp) then wrap32 (n + 1) ÷ 2 else n) ->
  0 <= n -> size * n < INT32_MAX ->
  pack_one sp o = Ret (ordered (p_endian sp) n size (filled (size * n) (b_data V))).
Proof.
  intros VO BO RW ES SZ EN N M. pose proof BO as (B1 & B2 & B3 & B4 & B5). rewrite ES in *.
  unfold pack_one. rewrite VO, obind_ret. cbn zeta in EN |- *. rewrite <- EN.
  rewrite (wrap32_id (size * n)) by (unfold in_i32; nia).
  unfold new_string_len. destruct (Z.leb_spec 0 (size * n)); [| nia]. destruct (Z.eqb_spec (size * n) INT32_MAX); [lia |]. rewrite obind_ret.
  assert (CS : (if b_length V <? n then wrap32 (size * b_length V) else size * n) = Z.min (size * n) (zlen (b_data V))).
  { rewrite B3. destruct (Z.ltb_spec (b_length V) n); [rewrite wrap32_id by (unfold in_i32; nia); nia | nia]. }
  rewrite CS, (fill_ok V size); auto; try nia. rewrite obind_ret.
  assert (LF : zlen (filled (size * n) (b_data V)) = size * n).
  { unfold filled. rewrite zlen_app, zlen_rep, zlen_take. pose proof (zlen_nonneg (b_data V)). nia. }
  destruct (endian_ok (p_endian sp) n size V (filled (size * n) (b_data V))) as (h & E & D); auto; try lia.
  destruct (p_endian sp); cbn iota in E |- *; [injection E as <- | rewrite E ..]; rewrite obind_ret; exact D.
Qed.

(** ** Numbers *)
Lemma little_value l : little_endian l = le_value l.
Proof. induction l as [| b l IH]; cbn; [reflexivity | rewrite IH; reflexivity]. Qed.
Definition bytes_for (e : endian) (k : nkind) (v : Z) : list Z := match e with EBig => rev (encode k v) | _ => encode k v end.
Lemma number_bytes_iff e k v bs : number_bytes e k v bs <-> bs = bytes_for e k v.
Proof.
  assert (LE : forall bs, zlen bs = ksize k /\ Forall is_byte bs /\ little_endian bs = v mod 256 ^ ksize k <-> bs = encode k v).
  { intros b. pose proof (ksize_pos k). rewrite little_value. split.
    - intros (L & B & E). unfold encode.
      assert (LE : length b = Z.to_nat (ksize k)) by (unfold zlen in L; lia). rewrite <- LE.
      rewrite <- (le_bytes_value b B) at 1. rewrite E. clear - LE L H.
      assert (G : forall n z, le_bytes n (z mod 256 ^ Z.of_nat n) = le_bytes n z).
      { clear. induction n as [| n IH]; intros z; [reflexivity |]. cbn [le_bytes]. rewrite pow256_S.
        assert (0 < 256 ^ Z.of_nat n) by (apply Z.pow_pos_nonneg; lia).
        rewrite Z.rem_mul_r by lia. rewrite Z.mul_comm. rewrite Z.mod_add by lia. rewrite Z.mod_mod by lia. f_equal.
        rewrite Z.div_add by lia. rewrite (Z.div_small (z mod 256)) by (apply Z.mod_pos_bound; lia). apply IH. }
      rewrite <- (G (length b) v). replace (Z.of_nat (length b)) with (ksize k) by lia. reflexivity.
    - intros ->. split; [apply zlen_encode |]. split; [apply encode_bytes |]. unfold encode. rewrite le_value_bytes. f_equal. f_equal. lia. }
  unfold number_bytes, bytes_for. destruct e; try apply LE.
  rewrite <- (rev_involutive bs) at 3. rewrite big_rev. rewrite <- (zlen_rev bs). split.
  - intros (L & B & E). rewrite <- (rev_involutive bs). f_equal. apply LE. split; auto. split; auto. apply Forall_rev. exact B.
  - intros E. apply (f_equal (@rev Z)) in E. rewrite !rev_involutive in E. apply LE in E as (L & B & V). split; auto. split; auto.
    rewrite <- (rev_involutive bs). apply Forall_rev. exact B.
Qed.
Lemma elements_bytes_iff e k l out : elements_bytes e k l out <-> out = flat_map (bytes_for e k) l.
Proof.
  split.
  - intros (bss & F & ->). induction F as [| v bs l bss N F IH]; [reflexivity |]. cbn [List.concat flat_map]. apply number_bytes_iff in N. rewrite IH, N. reflexivity.
  - intros ->. exists (map (bytes_for e k) l). split.
    + induction l as [| v l IH]; constructor; auto. apply number_bytes_iff. reflexivity.
    + rewrite flat_map_concat_map. reflexivity.
Qed.
Lemma bytes_for_len e k v : zlen (bytes_for e k v) = ksize k.
Proof. destruct e; cbn [bytes_for]; rewrite ?zlen_rev; apply zlen_encode. Qed.

Lemma nkind_eqb_eq a b : nkind_eqb a b = true <-> a = b.
Proof. destruct a, b; cbn; split; congruence. Qed.

Lemma flat_take k l n : 0 <= n -> ztake (ksize k * n) (flat_map (encode k) l) = flat_map (encode k) (ztake n l).
Proof.
  pose proof (ksize_pos k) as KP. revert n. induction l as [| v l IH]; intros n N.
  - unfold ztake. rewrite !firstn_nil. reflexivity.
  - destruct (Z.eq_dec n 0) as [-> |].
    + rewrite Z.mul_0_r. reflexivity.
    + cbn [flat_map]. rewrite ztake_app_r by (rewrite zlen_encode; nia). rewrite zlen_encode.
      replace (ksize k * n - ksize k) with (ksize k * (n - 1)) by lia. rewrite IH by lia.
      unfold ztake at 2. replace (Z.to_nat n) with (Datatypes.S (Z.to_nat (n - 1))) by lia. reflexivity.
Qed.
Lemma filled_take n bs : filled n (ztake n bs) = filled n bs.
Proof.
  unfold filled. destruct (Z.leb_spec n (zlen bs)).
  - destruct (Z.leb_spec 0 n).
    + rewrite (ztake_all n (ztake n bs)) by (rewrite zlen_take; lia). f_equal. rewrite zlen_take. rewrite !zrep_0; auto; lia.
    + pose proof (zlen_nonneg bs). pose proof (zlen_nonneg (ztake n bs)). rewrite !zrep_0 by lia. unfold ztake. replace (Z.to_nat n) with O by lia. reflexivity.
  - rewrite (ztake_all n bs) by lia. rewrite (ztake_all n bs) by lia. reflexivity.
Qed.
Lemma filled_exact n bs : zlen bs = n -> filled n bs = bs.
Proof. intros L. unfold filled. rewrite ztake_all by lia. rewrite zrep_0 by lia. apply app_nil_r. Qed.

(** The values for the object of an item. *)
Definition spec_count (it : item) (o : option pobj) : Z :=
  match i_count it with
  | Single => 1 | Count n => n
  | Star => match o with Some (Nums _ l) => zlen l | Some (Str s) => zlen s | _ => 0 end
  end.

Lemma pack_num_ok it k l o e :
  i_type it = PNum k -> i_endian it = e ->
  (match i_count it with Single => exists v, l = [v] /\ o = Some (Boxed k v) | _ => o = Some (Nums k l) end) ->
  obj_ok o -> ksize k * spec_count it o < INT32_MAX -> 0 <= spec_count it o ->
  pack_one (spec_of it) o = Ret (ordered e (spec_count it o) (ksize k) (filled (ksize k * spec_count it o) (flat_map (encode k) l))).
Proof.
  intros T E O OK SZ N. pose proof (ksize_pos k) as KP.
  assert (LL : ksize k * zlen l <= INT32_MAX).
  { destruct (i_count it); [destruct O as (v & -> & ->); change (zlen [v]) with 1; lia | subst o; apply OK | subst o; apply OK]. }
  assert (VO : values_of (spec_of it) o = Ret (ksize k, Some (num_blob k l))).
  { unfold values_of, spec_of. destruct (i_count it); cbn [p_type p_numeric]; rewrite T; [destruct O as (v & -> & ->) | subst o ..];
      rewrite (proj2 (nkind_eqb_eq k k) eq_refl); reflexivity. }
  rewrite (pack_part (spec_of it) o (ksize k) (num_blob k l) (spec_count it o)); auto.
  - cbn [num_blob b_data]. replace (p_endian (spec_of it)) with e by (unfold spec_of; destruct (i_count it); auto). reflexivity.
  - apply num_blob_ok. exact LL.
  - cbn [num_blob b_data]. rewrite flat_encode_len. exact LL.
  - unfold spec_of, spec_count. cbn zeta. destruct (i_count it); cbn [p_star p_type p_length]; rewrite T; cbn [is_hex num_blob b_length]; auto.
    subst o. reflexivity.
Qed.

Lemma pack_str_ok it s o : i_type it = PStr -> i_count it <> Single -> o = Some (Str s) -> obj_ok o -> spec_count it o < INT32_MAX -> 0 <= spec_count it o ->
  exists n, n = spec_count it o /\ pack_one (spec_of it) o = Ret (filled n s).
Proof.
  intros T NS -> OK SZ N. eexists. split; [reflexivity |]. destruct OK as [_ LS].
  assert (VO : values_of (spec_of it) (Some (Str s)) = Ret (1, Some (string_blob s))).
  { unfold values_of, spec_of. destruct (i_count it); cbn [p_type]; rewrite T; reflexivity. }
  rewrite (pack_part (spec_of it) (Some (Str s)) 1 (string_blob s) (spec_count it (Some (Str s)))); auto; try lia.
  - cbn [string_blob b_data]. rewrite Z.mul_1_l. f_equal. unfold ordered. destruct (p_endian (spec_of it)); auto.
    generalize (Z.to_nat (spec_count it (Some (Str s)))) as n. intros n. induction n as [| n IH]; [reflexivity |].
    change (swap_first 1 (swaps n 1 (filled (spec_count it (Some (Str s))) s)) = filled (spec_count it (Some (Str s))) s). rewrite swap_one. exact IH.
  - apply string_blob_ok. lia.
  - cbn; lia.
  - unfold spec_of, spec_count. cbn zeta. destruct (i_count it); cbn [p_star p_type p_length]; rewrite T; cbn [is_hex string_blob b_length]; auto.
Qed.
