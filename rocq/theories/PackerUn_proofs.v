(** * unpack, and the round trip *)
From Verif Require Import Base StM CLib Dec Array_model Bytes FnMem_model FnMem_spec FnMem_proofs FnRev_proofs FnMem_props
  FnStr_model FnStr_spec FnStr_proofs FnNum_model FnNum_spec FnNum_proofs FnNum_props FnUtf8_model StrBuf_model StrBuf_spec StrBuf_proofs
  Format_model Format_proofs Packer_model Packer_spec FormatParse_proofs PackerParse_proofs Packer_proofs PackerHex_proofs PackerMain_proofs.

Lemma cut_ok D m src soff :
  blob_ok D -> is_raw D = true -> b_read_only D = false -> zlen (b_data D) = m -> m <= INT32_MAX -> zlen src <= INT32_MAX ->
  0 <= soff -> soff + m <= zlen src ->
  fn_memcpy [D; string_blob src] (Some 0) 0 (Some 1) soff m = Ret [with_data D (zsub src soff m); string_blob src].
Proof.
  intros BO RW RO LD ML LS SO IN. pose proof (zlen_nonneg (b_data D)) as NN. pose proof (zlen_nonneg src).
  destruct (Z.eq_dec m 0) as [M0 | M0].
  - unfold fn_memcpy, fn_copy, get_raw. change (znth [D; string_blob src] 0) with (Some D).
    change (znth [D; string_blob src] 1) with (Some (string_blob src)). cbn iota. rewrite RW. change (is_raw (string_blob src)) with true. cbn iota.
    rewrite !obind_ret. rewrite RO. cbn [negb]. rewrite M0. cbn [Z.geb Z.compare Z.eqb]. f_equal. f_equal.
    assert (E : b_data D = []) by (apply zlen_0_nil; lia). unfold zsub. change (ztake 0 (zdrop soff src)) with (@nil Z). rewrite <- E. destruct D; reflexivity.
  - unfold fn_memcpy. rewrite (fn_copy_ok false _ 0 D 0 1 (string_blob src) soff m); auto; try reflexivity; try lia.
    + unfold after_copy. cbn [string_blob b_data]. f_equal. change (zupd [D; string_blob src] 0 ?x) with [x; string_blob src]. f_equal. f_equal.
      rewrite zblit_start by (rewrite zlen_sub; lia). rewrite zdrop_all by (rewrite zlen_sub; lia). apply app_nil_r.
    + constructor; [auto | constructor; [apply string_blob_ok; lia | constructor]].
    + constructor; [lia | constructor; [cbn; lia | constructor]].
    + split; lia.
    + cbn [string_blob b_data]. split; lia.
    + intros _ (E & _). discriminate.
Qed.

Lemma zsub_mid {A} (pre d post : list A) : zsub (pre ++ d ++ post) (zlen pre) (zlen d) = d.
Proof. pose proof (zlen_nonneg pre). pose proof (zlen_nonneg d). zext. Qed.

(** The elements read back. *)
Lemma elems_ok k l b : b_data b = flat_map (encode k) l -> b_length b = zlen l -> Forall (kvalue k) l -> elems k b = l.
Proof.
  intros D L V. unfold elems. rewrite D, L. unfold zlen. rewrite Nat2Z.id. clear b D L.
  pose proof (ksize_pos k) as KP.
  assert (G : forall pre, map (fun i => decode k (zsub (flat_map (encode k) (pre ++ l)) (ksize k * Z.of_nat i) (ksize k))) (seq (length pre) (length l)) = l).
  { induction V as [| v l KV V IH]; intros pre; [reflexivity |]. cbn [length seq map]. f_equal.
    - rewrite flat_map_app. cbn [flat_map]. replace (ksize k * Z.of_nat (length pre)) with (zlen (flat_map (encode k) pre)) by (rewrite flat_encode_len; reflexivity).
      rewrite <- (zlen_encode k v). rewrite zsub_mid. apply decode_encode. auto.
    - specialize (IH (pre ++ [v])). rewrite <- app_assoc in IH. cbn [app] in IH. rewrite app_length in IH. cbn [length] in IH.
      rewrite Nat.add_1_r in IH. exact IH. }
  exact (G []).
Qed.

(** One item read back from the bytes at [offset]. *)
Lemma unpack_num_ok it k l o pre d post :
  i_type it = PNum k -> Forall (kvalue k) l -> 0 < zlen l \/ i_count it <> Single ->
  (match i_count it with Single => exists v, l = [v] /\ o = Boxed k v | Count n => zlen l = n /\ o = Nums k l | Star => o = Nums k l /\ post = [] end) ->
  d = ordered (i_endian it) (zlen l) (ksize k) (flat_map (encode k) l) ->
  zlen (pre ++ d ++ post) < INT32_MAX ->
  unpack_one (spec_of it) (pre ++ d ++ post) (zlen pre) = Ret (o, zlen (pre ++ d)).
Proof.
  intros T KV _ C D SZ. pose proof (ksize_pos k) as KP.
  assert (LD : zlen d = ksize k * zlen l).
  { rewrite D. unfold ordered. destruct (i_endian it); rewrite ?swaps_len; apply flat_encode_len. }
  pose proof (zlen_nonneg pre). pose proof (zlen_nonneg post). pose proof (zlen_nonneg l). pose proof (zlen_nonneg d).
  rewrite !zlen_app in *. set (bin := pre ++ d ++ post) in *.
  assert (LB : zlen bin = zlen pre + (zlen d + zlen post)) by (unfold bin; rewrite !zlen_app; lia).
  assert (PT : p_type (spec_of it) = PNum k) by (unfold spec_of; destruct (i_count it); exact T).
  assert (PE : p_endian (spec_of it) = i_endian it) by (unfold spec_of; destruct (i_count it); reflexivity).
  assert (PL : (if p_star (spec_of it) then wrap32 (zlen bin - zlen pre) ÷ ksize k else p_length (spec_of it)) = zlen l).
  { unfold spec_of. destruct (i_count it); cbn [p_star p_length].
    - destruct C as (v & -> & _). reflexivity.
    - destruct C. auto.
    - destruct C as [_ ->]. change (@zlen Z []) with 0 in LB. rewrite wrap32_id by (unfold in_i32; lia).
      replace (zlen bin - zlen pre) with (zlen l * ksize k) by lia. apply Z.quot_mul. lia. }
  unfold unpack_one. rewrite PT. cbn [size_of is_hex]. cbn zeta. rewrite PL.
  rewrite <- LD. rewrite (wrap32_id (zlen d)) by (unfold in_i32; lia). rewrite (wrap32_id (zlen pre + zlen d)) by (unfold in_i32; lia).
  destruct (Z.leb_spec (zlen pre + zlen d) (zlen bin)); [| lia].
  unfold new_string_len. destruct (Z.leb_spec 0 (zlen d)); [| lia]. destruct (Z.eqb_spec (zlen d) INT32_MAX); [lia |]. rewrite obind_ret.
  assert (LZ : zlen (@zrep Z (zlen d) 0) = zlen d) by (rewrite zlen_rep; lia).
  rewrite (cut_ok (string_blob (zrep (zlen d) 0)) (zlen d) bin (zlen pre)); auto; try lia; [| apply string_blob_ok; lia].
  unfold bin at 1. rewrite zsub_mid. rewrite string_data by auto. rewrite obind_ret.
  destruct (endian_ok (p_endian (spec_of it)) (zlen l) (ksize k) (string_blob bin) d) as (h & E & DA); auto; try lia.
  { apply string_blob_ok. lia. }
  { cbn; lia. }
  match goal with |- obind ?X _ = _ => assert (E' : X = Ret h) by (rewrite <- E; destruct (p_endian (spec_of it)); reflexivity); rewrite E' end. cbn [obind]. rewrite DA. cbn [obind]. clear E E' DA.
  set (part := ordered (p_endian (spec_of it)) (zlen l) (ksize k) d).
  assert (PART : part = flat_map (encode k) l).
  { unfold part. rewrite D, PE. destruct (i_endian it); try reflexivity. cbn [ordered]. destruct l as [| x l']; [reflexivity |]. apply swaps_back.
    rewrite flat_encode_len, zlen_cons. pose proof (zlen_nonneg l'). nia. }
  unfold object_of. rewrite PT. unfold new_num_array. destruct (Z.leb_spec 0 (zlen l)); [| lia]. rewrite obind_ret.
  set (D0 := mk_blob KNumArray false (ksize k) (zlen l) (zrep (ksize k * zlen l) 0)).
  assert (LP : zlen part = zlen d) by (rewrite PART, flat_encode_len; lia).
  assert (LD0 : zlen (b_data D0) = zlen part) by (cbn [D0 b_data]; rewrite zlen_rep; lia).
  rewrite (cut_ok D0 (zlen part) part 0); auto; try lia.
  2: { unfold blob_ok. cbn [D0 b_elem_size b_length b_data b_kind b_read_only]. split; [lia |]. split; [nia |]. split; [rewrite zlen_rep; lia |]. split; discriminate. }
  rewrite zsub_0 by lia. rewrite (ztake_all (zlen part)) by lia. rewrite obind_ret.
  change (znth [with_data D0 part; string_blob part] 0) with (Some (with_data D0 part)). cbn iota.
  rewrite (elems_ok k l (with_data D0 part)) by auto.
  unfold spec_of. destruct (i_count it); cbn [p_numeric].
  - destruct C as (v & -> & ->). reflexivity.
  - destruct C as [_ ->]. reflexivity.
  - destruct C as [-> _]. reflexivity.
Qed.

Lemma unpack_str_ok it s pre post :
  i_type it = PStr -> (match i_count it with Single => False | Count n => zlen s = n | Star => post = [] end) ->
  zlen (pre ++ s ++ post) < INT32_MAX ->
  unpack_one (spec_of it) (pre ++ s ++ post) (zlen pre) = Ret (Str s, zlen (pre ++ s)).
Proof.
  intros T C SZ.
  pose proof (zlen_nonneg pre). pose proof (zlen_nonneg post). pose proof (zlen_nonneg s).
  rewrite !zlen_app in *. set (bin := pre ++ s ++ post) in *.
  assert (LB : zlen bin = zlen pre + (zlen s + zlen post)) by (unfold bin; rewrite !zlen_app; lia).
  assert (PT : p_type (spec_of it) = PStr) by (unfold spec_of; destruct (i_count it); exact T).
  assert (PL : (if p_star (spec_of it) then wrap32 (zlen bin - zlen pre) ÷ 1 else p_length (spec_of it)) = zlen s).
  { unfold spec_of. destruct (i_count it); cbn [p_star p_length]; [tauto | auto |].
    subst post. change (@zlen Z []) with 0 in LB. rewrite wrap32_id by (unfold in_i32; lia). rewrite Z.quot_1_r. lia. }
  unfold unpack_one. rewrite PT. cbn [size_of is_hex]. cbn zeta. rewrite PL. rewrite Z.mul_1_l.
  rewrite (wrap32_id (zlen s)) by (unfold in_i32; lia). rewrite (wrap32_id (zlen pre + zlen s)) by (unfold in_i32; lia).
  destruct (Z.leb_spec (zlen pre + zlen s) (zlen bin)); [| lia].
  unfold new_string_len. destruct (Z.leb_spec 0 (zlen s)); [| lia]. destruct (Z.eqb_spec (zlen s) INT32_MAX); [lia |]. rewrite obind_ret.
  assert (LZ : zlen (@zrep Z (zlen s) 0) = zlen s) by (rewrite zlen_rep; lia).
  rewrite (cut_ok (string_blob (zrep (zlen s) 0)) (zlen s) bin (zlen pre)); auto; try lia; [| apply string_blob_ok; lia].
  unfold bin at 1. rewrite zsub_mid. rewrite string_data by auto. rewrite obind_ret.
  destruct (endian_ok (p_endian (spec_of it)) (zlen s) 1 (string_blob bin) s) as (h & E & DA); auto; try lia.
  { apply string_blob_ok. lia. }
  { cbn; lia. }
  match goal with |- obind ?X _ = _ => assert (E' : X = Ret h) by (rewrite <- E; destruct (p_endian (spec_of it)); reflexivity); rewrite E' end. cbn [obind]. rewrite DA. cbn [obind]. unfold object_of. rewrite PT. cbn [obind].
  replace (ordered (p_endian (spec_of it)) (zlen s) 1 s) with s; auto.
  unfold ordered. destruct (p_endian (spec_of it)); auto. symmetry. apply swaps_one.
Qed.

(** ** The round trip *)

(** What pack makes of a fitting object. *)
Definition laid_out (it : item) (o : option pobj) : list Z :=
  match i_type it, o with
  | PNum k, Some (Boxed _ v) => ordered (i_endian it) 1 (ksize k) (encode k v)
  | PNum k, Some (Nums _ l) => ordered (i_endian it) (zlen l) (ksize k) (flat_map (encode k) l)
  | _, Some (Str s) => s
  | _, _ => []
  end.
Lemma laid_len it o : fits it o -> zlen (laid_out it o) = part_size it o.
Proof.
  unfold fits, laid_out, part_size. destruct (i_type it) as [k | | |]; destruct (i_count it) as [| n |]; destruct o as [[k' v | k' l | s |] |]; try tauto; intros F.
  - subst k'. unfold ordered. destruct (i_endian it); rewrite ?swaps_len, zlen_encode; lia.
  - destruct F as [-> <-]. unfold ordered. destruct (i_endian it); rewrite ?swaps_len, flat_encode_len; lia.
  - subst k'. unfold ordered. destruct (i_endian it); rewrite ?swaps_len, flat_encode_len; lia.
Qed.
Lemma pack_one_fits it o : item_valid it -> fits it o -> obj_ok o -> part_size it o <= max_length -> pack_one (spec_of it) o = Ret (laid_out it o).
Proof.
  intros V F OK SZ. pose proof (count_nonneg it o V) as CN. assert (MX : max_length = 1073741823) by reflexivity.
  destruct (i_type it) as [k | | |] eqn:T; [| | unfold fits in F; rewrite T in F; tauto ..].
  - rewrite (part_size_num _ _ _ T) in SZ. unfold fits in F. rewrite T in F. unfold laid_out. rewrite T.
    assert (X : exists l, (match i_count it with Single => exists v, l = [v] /\ o = Some (Boxed k v) | _ => o = Some (Nums k l) end) /\ spec_count it o = zlen l /\
      match o with Some (Boxed _ v) => ordered (i_endian it) 1 (ksize k) (encode k v) | Some (Nums _ l) => ordered (i_endian it) (zlen l) (ksize k) (flat_map (encode k) l) | Some (Str s) => s | _ => [] end
       = ordered (i_endian it) (zlen l) (ksize k) (flat_map (encode k) l)).
    { unfold spec_count. destruct (i_count it) as [| n |]; destruct o as [[k' v | k' l | s |] |]; try tauto.
      - subst k'. exists [v]. split; [eauto |]. split; [reflexivity |]. cbn [flat_map]. rewrite app_nil_r. reflexivity.
      - destruct F as [-> <-]. exists l. auto.
      - subst k'. exists l. auto. }
    destruct X as (l & O & EL & EO). rewrite (pack_num_ok it k l o (i_endian it)); auto; try lia.
    rewrite EL, filled_exact by apply flat_encode_len. f_equal. symmetry. exact EO.
  - unfold fits in F. rewrite T in F. rewrite part_size_other in SZ by congruence. unfold laid_out. rewrite T.
    assert (X : exists s, o = Some (Str s) /\ spec_count it o = zlen s).
    { unfold spec_count. destruct (i_count it) as [| n |]; destruct o as [[k' v | k' l | s |] |]; try tauto; exists s; auto. }
    destruct X as (s & -> & ES). destruct V as [V1 _].
    destruct (pack_str_ok it s (Some (Str s)) T (V1 T) eq_refl OK) as (n & EN & ->); try lia.
    rewrite filled_exact by lia. reflexivity.
Qed.

Definition laid_all (its : list item) (os : list (option pobj)) : list Z :=
  flat_map (fun p => laid_out (fst p) (snd p)) (combine its os).

Lemma laid_bytes it o : obj_ok o -> fits it o -> Forall is_byte (laid_out it o).
Proof.
  intros OK F. unfold laid_out. assert (SW : forall n size d, Forall is_byte d -> Forall is_byte (swaps n size d)).
  { intros n size d B. induction n as [| n IH]; auto. change (Forall is_byte (swap_first size (swaps n size d))). unfold swap_first.
    rewrite <- (ztake_zdrop size (swaps n size d)) in IH. apply Forall_app in IH as [I1 I2]. apply Forall_app. split; auto. apply Forall_rev. auto. }
  assert (FE : forall k l, Forall is_byte (flat_map (encode k) l)).
  { intros k l. induction l; cbn [flat_map]; [constructor |]. apply Forall_app. split; auto. apply encode_bytes. }
  pose proof encode_bytes as EB.
  unfold fits in F. destruct (i_type it); destruct o as [[| | s |] |]; try constructor; try (unfold ordered; destruct (i_endian it); auto; fail); try apply OK; try (destruct (i_count it); tauto).
Qed.

Lemma total_laid its : forall os, Forall2 fits its os -> total_size its os = zlen (laid_all its os).
Proof.
  unfold laid_all. induction its as [| it its IH]; intros [| o os] F; inversion F as [| ? ? ? ? F1 F2]; subst; [reflexivity |]. cbn [total_size combine flat_map fst snd].
  rewrite zlen_app, laid_len, IH by auto. reflexivity.
Qed.

Lemma pack_all_fits : forall its os done b out,
  Forall item_valid its -> Forall obj_ok os -> Forall2 fits its os -> zlen (done ++ os) <= INT32_MAX ->
  holds b out -> zlen out + total_size its os <= max_length ->
  exists b', pack_loop (map spec_of its) (done ++ os) (zlen done) b = Ret b' /\ holds b' (out ++ laid_all its os).
Proof.
  induction its as [| it its IH]; intros os done b out V OK F LO H SZ; inversion F as [| ? o ? os' F1 F2]; subst; cbn [map pack_loop].
  - exists b. unfold laid_all. cbn. rewrite app_nil_r. auto.
  - inversion V as [| ? ? V1 V2]; subst. inversion OK as [| ? ? O1 O2]; subst. cbn [total_size] in SZ.
    pose proof (total_laid _ _ F2) as TL. pose proof (zlen_nonneg (laid_all its os')). pose proof (zlen_nonneg out). pose proof (part_size_nonneg it o V1).
    pose proof (zlen_nonneg done). pose proof (zlen_nonneg os'). rewrite zlen_app, zlen_cons in LO.
    assert (EG : znth (done ++ o :: os') (zlen done) = Some o) by (rewrite znth_app; destruct (Z.ltb_spec (zlen done) (zlen done)); [lia |]; rewrite Z.sub_diag; reflexivity).
    rewrite (elem_get_ok _ _ _ EG), obind_ret, pack_one_fits, obind_ret by (auto; lia).
    destruct (push_str_ok b out (laid_out it o) H) as (b' & -> & H'); [split; [apply laid_bytes; auto | rewrite laid_len by auto; unfold max_length in *; lia] | rewrite laid_len by auto; lia |]. rewrite obind_ret.
    rewrite (wrap32_id (zlen done + 1)) by (unfold in_i32; lia).
    destruct (IH os' (done ++ [o]) b' (out ++ laid_out it o) V2 O2 F2) as (b2 & E & HB); auto.
    { rewrite <- app_assoc. cbn [app]. rewrite zlen_app, zlen_cons. lia. }
    { rewrite zlen_app, laid_len by auto. lia. }
    exists b2. split.
    + rewrite <- E. rewrite <- app_assoc. cbn [app]. rewrite zlen_app. change (zlen [o]) with 1. reflexivity.
    + unfold laid_all in *. cbn [combine flat_map fst snd]. rewrite app_assoc. exact HB.
Qed.

Lemma unpack_all_fits : forall its os pre acc,
  Forall obj_ok os -> Forall2 fits its os -> star_last its -> zlen (pre ++ laid_all its os) < INT32_MAX ->
  unpack_loop (map spec_of its) (pre ++ laid_all its os) (zlen pre) acc = Ret (acc ++ os).
Proof.
  induction its as [| it its IH]; intros os pre acc OK F SL SZ; inversion F as [| ? o ? os' F1 F2]; subst; cbn [map unpack_loop].
  - rewrite app_nil_r. reflexivity.
  - inversion OK as [| ? ? O1 O2]; subst. destruct SL as [SL1 SL2].
    change (laid_all (it :: its) (o :: os')) with (laid_out it o ++ laid_all its os') in *.
    assert (PS : i_count it = Star -> laid_all its os' = []).
    { intros C. destruct its as [| i2 its]; [reflexivity |]. exfalso. apply SL1; auto. discriminate. }
    assert (U : exists o', o = Some o' /\ unpack_one (spec_of it) (pre ++ laid_out it o ++ laid_all its os') (zlen pre) = Ret (o', zlen (pre ++ laid_out it o))).
    { unfold fits in F1. destruct (i_type it) as [k | | |] eqn:T; [| | tauto ..].
      - destruct (i_count it) as [| n |] eqn:C; destruct o as [[k' v | k' l | s |] |]; try tauto.
        + subst k'. eexists. split; [reflexivity |]. apply (unpack_num_ok it k [v]); auto.
          * left. reflexivity.
          * rewrite C. eauto.
          * unfold laid_out. rewrite T. cbn [flat_map]. rewrite app_nil_r. reflexivity.
        + destruct F1 as [-> LN]. eexists. split; [reflexivity |]. apply (unpack_num_ok it k l); auto.
          * apply O1.
          * right. congruence.
          * rewrite C. auto.
          * unfold laid_out. rewrite T. reflexivity.
        + subst k'. eexists. split; [reflexivity |]. apply (unpack_num_ok it k l); auto.
          * apply O1.
          * right. congruence.
          * rewrite C. auto.
          * unfold laid_out. rewrite T. reflexivity.
      - destruct (i_count it) as [| n |] eqn:C; destruct o as [[k' v | k' l | s |] |]; try tauto;
          (eexists; split; [reflexivity |]); unfold laid_out in *; rewrite T in *; apply unpack_str_ok; auto; rewrite C; auto. }
    destruct U as (o' & -> & U). rewrite U, obind_ret. rewrite app_assoc. rewrite IH; auto.
    + rewrite <- app_assoc. reflexivity.
    + rewrite <- app_assoc. exact SZ.
Qed.
