(** * C41: unpacking hexadecimal text

    For bytes that need two hexadecimal digits; see C41_hex_round_trip_refuted
    for the others. *)
From Verif Require Import Base StM CLib Dec Array_model Bytes FnMem_model FnMem_spec FnMem_proofs FnRev_proofs FnMem_props
  FnStr_model FnStr_spec FnStr_proofs FnNum_model FnNum_spec FnNum_proofs FnNum_props FnUtf8_model FnSplit_model FnSplit_spec FnSplit_proofs
  StrBuf_model StrBuf_spec StrBuf_proofs
  Format_model Format_spec Format_proofs Format_props Packer_model Packer_spec FormatParse_proofs PackerParse_proofs Packer_proofs PackerHex_proofs
  PackerMain_proofs PackerUn_proofs Packer_props.

Definition hexd (d : Z) : Z := if d <? 10 then 48 + d else 87 + d.
Definition two (b : Z) : list Z := [hexd (b / 16); hexd (b mod 16)].
Definition owt (b : Z) : list Z := [hexd (b mod 16); hexd (b / 16)].
Definition wide (b : Z) : Prop := 16 <= b <= 255.
Definition intarg (b : Z) : option (arg unit unit) := Some (mk_arg 0 (VInt b)).
Notation fm := (fun u : unit => u).
Notation nof := (fun (_ : unit) (_ : option Z) => @nil Z).

Lemma wide_parts b : wide b -> 1 <= b / 16 <= 15 /\ 0 <= b mod 16 <= 15 /\ b = 16 * (b / 16) + b mod 16.
Proof. unfold wide. intros. pose proof (Z.div_mod b 16 ltac:(lia)). pose proof (Z.mod_pos_bound b 16 ltac:(lia)). lia. Qed.

Lemma hexd_digit d : 0 <= d <= 15 -> digit 16 (hexd d) d.
Proof. intros. unfold hexd, digit. destruct (Z.ltb_spec d 10); lia. Qed.

Lemma digit_hexd c d : digit 16 c d -> (48 <= c <= 57 \/ 97 <= c <= 97 + 5) -> c = hexd d.
Proof. unfold hexd, digit. intros. destruct (Z.ltb_spec d 10); lia. Qed.

Lemma digit_pos c d : digit 16 c d -> 0 <= d < 16.
Proof. unfold digit. lia. Qed.

Lemma number_pos t v : number 16 t v -> 0 <= v.
Proof. induction 1; match goal with D : digit _ _ _ |- _ => apply digit_pos in D end; lia. Qed.

Lemma number_zero t v : number 16 t v -> v = 0 -> hd 0 t = 48 /\ t <> [].
Proof.
  induction 1 as [c v D | ds n c v N IH D]; intros E.
  - split; [| discriminate]. cbn. unfold digit in D. lia.
  - apply digit_pos in D as P. apply number_pos in N as Q. destruct IH as [IH1 IH2]; [lia |].
    destruct ds; [congruence |]. split; [exact IH1 | discriminate].
Qed.

Lemma hex_two b v : wide b -> hexadecimal_of 97 b v -> v = two b.
Proof.
  intros W (N & L & F). pose proof (wide_parts b W) as (P1 & P2 & P3).
  inversion N as [c d D | ds n c d N1 D]; subst.
  - apply digit_pos in D. unfold wide in W. lia.
  - apply digit_pos in D as P. pose proof (number_pos _ _ N1) as Q.
    assert (En : n = (n * 16 + d) / 16) by (apply (Z.div_unique (n * 16 + d) 16 n d); lia).
    assert (Ed : d = (n * 16 + d) mod 16) by (apply (Z.mod_unique (n * 16 + d) 16 n d); lia).
    apply Forall_app in F as [F1 F2]. inversion F2; subst.
    inversion N1 as [c' d' D' | ds' n' c' d' N2 D']; subst.
    + inversion F1; subst. unfold two. rewrite <- En, <- Ed. cbn [app].
      rewrite <- (digit_hexd c' n), <- (digit_hexd c d) by auto. reflexivity.
    + apply digit_pos in D' as P'. pose proof (number_pos _ _ N2) as Q'.
      unfold wide in W. assert (n' = 0) by lia. destruct (number_zero _ _ N2 H) as [Z1 Z2].
      destruct ds' as [| x ds']; [congruence |]. cbn in Z1. subst x. exfalso. specialize (L eq_refl).
      apply (f_equal zlen) in L. rewrite !zlen_app, zlen_cons in L. change (zlen [48]) with 1 in L. change (zlen [c']) with 1 in L.
      change (zlen [c]) with 1 in L. zlen_facts. lia.
Qed.

Lemma two_hex b : wide b -> hexadecimal_of 97 b (two b).
Proof.
  intros W. pose proof (wide_parts b W) as (P1 & P2 & P3). split; [| split].
  - assert (Q : number 16 ([hexd (b / 16)] ++ [hexd (b mod 16)]) (b / 16 * 16 + b mod 16))
      by (apply More; [constructor |]; apply hexd_digit; lia).
    replace (b / 16 * 16 + b mod 16) with b in Q by lia. exact Q.
  - unfold two, hexd. cbn. destruct (Z.ltb_spec (b / 16) 10); lia.
  - unfold two, hexd. apply Forall_cons; [destruct (Z.ltb_spec (b / 16) 10); lia |].
    apply Forall_cons; [destruct (Z.ltb_spec (b mod 16) 10); lia | constructor].
Qed.

(** ** "%x" again and again *)
Lemma spec_x t flags w p c s s' :
  spec_text t flags w p c -> t ++ s = 37 :: 120 :: s' -> flags = [] /\ w = 0 /\ p = None /\ c = Cx /\ s = s'.
Proof.
  intros T. inversion T as [fl ds pt p' c' Ff Fd Hd Pt]; subst. cbn [app]. intros E. injection E as E.
  destruct flags as [| f flags]; [| cbn in E; injection E as -> _; inversion Ff; lia].
  destruct ds as [| d ds]; [| cbn in E; injection E as -> _; inversion Fd as [| ? ? Q]; unfold Dec.is_digit in Q; lia].
  cbn [app] in E. inversion Pt; subst; cbn [app] in E; try discriminate.
  destruct c; cbn in E; try discriminate. injection E as ->. repeat split.
Qed.

Lemma piece_x b s args out s' args' : wide b ->
  piece fm nof nof (37 :: 120 :: s) (intarg b :: args) out s' args' -> out = two b /\ s' = s /\ args' = args.
Proof.
  intros W P. inversion P; subst; try congruence.
  match goal with T : spec_text _ _ _ _ _, E : _ = 37 :: 120 :: _ |- _ => destruct (spec_x _ _ _ _ _ _ _ T E) as (-> & -> & -> & -> & ->) end.
  match goal with C : converted _ _ _ _ _ _ _ |- _ => destruct C as (z & Z1 & Z2) end.
  unfold is_int in Z1. cbn in Z1. injection Z1 as <-. rewrite Z.mod_small in Z2 by (unfold wide in W; change (2 ^ 32) with 4294967296; lia).
  rewrite (hex_two b v W Z2). repeat split.
Qed.

Lemma pieces_x s args out rest args' : pieces fm nof nof s args out rest args' ->
  forall bs, Forall wide bs -> s = copies (length bs) [37; 120] -> args = map intarg bs ->
  exists pre post, bs = pre ++ post /\ out = flat_map two pre /\ rest = copies (length post) [37; 120] /\ args' = map intarg post.
Proof.
  induction 1 as [s args | s args o1 s1 a1 o2 s2 a2 P PS IH]; intros bs W -> ->.
  - exists [], bs. auto.
  - destruct bs as [| b bs]; [inversion P; match goal with T : spec_text _ _ _ _ _ |- _ => inversion T end; subst; discriminate |].
    inversion W; subst. cbn [length copies map app] in P. apply piece_x in P as (-> & -> & ->); auto.
    destruct (IH bs) as (pre & post & -> & -> & E1 & E2); auto.
    exists (b :: pre), post. auto.
Qed.

Lemma formats_x bs : Forall wide bs -> formats fm nof nof (copies (length bs) [37; 120]) (map intarg bs) (flat_map two bs).
Proof.
  induction 1 as [| b bs W Ws [args' IH]].
  - exists []. constructor.
  - exists args'. cbn [length copies flat_map map]. eapply Ps_cons; [| exact IH].
    change (two b) with (padded [] 0 (with_sign [] Cx (two b))). apply (P_spec fm nof nof [37; 120] [] 0 None Cx).
    + apply (Spec [] [] [] None Cx); [constructor | constructor | cbn; lia | constructor].
    + exists b. split; [reflexivity |]. rewrite Z.mod_small by (unfold wide in W; change (2 ^ 32) with 4294967296; lia).
      apply two_hex; auto.
Qed.

Lemma zlen_copies_x n : zlen (copies n [37; 120]) = 2 * Z.of_nat n.
Proof. induction n; [reflexivity |]. cbn [copies]. rewrite zlen_app, IHn. change (zlen [37; 120]) with 2. lia. Qed.
Lemma zlen_flat_two bs : zlen (flat_map two bs) = 2 * zlen bs.
Proof. induction bs; [reflexivity |]. cbn [flat_map]. rewrite zlen_app, IHbs, zlen_cons. change (zlen (two a)) with 2. lia. Qed.

Lemma sprintf_x bs : Forall wide bs -> 2 * zlen bs <= max_length ->
  sprintf fm nof nof (Some (copies (length bs) [37; 120])) (Some (map intarg bs)) = Ret (flat_map two bs).
Proof.
  intros W B. pose proof (zlen_nonneg bs). unfold max_length in B.
  assert (IN : forall n, Forall (fun c => c = 37 \/ c = 120) (copies n [37; 120])).
  { induction n; cbn [copies app]; [constructor |]. apply Forall_cons; [auto |]. apply Forall_cons; auto. }
  pose proof (C42_sprintf_partial fm nof nof (copies (length bs) [37; 120]) (map intarg bs)) as T.
  assert (Z : is_string (copies (length bs) [37; 120])).
  { split; [eapply Forall_impl; [| apply IN]; cbn; intros; lia |]. rewrite zlen_copies_x. unfold zlen in *. lia. }
  assert (G : forall out, formats fm nof nof (copies (length bs) [37; 120]) (map intarg bs) out -> out = flat_map two bs).
  { intros out (a & P). destruct (pieces_x _ _ _ _ _ P bs W eq_refl eq_refl) as (pre & post & E & -> & R & _).
    destruct post; [rewrite app_nil_r in E; subst; auto | discriminate]. }
  assert (T' : match sprintf fm nof nof (Some (copies (length bs) [37; 120])) (Some (map intarg bs)) with
               | Ret out => formats fm nof nof (copies (length bs) [37; 120]) (map intarg bs) out
               | Die _ => ~ exists out, formats fm nof nof (copies (length bs) [37; 120]) (map intarg bs) out
               | _ => False end).
  { apply T; auto.
    - intros before ds after E D. destruct ds as [| d ds]; [cbn; lia |]. exfalso.
      specialize (IN (length bs)). rewrite E, Forall_app in IN. destruct IN as [_ IN]. inversion IN; subst. inversion D; subst.
      unfold Dec.is_digit in *. lia.
    - apply Forall_forall. intros a Ha. apply in_map_iff in Ha as (b & <- & Hb). rewrite Forall_forall in W.
      specialize (W b Hb). unfold wide in W. cbn. unfold in_i32. change (2 ^ 64) with 18446744073709551616. lia.
    - unfold zlen in *. rewrite map_length. lia.
    - intros out rest a P. destruct (pieces_x _ _ _ _ _ P bs W eq_refl eq_refl) as (pre & post & E & -> & _).
      rewrite zlen_flat_two. apply (f_equal zlen) in E. rewrite zlen_app in E. zlen_facts. unfold max_length. lia.
    - intros out t flags w p c a v s' a' P _ C. destruct (pieces_x _ _ _ _ _ P bs W eq_refl eq_refl) as (pre & post & E & _ & _ & Ea).
      destruct post as [| b post]; [discriminate |]. cbn [map] in Ea. injection Ea as -> _.
      destruct c; cbn [Format_spec.handled]; auto; cbn [converted] in C.
      + destruct C as (d & [X | (f & X & _)] & _); discriminate.
      + destruct C as (d & [X | (f & X & _)] & _); discriminate.
      + destruct C as (x & X & _); discriminate. }
  destruct (sprintf _ _ _ _ _) as [out | e | |]; [| | contradiction..].
  - rewrite (G out); auto.
  - exfalso. apply T'. eexists. apply formats_x. auto.
Qed.

(** ** The swapping loop *)
Lemma swap_ok bs : forall pre i, zlen pre = 2 * i -> zlen pre + 2 * zlen bs <= INT32_MAX ->
  nybble_swap_loop (length bs) (pre ++ flat_map two bs) i = Ret (pre ++ flat_map owt bs).
Proof.
  induction bs as [| b bs IH]; intros pre i E B; [reflexivity |].
  rewrite zlen_cons in B. pose proof (zlen_nonneg bs). pose proof (zlen_nonneg pre).
  cbn [length nybble_swap_loop flat_map]. unfold two at 1 3. cbn [app].
  rewrite (wrap32_id (i * 2)) by (unfold in_i32; lia). rewrite (wrap32_id (i * 2 + 1)) by (unfold in_i32; lia).
  rewrite (wrap32_id (i + 1)) by (unfold in_i32; lia).
  set (x := hexd (b / 16)). set (y := hexd (b mod 16)). set (r := flat_map two bs).
  replace (i * 2) with (zlen pre) by lia.
  unfold elem_get. rewrite !znth_app. rewrite Z.ltb_irrefl, Z.sub_diag.
  destruct (Z.ltb_spec (zlen pre + 1) (zlen pre)); [lia |]. replace (zlen pre + 1 - zlen pre) with 1 by lia.
  change (znth (x :: y :: r) 0) with (Some x). change (znth (x :: y :: r) 1) with (Some y). cbn [obind].
  assert (U1 : zupd (pre ++ x :: y :: r) (zlen pre) y = pre ++ y :: y :: r).
  { apply znth_ext. intros k Hk. rewrite znth_upd, !znth_app, zlen_app, !zlen_cons.
    destruct (Z.eqb_spec k (zlen pre)) as [-> | N]; cbn [andb].
    - rewrite Z.ltb_irrefl, Z.sub_diag. zlen_facts. replace ((0 <=? zlen pre) && (zlen pre <? zlen pre + (1 + (1 + zlen r)))) with true by lia. reflexivity.
    - destruct (k <? zlen pre); auto. rewrite !znth_cons. destruct (Z.eqb_spec (k - zlen pre) 0); [lia | auto]. }
  assert (U2 : zupd (pre ++ y :: y :: r) (zlen pre + 1) x = pre ++ y :: x :: r).
  { apply znth_ext. intros k Hk. rewrite znth_upd, !znth_app, zlen_app, !zlen_cons.
    destruct (Z.eqb_spec k (zlen pre + 1)) as [-> | N]; cbn [andb].
    - destruct (Z.ltb_spec (zlen pre + 1) (zlen pre)); [lia |]. replace (zlen pre + 1 - zlen pre) with 1 by lia. zlen_facts.
      replace ((0 <=? zlen pre + 1) && (zlen pre + 1 <? zlen pre + (1 + (1 + zlen r)))) with true by lia. reflexivity.
    - destruct (k <? zlen pre); auto. rewrite !znth_cons. destruct (Z.eqb_spec (k - zlen pre) 0); auto.
      destruct (Z.eqb_spec (k - zlen pre - 1) 0); [lia | auto]. }
  change (two b ++ r) with (x :: y :: r). unfold elem_set. rewrite zlen_app, !zlen_cons. pose proof (zlen_nonneg r).
  replace ((0 <=? zlen pre) && (zlen pre <? zlen pre + (1 + (1 + zlen r)))) with true by lia. cbn [obind].
  rewrite U1. rewrite zlen_app, !zlen_cons.
  replace ((0 <=? zlen pre + 1) && (zlen pre + 1 <? zlen pre + (1 + (1 + zlen r)))) with true by lia. cbn [obind].
  rewrite U2. specialize (IH (pre ++ [y; x]) (i + 1)). rewrite zlen_app in IH. change (zlen [y; x]) with 2 in IH.
  specialize (IH ltac:(lia) ltac:(lia)). rewrite <- !app_assoc in IH. exact IH.
Qed.

Lemma hex_bytes_ok high bs : Forall wide bs -> hex_bytes high (flat_map (if high then two else owt) bs) bs.
Proof.
  induction 1 as [| b bs W Ws IH]; [constructor |]. pose proof (wide_parts b W) as (P1 & P2 & P3).
  destruct high; cbn [flat_map two owt app] in *.
  - assert (Q : hex_bytes true (hexd (b / 16) :: hexd (b mod 16) :: flat_map two bs) (16 * (b / 16) + b mod 16 :: bs))
      by (apply (H_two true); auto; apply hexd_digit; lia). rewrite <- P3 in Q. exact Q.
  - assert (Q : hex_bytes false (hexd (b mod 16) :: hexd (b / 16) :: flat_map owt bs) (16 * (b / 16) + b mod 16 :: bs))
      by (apply (H_two false); auto; apply hexd_digit; lia). rewrite <- P3 in Q. exact Q.
Qed.

(** ** unpack *)
Lemma In_ztake {A} n (l : list A) x : In x (ztake n l) -> In x l.
Proof. unfold ztake. intros H. rewrite <- (firstn_skipn (Z.to_nat n) l). apply in_or_app. auto. Qed.

(** "Hn" and "hn": the first n digits of the text of the bytes. *)
Theorem C41_unpack_hex_partial : forall (long64 : bool) (t : list Z) (high : bool) (n : Z) (binary : list Z) (m : Z),
  is_string t -> template_text t [mk_item (if high then PHexHigh else PHexLow) ENone (Count n)] ->
  is_string binary -> n < 1073741823 -> m = (n + 1) / 2 -> m <= zlen binary ->
  Forall (fun b => 16 <= b) (ztake m binary) ->
  exists text, hex_bytes high text (ztake m binary) /\ zlen text = 2 * m /\
    unpack long64 (Some t) (Some binary) = Ret [Some (Str (ztake n text))].
Proof.
  intros long64 t high n binary m St TT [SB LB] Bn Em Lm W16.
  pose proof (template_valid _ _ TT) as V. inversion V as [| ? ? V1 _]; subst. clear V.
  assert (Hn : 0 < n <= INT32_MAX).
  { inversion TT as [| t1 it t2 its IT T2 E1 E2]; subst. inversion IT as [c ty te e tc k L Te Tc Hs]; subst.
    inversion Tc; subst; auto. }
  pose proof (Z.div_mod (n + 1) 2 ltac:(lia)) as DM. pose proof (Z.mod_pos_bound (n + 1) 2 ltac:(lia)).
  set (m := (n + 1) / 2) in *. set (bs := ztake m binary) in *.
  assert (Lb : zlen bs = m) by (unfold bs; rewrite zlen_take; lia).
  assert (W : Forall wide bs).
  { apply Forall_forall. intros b Hb. rewrite Forall_forall in W16. specialize (W16 b Hb). unfold wide.
    assert (In b binary) by (apply (In_ztake m); auto).
    rewrite Forall_forall in SB. specialize (SB b H0). lia. }
  exists (flat_map (if high then two else owt) bs).
  split; [apply hex_bytes_ok; auto |].
  assert (LT : zlen (flat_map (if high then two else owt) bs) = 2 * m).
  { rewrite <- Lb. destruct high; [apply zlen_flat_two |]. clear. induction bs; [reflexivity |].
    cbn [flat_map]. rewrite zlen_app, IHbs, zlen_cons. change (zlen (owt a)) with 2. lia. }
  split; [exact LT |].
  unfold unpack. rewrite (parse_template_complete long64 t _ St TT), obind_ret. cbn [map unpack_loop].
  unfold unpack_one, spec_of. cbn [i_count i_type i_endian p_type p_star p_length p_endian].
  assert (Eh : is_hex (if high then PHexHigh else PHexLow) = true) by (destruct high; reflexivity). rewrite Eh.
  assert (Es : size_of (if high then PHexHigh else PHexLow) = 1) by (destruct high; reflexivity). rewrite Es. cbv zeta.
  rewrite (wrap32_id (n + 1)) by (unfold in_i32; lia). rewrite Z.quot_div_nonneg by lia. fold m.
  rewrite Z.mul_1_l, Z.add_0_l. rewrite !(wrap32_id m) by (unfold in_i32; lia).
  destruct (Z.leb_spec m (zlen binary)); [| lia].
  unfold new_string_len. destruct (Z.leb_spec 0 m); [| lia]. destruct (Z.eqb_spec m INT32_MAX); [lia |]. rewrite obind_ret.
  assert (LZ : zlen (@zrep Z m 0) = m) by (rewrite zlen_rep; lia).
  rewrite (cut_ok (string_blob (zrep m 0)) m binary 0); auto; try lia; [| apply string_blob_ok; lia].
  rewrite zsub_0 by lia. fold bs. cbn [obind]. rewrite string_data by lia. cbn [obind].
  change (data_at [string_blob bs; string_blob binary] 0) with (Ret bs). cbn [obind].
  assert (OO : object_of (mk_pspec (if high then PHexHigh else PHexLow) false ENone n false) m bs =
               Ret (Str (ztake n (flat_map (if high then two else owt) bs)))).
  { unfold object_of. cbn [p_type p_star p_length].
    assert (MA : map (fun b => Some (mk_arg 0 (VInt (Z.land (wrap8 b) 255)))) bs = map intarg bs).
    { apply map_ext_in. intros b Hb. rewrite Forall_forall in W. specialize (W b Hb). unfold intarg. repeat f_equal.
      unfold wide in W. change 255 with (Z.ones 8). rewrite Z.land_ones by lia. change (2 ^ 8) with 256.
      unfold wrap8, wrap. change (2 * 128) with 256. rewrite Zminus_mod, Z.mod_mod, <- Zminus_mod by lia.
      replace (b + 128 - 128) with b by lia. apply Z.mod_small. lia. }
    assert (RS : repeat_string (Some [37; 120]) m = Ret (copies (length bs) [37; 120])).
    { replace (length bs) with (Z.to_nat m) by (unfold zlen in Lb; lia). apply repeat_ok; [| lia |].
      - split; [repeat constructor; lia | vm_compute; reflexivity].
      - rewrite zlen_copies_x. unfold max_length. lia. }
    assert (SP : sprintf fm nof nof (Some (copies (length bs) [37; 120])) (Some (map intarg bs)) = Ret (flat_map two bs))
      by (apply sprintf_x; auto; unfold max_length; lia).
    destruct (Z.leb_spec 0 m); [| lia]. rewrite MA, RS, obind_ret.
    destruct high; rewrite SP, obind_ret.
    - rewrite obind_ret, shorten_ok, obind_ret by lia. reflexivity.
    - replace (Z.to_nat m) with (length bs) by (unfold zlen in Lb; lia).
      pose proof (swap_ok bs [] 0 eq_refl ltac:(change (@zlen Z []) with 0; lia)) as SW. cbn [app] in SW.
      rewrite SW, obind_ret, shorten_ok, obind_ret by lia. reflexivity. }
  rewrite OO. reflexivity.
Qed.

(** "H3" and "h3" of two bytes *)
Example C41_unpack_hex_ex :
  unpack true (Some [72; 51]) (Some [171; 192]) = Ret [Some (Str [97; 98; 99])] /\
  unpack true (Some [104; 51]) (Some [171; 192]) = Ret [Some (Str [98; 97; 48])].
Proof. split; vm_compute; reflexivity. Qed.

Print Assumptions C41_unpack_hex_partial.
