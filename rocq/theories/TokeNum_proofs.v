(** * Integer literals *)
From Verif Require Import Base CLib CStrto FnMem_model Utf8_model FnNum_spec FnNum_proofs Toke_model Toke_spec.

(** ** Characters *)
Lemma isdigit_dec c : isdigit_ascii c = isdig 10 c.
Proof.
  unfold isdigit_ascii, isdig, digit_of. destruct (Z.leb_spec 48 c); destruct (Z.leb_spec c 57); cbn [andb];
    destruct (Z.leb_spec 97 c); destruct (Z.leb_spec c 122); cbn [andb]; destruct (Z.leb_spec 65 c); destruct (Z.leb_spec c 90); cbn [andb];
    match goal with |- _ = (?a <? ?b) => destruct (Z.ltb_spec a b) end; try reflexivity; lia.
Qed.
Lemma ishex_dec c : is_hex_number c = isdig 16 c.
Proof.
  unfold is_hex_number, isdigit_ascii, isdig, digit_of. destruct (Z.leb_spec 48 c); destruct (Z.leb_spec c 57); cbn [andb orb];
    destruct (Z.leb_spec 97 c); destruct (Z.leb_spec c 102); destruct (Z.leb_spec c 122); cbn [andb orb];
    destruct (Z.leb_spec 65 c); destruct (Z.leb_spec c 70); destruct (Z.leb_spec c 90); cbn [andb orb];
    match goal with |- _ = (?a <? ?b) => destruct (Z.ltb_spec a b) end; try reflexivity; lia.
Qed.
Lemma isoct_dec c : is_octal_number c = isdig 8 c.
Proof.
  unfold is_octal_number, isdig, digit_of. destruct (Z.leb_spec 48 c); destruct (Z.leb_spec c 55); destruct (Z.leb_spec c 57); cbn [andb];
    destruct (Z.leb_spec 97 c); destruct (Z.leb_spec c 122); cbn [andb]; destruct (Z.leb_spec 65 c); destruct (Z.leb_spec c 90); cbn [andb];
    match goal with |- _ = (?a <? ?b) => destruct (Z.ltb_spec a b) end; try reflexivity; lia.
Qed.
Lemma digit_isdig base c v : base <= 36 -> digit base c v -> isdig base c = true.
Proof. intros B D. apply digit_of_spec in D as [<- L]; auto. unfold isdig. apply Z.ltb_lt. auto. Qed.
Lemma isdig_digit base c : base <= 36 -> isdig base c = true -> digit base c (digit_of c).
Proof. intros B D. apply digit_of_spec; auto. unfold isdig in D. apply Z.ltb_lt in D. auto. Qed.
Lemma isdig_false base c : base <= 36 -> (forall v, ~ digit base c v) -> isdig base c = false.
Proof. intros B N. destruct (isdig base c) eqn:E; auto. exfalso. eapply N. apply isdig_digit; eauto. Qed.
Lemma isdig_mono b b' c : b <= b' -> isdig b c = true -> isdig b' c = true.
Proof. unfold isdig. rewrite !Z.ltb_lt. lia. Qed.
Lemma isdig_ascii b c : b <= 36 -> isdig b c = true -> 48 <= c <= 57 \/ 97 <= c <= 122 \/ 65 <= c <= 90.
Proof.
  unfold isdig, digit_of. intros B D. apply Z.ltb_lt in D. destruct (Z.leb_spec 48 c); destruct (Z.leb_spec c 57); cbn [andb] in D; try lia;
    destruct (Z.leb_spec 97 c); destruct (Z.leb_spec c 122); cbn [andb] in D; try lia; destruct (Z.leb_spec 65 c); destruct (Z.leb_spec c 90); cbn [andb] in D; lia.
Qed.
Lemma hex_char c : isdig 16 c = true -> 48 <= c <= 57 \/ 97 <= c <= 102 \/ 65 <= c <= 70.
Proof. rewrite <- ishex_dec. unfold is_hex_number, isdigit_ascii. lia. Qed.
Lemma dec_char c : isdig 10 c = true -> 48 <= c <= 57.
Proof. rewrite <- isdigit_dec. unfold isdigit_ascii. lia. Qed.

(** ** Separators *)
Definition body_char (base c : Z) : Prop := isdig base c = true \/ c = 95.
Lemma separated_spec base t ds : base <= 36 -> (separated base t ds <-> Forall (body_char base) t /\ ds = filter (fun c => negb (c =? 95)) t).
Proof.
  intros B. split.
  - induction 1 as [| c v t ds D S [IH1 IH2] | t ds S [IH1 IH2]]; cbn [filter]; auto.
    + apply digit_isdig in D; auto. split; [constructor; [left |]; auto |]. pose proof (isdig_ascii _ _ B D).
      destruct (Z.eqb_spec c 95); [lia |]. cbn [negb]. congruence.
    + split; [constructor; [right |]; auto |]. auto.
  - intros [F ->]. induction F as [| c t C F IH]; cbn [filter]; [constructor |].
    destruct (Z.eqb_spec c 95) as [-> | N]; cbn [negb]; [constructor; auto |]. destruct C as [C | C]; [| lia].
    econstructor; eauto. apply isdig_digit; eauto.
Qed.
Lemma separated_digits base t ds : base <= 36 -> separated base t ds -> Forall (fun c => isdig base c = true) ds.
Proof. intros B. induction 1; auto. constructor; auto. eapply digit_isdig; eauto. Qed.

(** ** Scanning *)
Lemma scan_hex_ok t c r : Forall (body_char 16) t -> ends 16 c -> scan_hex false false false (t ++ c :: r) = Ret (c :: r, false, false).
Proof.
  intros F (E & E1 & _ & E2). specialize (E2 eq_refl). change (16 =? 16) with true in E. cbn iota in E. apply isdig_false in E; [| lia].
  induction F as [| x t X F IH]; cbn [app scan_hex].
  - rewrite ishex_dec, E. cbn [orb]. destruct (Z.eqb_spec c 95); [lia |]. destruct (Z.eqb_spec c 46); [lia |].
    destruct (Z.eqb_spec c 112); [lia |]. destruct (Z.eqb_spec c 80); [lia |]. cbn [orb]. destruct ((c =? 45) || (c =? 43)); reflexivity.
  - rewrite ishex_dec.
    assert (XR : 48 <= x <= 57 \/ 97 <= x <= 102 \/ 65 <= x <= 70 \/ x = 95) by (destruct X as [X | X]; [apply hex_char in X; lia | lia]).
    replace (isdig 16 x || (x =? 95)) with true by (destruct X as [-> | ->]; [reflexivity | destruct (isdig 16 95); reflexivity]). cbn [orb].
    destruct (Z.eqb_spec x 45); [lia |]. destruct (Z.eqb_spec x 43); [lia |]. destruct (Z.eqb_spec x 112); [lia |]. destruct (Z.eqb_spec x 80); [lia |].
    destruct (Z.eqb_spec x 46); [lia |]. cbn [orb negb andb]. exact IH.
Qed.
Lemma ends_dec base c : base = 8 \/ base = 2 \/ base = 10 -> ends base c -> isdig 10 c = false /\ c <> 95.
Proof.
  intros B (E & E1 & _). replace (base =? 16) with false in E by lia. apply isdig_false in E; [auto | lia].
Qed.
Lemma scan_digits_ok t c r : Forall (body_char 10) t -> isdig 10 c = false -> c <> 95 -> scan_digits (t ++ c :: r) = Ret (c :: r, false, false).
Proof.
  intros F E E1. induction F as [| x t X F IH]; cbn [app scan_digits]; rewrite isdigit_dec.
  - rewrite E. destruct (Z.eqb_spec c 95); [lia |]. reflexivity.
  - replace (isdig 10 x || (x =? 95)) with true by (destruct X as [-> | ->]; [reflexivity | destruct (isdig 10 95); reflexivity]). exact IH.
Qed.
Lemma scan_decimal_ok t c r : Forall (body_char 10) t -> ends 10 c -> scan_decimal false false (t ++ c :: r) = Ret (c :: r, false, false).
Proof.
  intros F (E & E1 & E2 & _). specialize (E2 eq_refl). change (10 =? 16) with false in E. cbn iota in E. apply isdig_false in E; [| lia].
  induction F as [| x t X F IH]; cbn [app scan_decimal]; rewrite isdigit_dec.
  - rewrite E. destruct (Z.eqb_spec c 95); [lia |]. destruct (Z.eqb_spec c 46); [lia |].
    destruct (Z.eqb_spec c 101); [lia |]. destruct (Z.eqb_spec c 69); [lia |]. cbn [orb]. destruct ((c =? 45) || (c =? 43)); reflexivity.
  - assert (XR : 48 <= x <= 57 \/ x = 95) by (destruct X as [X | X]; [apply dec_char in X; lia | lia]).
    destruct (Z.eqb_spec x 45); [lia |]. destruct (Z.eqb_spec x 43); [lia |]. destruct (Z.eqb_spec x 101); [lia |]. destruct (Z.eqb_spec x 69); [lia |].
    destruct (Z.eqb_spec x 46); [lia |]. cbn [orb negb andb].
    replace (isdig 10 x || false || false || (x =? 95)) with true by (destruct X as [-> | ->]; [reflexivity | destruct (isdig 10 95); reflexivity]). exact IH.
Qed.
Lemma between_app a b : between (a ++ b) b = a.
Proof. unfold between. rewrite app_length, Nat.add_sub. rewrite firstn_app, Nat.sub_diag. cbn [firstn]. rewrite firstn_all. apply app_nil_r. Qed.

(** ** strtoull on digits *)
Lemma take_prefix_digits base ds : base <= 16 -> Forall (fun c => isdig base c = true) ds -> take_prefix base ds = (0, ds).
Proof.
  intros B F. unfold take_prefix. destruct ds as [| z [| x [| d r]]]; auto.
  inversion F as [| ? ? _ F2]; subst. inversion F2 as [| ? ? X _]; subst. apply (isdig_mono base 16) in X; auto. apply hex_char in X.
  destruct (Z.eqb_spec x 120); [lia |]. destruct (Z.eqb_spec x 88); [lia |]. cbn [orb]. rewrite andb_false_r. reflexivity.
Qed.
Lemma value_nonneg base ds : 0 <= base <= 36 -> Forall (fun c => isdig base c = true) ds -> forall acc, 0 <= acc -> 0 <= value base acc ds.
Proof.
  intros B. induction 1 as [| c ds C F IH]; intros acc A; [auto |]. unfold value. cbn [fold_left]. apply IH.
  assert (0 <= digit_of c). { unfold digit_of. destruct (Z.leb_spec 48 c); destruct (Z.leb_spec c 57); cbn [andb]; try lia;
    destruct (Z.leb_spec 97 c); destruct (Z.leb_spec c 122); cbn [andb]; try lia; destruct (Z.leb_spec 65 c); destruct (Z.leb_spec c 90); cbn [andb]; lia. }
  nia.
Qed.
Lemma number_nonneg base ds v : 0 <= base <= 36 -> number base ds v -> 0 <= v.
Proof. intros B N. apply number_value in N as (_ & F & ->); [| lia]. apply value_nonneg; auto. lia. Qed.
Lemma strtoull_digits base ds v : 2 <= base <= 16 -> number base ds v ->
  strtoull base ds = (if UINT64_MAX <? v then (UINT64_MAX, zlen ds, true) else (v, zlen ds, false)).
Proof.
  intros B N. pose proof (number_nonneg base ds v ltac:(lia) N) as V0. apply number_value in N as (NE & F & ->); [| lia]. unfold strtoull.
  destruct ds as [| c ds]; [congruence |]. inversion F as [| ? ? C F']; subst.
  destruct (space_not_digit base c) as (SP & NM & NP); auto; [lia |].
  pose proof (skip_while_app c_isspace [] (c :: ds) (Forall_nil _)) as SK. cbn [app] in SK. rewrite SK by (cbn; auto).
  unfold take_sign. destruct (Z.eqb_spec c 45); [lia |]. destruct (Z.eqb_spec c 43); [lia |].
  rewrite take_prefix_digits by (auto; lia).
  pose proof (read_digits_app base (c :: ds) [] 0 0 F I) as RD. rewrite app_nil_r in RD. rewrite RD.
  rewrite zlen_cons. pose proof (zlen_nonneg ds). destruct (Z.eqb_spec (0 + (1 + zlen ds)) 0); [lia |].
  change (@zlen Z []) with 0. replace (0 + 0 + 0 + (0 + (1 + zlen ds))) with (1 + zlen ds) by lia.
  destruct (Z.ltb_spec UINT64_MAX (value base 0 (c :: ds))); [reflexivity |]. rewrite Z.mod_small; [reflexivity |]. change (2 ^ 64) with 18446744073709551616. lia.
Qed.

(** ** parse_integer *)
Lemma parse_integer_ok bits base (minus : bool) pre ds v :
  bits = 32 \/ bits = 64 -> base = 2 \/ base = 8 \/ base = 10 \/ base = 16 -> zlen pre = parse_start_offset base -> number base ds v ->
  (minus = true -> base <> 10 -> v <> 2 ^ (bits - 1)) ->
  match parse_integer bits base minus (pre ++ ds) with
  | Ret w => integer_value bits base minus v w
  | Die _ => forall w, ~ integer_value bits base minus v w
  | _ => False
  end.
Proof.
  intros BI BA PR N MV. pose proof (number_nonneg base ds v ltac:(lia) N) as V0. unfold parse_integer.
  rewrite <- PR. rewrite zdrop_app_r by lia. rewrite Z.sub_diag, (zdrop_0 0) by lia. rewrite (strtoull_digits base ds v) by (auto; lia).
  assert (P : 0 < 2 ^ (bits - 1) /\ 2 ^ bits = 2 * 2 ^ (bits - 1) /\ 2 ^ bits <= 2 ^ 64 /\ 2 ^ (bits - 1) < 2 ^ 64).
  { destruct BI as [-> | ->]; repeat split; try reflexivity; vm_compute; discriminate. }
  destruct P as (P0 & P1 & P2 & P3). change (2 ^ 64) with 18446744073709551616 in P2, P3.
  set (H := 2 ^ (bits - 1)) in *. unfold integer_value. fold H. rewrite P1 in *.
  destruct (Z.ltb_spec UINT64_MAX v) as [L | L].
  - rewrite orb_true_r. cbn [orb negb].
    intros w IV. destruct (base =? 10); [destruct IV as [-> R]; destruct minus; lia | destruct IV; lia].
  - rewrite Z.ltb_irrefl. cbn [orb].
    assert (B10 : ((base =? 16) || (base =? 8) || (base =? 2)) = negb (base =? 10)) by (destruct BA as [-> | [-> | [-> | ->]]]; reflexivity). rewrite B10.
    destruct (Z.eqb_spec base 10) as [-> | NB]; cbn [negb].
    + destruct minus.
      * destruct (Z.ltb_spec (H - 1 + 1) v); cbn [negb]; [intros w [-> R]; lia |].
        assert (WV : wrap H (- v mod 2 ^ 64) = - v); [| rewrite WV; split; [reflexivity | lia]].
        unfold wrap. change (2 ^ 64) with 18446744073709551616.
        destruct (Z.eq_dec v 0) as [-> | V1]; [rewrite (Z.mod_small 0) by lia; rewrite Z.mod_small by lia; lia |].
        rewrite (Z.mod_opp_l_nz v) by (rewrite ?Z.mod_small; lia). rewrite (Z.mod_small v) by lia.
        assert (DV : exists q, 18446744073709551616 = q * (2 * H)).
        { unfold H. destruct BI as [-> | ->]; [exists 4294967296 | exists 1]; reflexivity. }
        destruct DV as [q ->]. replace (q * (2 * H) - v + H) with (H - v + q * (2 * H)) by lia. rewrite Z.mod_add by lia. rewrite Z.mod_small by lia. lia.
      * destruct (Z.ltb_spec (H - 1) v); cbn [negb]; [intros w [-> R]; lia |]. rewrite wrap_id by lia. split; [reflexivity | lia].
    + destruct (Z.ltb_spec (2 * H - 1) v); cbn [negb]; [intros w [R _]; lia |].
      pose proof (wrap_range H v P0) as WR. pose proof (wrap_mod_eq H v P0) as WM. rewrite (Z.mod_small v) in WM by lia.
      destruct minus.
      * destruct (Z.eqb_spec (wrap H v) (- H)) as [E | E].
        -- exfalso. apply MV; auto. rewrite E in WM. replace (- H) with (H + (-1) * (2 * H)) in WM by lia. rewrite Z.mod_add, Z.mod_small in WM by lia. lia.
        -- split; [lia |]. exists (wrap H v). auto.
      * split; [lia |]. exists (wrap H v). auto.
Qed.

(** ** The whole literal *)
Section Number.
  Variables F D : Type.
  Variable strtof : list Z -> F * Z.
  Variable strtod : list Z -> D * Z.
  Variable fneg : F -> F.
  Variable dneg : D -> D.
  Local Notation lit := (numeric_literal F D strtof strtod fneg dneg).

  Lemma suffix_ends base c : c = 108 \/ c = 76 -> base = 2 \/ base = 8 \/ base = 10 \/ base = 16 -> ends base c.
  Proof.
    intros C B. unfold ends. assert (X : isdig 16 c = false) by (destruct C as [-> | ->]; reflexivity).
    split; [| destruct C as [-> | ->]; cbn; intuition lia]. intros v D0.
    assert (isdig 16 c = true); [| congruence].
    destruct (base =? 16); apply digit_isdig in D0; try lia; auto. apply (isdig_mono 10 16) in D0; auto; lia.
  Qed.

  Definition bits_of (suffix : list Z) : Z := match suffix with [] => 32 | _ => 64 end.
  Definition int_const (suffix : list Z) (w : Z) : constant F D := match suffix with [] => CInt w | _ => CLong w end.

  Lemma integer_literal_ok text base ds v minus suffix c rest :
    integer_text text base ds -> number base ds v ->
    (suffix = [] /\ ends base c /\ ~ suffix_letter c) \/ suffix = [108] \/ suffix = [76] ->
    (minus = true -> base <> 10 -> v <> 2 ^ (bits_of suffix - 1)) ->
    match lit minus (text ++ suffix ++ c :: rest) with
    | Ret (k, q) => q = c :: rest /\ exists w, k = int_const suffix w /\ integer_value (bits_of suffix) base minus v w
    | Die _ => forall w, ~ integer_value (bits_of suffix) base minus v w
    | _ => False
    end.
  Proof.
    intros T N S MV.
    assert (BA : base = 2 \/ base = 8 \/ base = 10 \/ base = 16) by (destruct T; auto).
    (* what follows the digits *)
    assert (AF : exists e r, suffix ++ c :: rest = e :: r /\ ends base e).
    { destruct S as [(-> & E & _) | [-> | ->]]; cbn [app]; do 2 eexists; (split; [reflexivity |]); auto; apply suffix_ends; auto. }
    destruct AF as (e & r & EQ & EN). rewrite EQ.
    assert (SC : exists pre, radix (text ++ e :: r) = Ret base /\ scan base (text ++ e :: r) = Ret (e :: r, false, false) /\
       filter (fun c => negb (c =? 95)) text = pre ++ ds /\ zlen pre = parse_start_offset base).
    { inversion T as [E0 | c0 v0 t ds' D0 N0 SP E1 | x t ds' X SP NE E1 | t ds' SP NE E1 | x t ds' X SP NE E1]; subst.
      - exists []. split; [| split; [| split; reflexivity]].
        + unfold radix, next. cbn [deref app obind tl]. change (48 =? 48) with true. cbn iota.
          destruct (ends_dec 10 e) as [D1 D2]; auto. rewrite isdigit_dec, D1. destruct EN as (_ & _ & EN & _). specialize (EN eq_refl).
          destruct EN as (_ & _ & _ & EN). cbn in EN.
          destruct (Z.eqb_spec e 120); [lia |]. destruct (Z.eqb_spec e 88); [lia |]. destruct (Z.eqb_spec e 98); [lia |].
          destruct (Z.eqb_spec e 66); [lia |]. destruct (Z.eqb_spec e 95); [lia |]. reflexivity.
        + unfold scan, next. cbn [app tl]. change (10 =? 16) with false. change ((10 =? 8) || (10 =? 2)) with false. cbn iota.
          apply (scan_decimal_ok [] e r); auto.
      - apply separated_spec in SP as [F0 ->]; [| lia]. apply digit_isdig in D0; [| lia]. apply dec_char in D0.
        exists []. split; [| split; [| split; [| reflexivity]]].
        + unfold radix, next. cbn [deref app obind tl]. destruct (Z.eqb_spec c0 48); [lia |]. reflexivity.
        + unfold scan, next. cbn [app tl]. change (10 =? 16) with false. change ((10 =? 8) || (10 =? 2)) with false. cbn iota.
          apply scan_decimal_ok; auto.
        + cbn [filter app]. destruct (Z.eqb_spec c0 95); [lia |]. reflexivity.
      - apply separated_spec in SP as [F0 ->]; [| lia]. exists [48; x]. split; [| split; [| split; [| reflexivity]]].
        + unfold radix, next. cbn [deref app obind tl]. destruct X as [-> | ->]; reflexivity.
        + unfold scan, next. cbn [app tl]. change (16 =? 16) with true. cbn iota.
          inversion F0 as [| y t' Y F1]; subst; [cbn in NE; congruence |]. cbn [app tl]. apply scan_hex_ok; auto.
        + cbn [filter app]. destruct X as [-> | ->]; reflexivity.
      - apply separated_spec in SP as [F0 ->]; [| lia]. exists [48].
        assert (F1 : Forall (body_char 10) t).
        { eapply Forall_impl; [| exact F0]. intros y [Y | Y]; [left; eapply isdig_mono; eauto; lia | right; auto]. }
        destruct (ends_dec 8 e) as [D1 D2]; auto.
        inversion F1 as [| y t' Y F2]; subst; [cbn in NE; congruence |].
        assert (YR : 48 <= y <= 57 \/ y = 95) by (destruct Y as [Y | Y]; [apply dec_char in Y; lia | lia]).
        split; [| split; [| split; [| reflexivity]]].
        + unfold radix, next. cbn [deref app obind tl]. change (48 =? 48) with true. cbn iota. destruct (Z.eqb_spec y 120); [lia |]. destruct (Z.eqb_spec y 88); [lia |].
          destruct (Z.eqb_spec y 98); [lia |]. destruct (Z.eqb_spec y 66); [lia |]. cbn [orb]. rewrite isdigit_dec.
          replace (isdig 10 y || (y =? 95)) with true by (destruct Y as [-> | ->]; [reflexivity | destruct (isdig 10 95); reflexivity]). reflexivity.
        + unfold scan, next. cbn [app tl]. change (8 =? 16) with false. change ((8 =? 8) || (8 =? 2)) with true. cbn iota.
          apply scan_digits_ok; auto.
        + reflexivity.
      - apply separated_spec in SP as [F0 ->]; [| lia]. exists [48; x].
        assert (F1 : Forall (body_char 10) t).
        { eapply Forall_impl; [| exact F0]. intros y [Y | Y]; [left; eapply isdig_mono; eauto; lia | right; auto]. }
        destruct (ends_dec 2 e) as [D1 D2]; auto.
        split; [| split; [| split; [| reflexivity]]].
        + unfold radix, next. cbn [deref app obind tl]. destruct X as [-> | ->]; reflexivity.
        + unfold scan, next. cbn [app tl]. change (2 =? 16) with false. change ((2 =? 8) || (2 =? 2)) with true. cbn iota.
          apply scan_digits_ok; auto.
        + cbn [filter app]. destruct X as [-> | ->]; reflexivity. }
    destruct SC as (pre & RX & SCN & FL & PL). unfold numeric_literal. rewrite RX, obind_ret, SCN, obind_ret.
    rewrite between_app, FL. cbn [andb deref]. rewrite obind_ret.
    pose proof (parse_integer_ok (bits_of suffix) base minus pre ds v) as PI.
    assert (B2 : bits_of suffix = 32 \/ bits_of suffix = 64) by (destruct suffix; cbn; auto). specialize (PI B2 BA PL N MV).
    destruct S as [(-> & _ & SL) | SL].
    - cbn [app] in EQ. injection EQ as <- <-. cbn [bits_of int_const] in *. unfold suffix_letter in SL. cbn in SL.
      destruct (Z.eqb_spec c 108); [lia |]. destruct (Z.eqb_spec c 76); [lia |]. destruct (Z.eqb_spec c 102); [lia |]. destruct (Z.eqb_spec c 70); [lia |].
      destruct (Z.eqb_spec c 100); [lia |]. destruct (Z.eqb_spec c 68); [lia |]. cbn [orb].
      destruct (parse_integer 32 base minus (pre ++ ds)) as [w | m | |]; cbn [obind]; auto. split; eauto.
    - assert (E1 : (e =? 108) || (e =? 76) = true /\ r = c :: rest /\ bits_of suffix = 64 /\ int_const suffix = CLong).
      { destruct SL as [-> | ->]; cbn [app] in EQ; injection EQ as <- <-; auto. }
      destruct E1 as (-> & -> & B6 & IC). rewrite IC, B6 in *.
      destruct (parse_integer 64 base minus (pre ++ ds)) as [w | m | |]; cbn [obind]; auto. split; eauto.
  Qed.

  (** ** What is accepted *)
  Lemma strtoull_all base text v used e : 2 <= base <= 16 ->
    strtoull base text = (v, used, e) -> zlen text <= used -> e = false ->
    match text with [] => v = 0 | c :: r => c_isspace c = false /\ c <> 45 /\ c <> 43 /\ ~ (starts (fun x => x = 120 \/ x = 88) r) -> number base text v /\ v <= UINT64_MAX end.
  Proof.
    intros B E LE NE. destruct text as [| c r]; [unfold strtoull in E; cbn in E; congruence |].
    intros (SP & N1 & N2 & NX). unfold strtoull in E.
    pose proof (skip_while_app c_isspace [] (c :: r) (Forall_nil _)) as SK. cbn [app] in SK. rewrite SK in E by (cbn; auto).
    unfold take_sign in E. destruct (Z.eqb_spec c 45); [lia |]. destruct (Z.eqb_spec c 43); [lia |].
    assert (TP : take_prefix base (c :: r) = (0, c :: r)).
    { unfold take_prefix. destruct r as [| x [| d r]]; auto. cbn [starts] in NX. destruct (Z.eqb_spec x 120); [lia |]. destruct (Z.eqb_spec x 88); [lia |].
      cbn [orb]. rewrite andb_false_r. reflexivity. }
    rewrite TP in E.
    destruct (read_digits_ok base (c :: r) 0 0) as (ds & rest & EQ & F0 & ST & RD). rewrite RD in E.
    change (@zlen Z []) with 0 in E. replace (0 + 0 + 0 + (0 + zlen ds)) with (zlen ds) in E by lia.
    destruct (Z.eqb_spec (0 + zlen ds) 0) as [Z0 | Z0]; [injection E as <- <- <-; rewrite zlen_cons in LE; pose proof (zlen_nonneg r); lia |].
    assert (US : used = zlen ds) by (destruct (UINT64_MAX <? _); injection E; auto). subst used.
    rewrite EQ, zlen_app in LE. assert (rest = []) by (destruct rest as [| a b]; auto; rewrite zlen_cons in LE; pose proof (zlen_nonneg b); lia). subst rest.
    rewrite app_nil_r in EQ. rewrite EQ. destruct (Z.ltb_spec UINT64_MAX (value base 0 ds)) as [L | L]; [injection E as _ E; congruence |].
    pose proof (value_nonneg base ds ltac:(lia) F0 0 ltac:(lia)).
    rewrite Z.mod_small in E by (change (2 ^ 64) with 18446744073709551616; lia). injection E as <- _. split; [| lia]. apply number_value; [lia |].
    split; [rewrite <- EQ; discriminate | auto].
  Qed.

  Lemma parse_integer_inv bits base (minus : bool) pre ds w :
    bits = 32 \/ bits = 64 -> base = 2 \/ base = 8 \/ base = 10 \/ base = 16 -> zlen pre = parse_start_offset base ->
    parse_integer bits base minus (pre ++ ds) = Ret w ->
    match ds with [] => w = 0 | c :: r => c_isspace c = false /\ c <> 45 /\ c <> 43 /\ ~ (starts (fun x => x = 120 \/ x = 88) r) ->
      exists v, number base ds v /\ integer_value bits base minus v w end.
  Proof.
    intros BI BA PR E. pose proof E as E0. unfold parse_integer in E.
    rewrite <- PR in E. rewrite zdrop_app_r in E by lia. rewrite Z.sub_diag, (zdrop_0 0) in E by lia.
    destruct (strtoull base ds) as [[v used] er] eqn:SE.
    destruct ((used <? zlen ds) || er || _) eqn:CK; [discriminate |]. cbn [negb] in E.
    apply orb_false_iff in CK as [CK LM]. apply orb_false_iff in CK as [US ER]. apply Z.ltb_ge in US.
    pose proof (strtoull_all base ds v used er ltac:(lia) SE US ER) as SA.
    destruct ds as [| c r].
    - subst v. destruct BI as [-> | ->]; destruct minus; destruct BA as [-> | [-> | [-> | ->]]]; cbn in E; injection E as <-; reflexivity.
    - intros FI. destruct (SA FI) as [N L]. exists v. split; auto.
      pose proof (parse_integer_ok bits base minus pre (c :: r) v BI BA PR N) as PI. rewrite E0 in PI. apply PI.
      intros -> NB VE. clear PI E0 SA.
      assert (B10 : ((base =? 16) || (base =? 8) || (base =? 2)) = true) by (destruct BA as [-> | [-> | [-> | ->]]]; auto; lia). rewrite B10 in E.
      subst v. destruct BI as [-> | ->]; vm_compute in E; discriminate.
  Qed.

  Lemma scan_hex_inv ex fl hf p q fl' hf' : scan_hex ex fl hf p = Ret (q, fl', hf') -> (hf = true -> fl = true) ->
    exists t, p = t ++ q /\ q <> [] /\ (hf' = true -> fl' = true) /\ (hf' = true -> hf = true \/ t <> []) /\
      Forall (fun c => is_hex_number c = true \/ c = 95 \/ c = 46 \/ c = 112 \/ c = 80 \/ c = 45 \/ c = 43) t /\
      (starts (fun c => c = 45 \/ c = 43) (filter (fun c => negb (c =? 95)) t) -> ex = true).
  Proof.
    revert ex fl hf. induction p as [| c p IH]; intros ex fl hf E HF; cbn [scan_hex] in E; [discriminate |].
    assert (NIL : Ret (c :: p, fl, hf) = Ret (q, fl', hf') -> exists t, c :: p = t ++ q /\ q <> [] /\ (hf' = true -> fl' = true) /\ (hf' = true -> hf = true \/ t <> []) /\
      Forall (fun c => is_hex_number c = true \/ c = 95 \/ c = 46 \/ c = 112 \/ c = 80 \/ c = 45 \/ c = 43) t /\
      (starts (fun c => c = 45 \/ c = 43) (filter (fun c => negb (c =? 95)) t) -> ex = true)).
    { intros X. injection X as <- <- <-. exists []. repeat split; auto; try discriminate; intros []. }
    destruct (is_hex_number c || (c =? 95) || (c =? 46) || ((c =? 112) || (c =? 80)) || ((c =? 45) || (c =? 43))) eqn:CC; [| auto].
    destruct (negb ex && ((c =? 45) || (c =? 43))) eqn:SG; [auto |].
    destruct (IH _ _ _ E) as (t & -> & Q & H1 & H2 & H3 & H4).
    { intros X. destruct ((c =? 112) || (c =? 80)); [rewrite !orb_true_r; reflexivity |]. rewrite orb_false_r in *. rewrite HF by auto. reflexivity. }
    exists (c :: t). split; [reflexivity |]. split; [auto |]. split; [auto |]. split; [intros; right; discriminate |]. split.
    - constructor; auto. destruct (is_hex_number c); auto. right. clear - CC. cbn [orb] in CC. lia.
    - cbn [filter]. destruct (Z.eqb_spec c 95) as [-> | N9]; cbn [negb starts].
      + intros X. specialize (H4 X). rewrite orb_false_r in H4. auto.
      + intros X. destruct ex; auto. cbn [negb andb] in SG. lia.
  Qed.
  Lemma scan_digits_inv p q fl' hf' : scan_digits p = Ret (q, fl', hf') ->
    exists t, p = t ++ q /\ q <> [] /\ fl' = false /\ hf' = false /\ Forall (body_char 10) t.
  Proof.
    induction p as [| c p IH]; intros E; cbn [scan_digits] in E; [discriminate |].
    destruct (isdigit_ascii c || (c =? 95)) eqn:CC.
    - destruct (IH E) as (t & -> & H). exists (c :: t). destruct H as (Q & H1 & H2 & H3). repeat split; auto. constructor; auto.
      rewrite isdigit_dec in CC. unfold body_char. destruct (isdig 10 c); auto. right. lia.
    - injection E as <- <- <-. exists []. repeat split; auto. discriminate.
  Qed.
  Lemma scan_decimal_inv ex fl p q fl' hf' : scan_decimal ex fl p = Ret (q, fl', hf') ->
    exists t, p = t ++ q /\ q <> [] /\ hf' = false /\ Forall (fun c => isdigit_ascii c = true \/ c = 95 \/ c = 46 \/ c = 101 \/ c = 69 \/ c = 45 \/ c = 43) t /\
      (starts (fun c => (c = 45 \/ c = 43)) t -> ex = true).
  Proof.
    revert ex fl. induction p as [| c p IH]; intros ex fl E; cbn [scan_decimal] in E; [discriminate |].
    assert (NIL : Ret (c :: p, fl, false) = Ret (q, fl', hf') -> exists t, c :: p = t ++ q /\ q <> [] /\ hf' = false /\ Forall (fun c => isdigit_ascii c = true \/ c = 95 \/ c = 46 \/ c = 101 \/ c = 69 \/ c = 45 \/ c = 43) t /\
      (starts (fun c => (c = 45 \/ c = 43)) t -> ex = true)).
    { intros X. injection X as <- <- <-. exists []. repeat split; auto; try discriminate; intros []. }
    destruct (isdigit_ascii c || _ || _ || (c =? 95)) eqn:CC; [| auto].
    destruct (negb ex && ((c =? 45) || (c =? 43))) eqn:SG; [auto |].
    destruct (IH _ _ E) as (t & -> & Q & H1 & H2 & H3). exists (c :: t). repeat split; auto.
    - constructor; auto. destruct (isdigit_ascii c); auto. right. clear - CC. cbn [orb] in CC. lia.
    - cbn [starts]. intros X. destruct ex; auto. cbn [negb andb] in SG. lia.
  Qed.

  Lemma all_digits_separated base t ds : base <= 36 -> filter (fun c => negb (c =? 95)) t = ds -> Forall (fun c => isdig base c = true) ds -> separated base t ds.
  Proof.
    intros B <- F0. apply separated_spec; auto. split; auto. induction t as [| c t IH]; auto. cbn [filter] in F0.
    destruct (Z.eqb_spec c 95) as [-> |]; cbn [negb] in F0; [constructor; [right |]; auto |]. inversion F0; subst. constructor; [left |]; auto.
  Qed.
  Lemma filter_underscores t : filter (fun c => negb (c =? 95)) t = [] -> Forall (eq 95) t.
  Proof. induction t as [| c t IH]; auto. cbn [filter]. destruct (Z.eqb_spec c 95) as [-> |]; cbn [negb]; [auto | discriminate]. Qed.

  (** The exceptions: nothing but separators behind the prefix, or a strange
      character right behind 0x. *)
  Definition no_digits (text : list Z) : Prop :=
    exists u, Forall (eq 95) u /\ (text = 48 :: u \/ exists x, In x (bytes "xXbB") /\ text = 48 :: x :: u).
  Definition odd_hex (text : list Z) : Prop :=
    exists x c t, (x = 120 \/ x = 88) /\ text = 48 :: x :: c :: t /\ c <> 95 /\ ~ hexadecimal c.

  Lemma integer_literal_inv minus p k q w :
    starts (fun c => exists v, digit 10 c v) p -> lit minus p = Ret (k, q) -> k = CInt w \/ k = CLong w ->
    exists text suffix, p = text ++ suffix ++ q /\ k = int_const suffix w /\ (suffix = [] \/ suffix = [108] \/ suffix = [76]) /\
      ((exists base ds v, integer_text text base ds /\ number base ds v /\ integer_value (bits_of suffix) base minus v w) \/
       (no_digits text /\ w = 0) \/ odd_hex text).
  Proof.
    intros ST E K. unfold numeric_literal in E. destruct p as [| c0 p]; [destruct ST |]. cbn [starts] in ST.
    destruct ST as [v0 D0]. apply digit_isdig in D0; [| lia]. pose proof (dec_char _ D0) as C0.
    destruct (radix (c0 :: p)) as [base | | |] eqn:RX; try discriminate. cbn [obind] in E.
    destruct (scan base (c0 :: p)) as [[[q0 fl] hf] | | |] eqn:SC; try discriminate. cbn [obind] in E.
    (* the text *)
    assert (TX : exists text, c0 :: p = text ++ q0 /\ q0 <> [] /\ (hf = true -> fl = true /\ ~ In (last text 0) [108; 76]) /\
      (base = 2 \/ base = 8 \/ base = 10 \/ base = 16) /\
      exists pre t, text = pre ++ t /\ filter (fun c => negb (c =? 95)) pre = pre /\ zlen pre = parse_start_offset base /\
        ((base = 10 /\ pre = [] /\ (exists t', t = c0 :: t' /\ Forall (fun c => ~ In c [120; 88]) t' /\ (c0 = 48 -> t' <> [] -> ~ Forall (fun c => isdig 10 c = true \/ c = 95) t'))) \/
         (base = 8 /\ pre = [48] /\ Forall (body_char 10) t) \/
         (base = 2 /\ (exists x, In x [98; 66] /\ pre = [48; x]) /\ Forall (body_char 10) t) \/
         (base = 16 /\ (exists x, In x [120; 88] /\ pre = [48; x]) /\ exists c t', t = c :: t' /\ Forall (fun c => ~ In c [120; 88; 32; 9; 10; 11; 12; 13]) t' /\ ~ starts (fun c => c = 45 \/ c = 43) (filter (fun c => negb (c =? 95)) t')))).
    { unfold radix, next in RX. cbn [deref obind tl] in RX. unfold scan, next in SC. cbn [tl] in SC.
      destruct (Z.eqb_spec c0 48) as [-> | NZ].
      - destruct p as [| c1 p]; [discriminate |]. cbn [deref obind] in RX. injection RX as RX.
        destruct ((c1 =? 120) || (c1 =? 88)) eqn:X1; [| destruct ((c1 =? 98) || (c1 =? 66)) eqn:X2; [| destruct (isdigit_ascii c1 || (c1 =? 95)) eqn:X3]]; subst base.
        + change (16 =? 16) with true in SC. cbn iota in SC. cbn [tl] in SC. destruct p as [| c2 p]; [discriminate |]. cbn [tl] in SC.
          destruct (scan_hex_inv _ _ _ _ _ _ _ SC) as (t & -> & Q & H1 & H2 & H3 & H4); [discriminate |].
          exists (48 :: c1 :: c2 :: t). split; [reflexivity |]. split; [auto |]. split; [| split; [auto |]].
          * intros HF. split; auto. destruct (H2 HF) as [H6 | H6]; [discriminate |]. destruct t as [| a t] using rev_ind; [congruence |].
            change (48 :: c1 :: c2 :: t ++ [a]) with ((48 :: c1 :: c2 :: t) ++ [a]). rewrite last_last. apply Forall_app in H3 as [_ H3]. inversion H3 as [| ? ? H5 _]; subst.
            unfold is_hex_number, isdigit_ascii in H5. cbn. lia.
          * exists [48; c1], (c2 :: t). split; [reflexivity |]. split; [cbn [filter]; destruct (Z.eqb_spec c1 95); [lia | reflexivity] |]. split; [reflexivity |].
            right. right. right. split; [reflexivity |]. split; [exists c1; cbn; split; [lia | auto] |]. exists c2, t. split; auto. split; [| intros X; specialize (H4 X); discriminate].
            eapply Forall_impl; [| exact H3]. cbn beta. intros y Y. unfold is_hex_number, isdigit_ascii in Y. cbn. lia.
        + change (2 =? 16) with false in SC. change ((2 =? 8) || (2 =? 2)) with true in SC. cbn iota in SC. cbn [tl] in SC.
          destruct (scan_digits_inv _ _ _ _ SC) as (t & -> & Q & -> & -> & H3).
          exists (48 :: c1 :: t). split; [reflexivity |]. split; [auto |]. split; [discriminate |]. split; [auto |].
          exists [48; c1], t. split; [reflexivity |]. split; [cbn [filter]; destruct (Z.eqb_spec c1 95); [lia | reflexivity] |]. split; [reflexivity |].
          right. right. left. split; [reflexivity |]. split; [exists c1; cbn; split; [lia | auto] |]. auto.
        + change (8 =? 16) with false in SC. change ((8 =? 8) || (8 =? 2)) with true in SC. cbn iota in SC. cbn [tl] in SC.
          destruct (scan_digits_inv _ _ _ _ SC) as (t & -> & Q & -> & -> & H3).
          exists (48 :: c1 :: t). split; [reflexivity |]. split; [auto |]. split; [discriminate |]. split; [auto |].
          exists [48], (c1 :: t). split; [reflexivity |]. split; [reflexivity |]. split; [reflexivity |].
          right. left. split; [reflexivity |]. split; [reflexivity |]. constructor; auto.
          rewrite isdigit_dec in X3. unfold body_char. destruct (isdig 10 c1); auto. right. lia.
        + change (10 =? 16) with false in SC. change ((10 =? 8) || (10 =? 2)) with false in SC. cbn iota in SC.
          destruct (scan_decimal_inv _ _ _ _ _ _ SC) as (t & EQ & Q & -> & H3 & H4).
          exists (48 :: t). split; [cbn; congruence |]. split; [auto |]. split; [discriminate |]. split; [auto |].
          exists [], (48 :: t). split; [reflexivity |]. split; [reflexivity |]. split; [reflexivity |]. left. split; [reflexivity |]. split; [reflexivity |].
          exists t. split; [reflexivity |].
          split; [eapply Forall_impl; [| exact H3]; cbn beta; intros y Y; unfold isdigit_ascii in Y; cbn; lia |]. intros _ NE FT. destruct t as [| a t]; [congruence |]. cbn [app] in EQ. injection EQ as -> _.
          inversion FT as [| ? ? A _]; subst. rewrite <- isdigit_dec in A. apply orb_false_iff in X3 as [X3 X4]. rewrite X3 in A. destruct A; [discriminate | lia].
      - injection RX as <-. change (10 =? 16) with false in SC. change ((10 =? 8) || (10 =? 2)) with false in SC. cbn iota in SC.
        destruct (scan_decimal_inv _ _ _ _ _ _ SC) as (t & -> & Q & -> & H3 & H4).
        exists (c0 :: t). split; [reflexivity |]. split; [auto |]. split; [discriminate |]. split; [auto |].
        exists [], (c0 :: t). split; [reflexivity |]. split; [reflexivity |]. split; [reflexivity |]. left. split; [reflexivity |]. split; [reflexivity |].
        exists t. split; [reflexivity |].
        split; [eapply Forall_impl; [| exact H3]; cbn beta; intros y Y; unfold isdigit_ascii in Y; cbn; lia |]. intros; lia. }
    destruct TX as (text & EP & Q0 & HF & BA & pre & t & ET & FP & PL & CS).
    rewrite EP, between_app in E.
    assert (FT : filter (fun c => negb (c =? 95)) text = pre ++ filter (fun c => negb (c =? 95)) t) by (rewrite ET, filter_app, FP; reflexivity).
    rewrite FT in E.
    (* the type *)
    assert (TY : exists suffix, (suffix = [] \/ suffix = [108] \/ suffix = [76]) /\ q0 = suffix ++ q /\ k = int_const suffix w /\
       parse_integer (bits_of suffix) base minus (pre ++ filter (fun c => negb (c =? 95)) t) = Ret w).
    { destruct (hf && negb (isdigit_ascii (last text 0))) eqn:BK.
      - apply andb_prop in BK as [HT _]. destruct (HF HT) as [FL NL]. cbn [deref] in E. rewrite obind_ret in E. cbn in NL.
        destruct (Z.eqb_spec (last text 0) 108); [lia |]. destruct (Z.eqb_spec (last text 0) 76); [lia |]. cbn [orb] in E.
        rewrite FL, orb_true_r in E.
        exfalso. destruct ((last text 0 =? 102) || (last text 0 =? 70)).
        + destruct (strtof _) as [f u]. destruct (u =? _); [| discriminate]. injection E as <- _. destruct K; discriminate.
        + destruct (strtod _) as [f u]. destruct (u =? _); [| discriminate]. injection E as <- _. destruct K; discriminate.
      - destruct q0 as [| c q0]; [congruence |]. cbn [deref] in E. rewrite obind_ret in E.
        destruct ((c =? 108) || (c =? 76)) eqn:CL.
        + destruct (parse_integer 64 base minus _) as [w' | | |] eqn:PI; try discriminate. cbn [obind next tl] in E. injection E as <- <-.
          assert (w' = w) by (destruct K as [K | K]; [discriminate | injection K; auto]). subst w'.
          exists [c]. split; [right; destruct (Z.eqb_spec c 108) as [-> |]; [left; reflexivity |]; destruct (Z.eqb_spec c 76) as [-> |]; [right; reflexivity | discriminate] |].
          split; [reflexivity |]. split; [reflexivity |]. exact PI.
        + destruct (_ || fl) in E.
          * exfalso. destruct ((c =? 102) || (c =? 70)).
            -- destruct (strtof _) as [f u]. destruct (u =? _); [| discriminate]. injection E as <- _. destruct K; discriminate.
            -- destruct (strtod _) as [f u]. destruct (u =? _); [| discriminate]. injection E as <- _. destruct K; discriminate.
          * destruct (parse_integer 32 base minus _) as [w' | | |] eqn:PI; try discriminate. cbn [obind] in E. injection E as <- <-.
            assert (w' = w) by (destruct K as [K | K]; [injection K; auto | discriminate]). subst w'.
            exists []. split; [auto |]. split; [reflexivity |]. split; [reflexivity |]. exact PI. }
    destruct TY as (suffix & SF & EQ & KE & PI). exists text, suffix. split; [rewrite EP, EQ; reflexivity |]. split; [auto |]. split; [auto |].
    assert (B2 : bits_of suffix = 32 \/ bits_of suffix = 64) by (destruct suffix; cbn; auto).
    pose proof (parse_integer_inv (bits_of suffix) base minus pre _ w B2 BA PL PI) as INV. clear PI E.
    set (ds := filter (fun c => negb (c =? 95)) t) in *.
    assert (DSN : forall f, Forall f t -> Forall f ds).
    { intros f F0. apply Forall_forall. intros x IX. apply filter_In in IX as [IX _]. rewrite Forall_forall in F0. auto. }
    assert (DIG : forall b v, 2 <= b <= 16 -> number b ds v -> separated b t ds /\ ds <> []).
    { intros b v B N. apply number_value in N as (NE & F0 & _); [| lia]. split; auto. apply all_digits_separated; auto. lia. }
    assert (NSP : forall c, isdig 16 c = true -> c_isspace c = false /\ c <> 45 /\ c <> 43 /\ c <> 120 /\ c <> 88 /\ c <> 95).
    { intros c C. destruct (space_not_digit 16 c) as (X1 & X2 & X3); auto; [lia |]. apply hex_char in C. repeat split; auto; lia. }
    destruct CS as [(-> & -> & t' & -> & NX & C48) | [(-> & -> & F0) | [(-> & (x & IX & ->) & F0) | (-> & (x & IX & ->) & c & t' & -> & F0 & NS)]]].
    - left. destruct (NSP c0) as (S1 & S2 & S3 & S4 & S5 & S6); [eapply isdig_mono; eauto; lia |].
      assert (DE : ds = c0 :: filter (fun c => negb (c =? 95)) t') by (unfold ds; cbn [filter]; destruct (Z.eqb_spec c0 95); [lia | reflexivity]).
      rewrite DE in INV. destruct INV as (v & N & IV).
      { repeat split; auto. clear - NX. induction t' as [| a t' IH]; [intros [] |]. inversion NX; subst. cbn [filter].
        destruct (a =? 95); cbn [negb]; [auto |]. cbn [starts]. cbn in H1. lia. }
      rewrite <- DE in N. destruct (DIG 10 v ltac:(lia) N) as [SP _]. pose proof SP as SP0. apply separated_spec in SP0 as [SP0 _]; [| lia].
      exists 10, ds, v. split; [| auto]. rewrite ET. cbn [app]. rewrite DE in SP. inversion SP as [| ? v1 ? ? D1 SP1 |]; subst; [| lia]. rewrite DE.
      destruct (Z.eq_dec c0 48) as [-> | N48].
      + destruct t' as [| a t']; [constructor |]. exfalso. apply C48; auto; [discriminate |]. inversion SP0; subst. auto.
      + econstructor; eauto.
    - destruct ds as [| d r] eqn:DE.
      + right. left. split; [| auto]. exists t. split; [apply filter_underscores; exact DE |]. left. auto.
      + left. rewrite <- DE in *. assert (FD : Forall (body_char 10) ds) by (apply DSN; auto).
        assert (FN : Forall (fun c => c <> 95) ds) by (apply Forall_forall; intros y Y; apply filter_In in Y as [_ Y]; lia).
        assert (FX : Forall (fun c => isdig 16 c = true) ds).
        { apply Forall_forall. intros y Y. rewrite Forall_forall in FD, FN. destruct (FD y Y) as [Y1 | Y1]; [eapply isdig_mono; eauto; lia | exfalso; eapply FN; eauto]. }
        rewrite DE in INV, FX. inversion FX as [| ? ? FX1 FX2]; subst. destruct (NSP d FX1) as (S1 & S2 & S3 & _).
        destruct INV as (v & N & IV).
        { repeat split; auto. destruct r as [| a r]; [intros [] |]. cbn [starts]. inversion FX2 as [| ? ? FX3 _]; subst. destruct (NSP a FX3). lia. }
        rewrite <- DE in N. destruct (DIG 8 v ltac:(lia) N) as [SP NE]. exists 8, ds, v. split; [constructor; auto | auto].
    - destruct ds as [| d r] eqn:DE.
      + right. left. split; [| auto]. exists t. split; [apply filter_underscores; exact DE |]. right. exists x. split; [cbn in IX |- *; lia | auto].
      + left. rewrite <- DE in *. assert (FD : Forall (body_char 10) ds) by (apply DSN; auto).
        assert (FN : Forall (fun c => c <> 95) ds) by (apply Forall_forall; intros y Y; apply filter_In in Y as [_ Y]; lia).
        assert (FX : Forall (fun c => isdig 16 c = true) ds).
        { apply Forall_forall. intros y Y. rewrite Forall_forall in FD, FN. destruct (FD y Y) as [Y1 | Y1]; [eapply isdig_mono; eauto; lia | exfalso; eapply FN; eauto]. }
        rewrite DE in INV, FX. inversion FX as [| ? ? FX1 FX2]; subst. destruct (NSP d FX1) as (S1 & S2 & S3 & _).
        destruct INV as (v & N & IV).
        { repeat split; auto. destruct r as [| a r]; [intros [] |]. cbn [starts]. inversion FX2 as [| ? ? FX3 _]; subst. destruct (NSP a FX3). lia. }
        rewrite <- DE in N. destruct (DIG 2 v ltac:(lia) N) as [SP NE]. exists 2, ds, v. split; [apply I_binary; auto; cbn in IX; lia | auto].
    - destruct (Z.eq_dec c 95) as [-> | N95]; [| destruct (isdig 16 c) eqn:HC].
      + assert (DE0 : ds = filter (fun c => negb (c =? 95)) t') by reflexivity.
        destruct ds as [| d r] eqn:DE.
        * right. left. split; [| auto]. exists (95 :: t'). split; [apply filter_underscores; exact DE |]. right. exists x. split; [cbn in IX |- *; lia | auto].
        * left. assert (FD : Forall (fun c => ~ In c [120; 88; 32; 9; 10; 11; 12; 13]) (d :: r)).
          { rewrite DE0. apply Forall_forall. intros y Y. apply filter_In in Y as [Y _]. rewrite Forall_forall in F0. auto. }
          rewrite <- DE0 in NS. cbn [starts] in NS. inversion FD as [| ? ? FD1 FD2]; subst. cbn in FD1.
          destruct INV as (v & N & IV).
          { unfold c_isspace. repeat split; try lia. destruct r as [| a r]; [intros [] |]. cbn [starts]. inversion FD2 as [| ? ? FD3 _]; subst. cbn in FD3. lia. }
          destruct (DIG 16 v ltac:(lia) N) as [SP NE]. exists 16, (d :: r), v. split; [apply I_hex; auto; cbn in IX; lia | auto].
      + left. assert (DE : ds = c :: filter (fun c => negb (c =? 95)) t') by (unfold ds; cbn [filter]; destruct (Z.eqb_spec c 95); [lia | reflexivity]).
        destruct (NSP c HC) as (S1 & S2 & S3 & _). rewrite DE in INV.
        destruct INV as (v & N & IV).
        { repeat split; auto. clear - F0. induction t' as [| a t' IH]; [intros [] |]. inversion F0; subst. cbn [filter].
          destruct (a =? 95); cbn [negb]; [auto |]. cbn [starts]. cbn in H1. lia. }
        rewrite <- DE in N. destruct (DIG 16 v ltac:(lia) N) as [SP NE]. exists 16, ds, v. rewrite ET. split; [apply I_hex; auto; cbn in IX; lia | auto].
      + right. right. exists x, c, t'. split; [cbn in IX; lia |]. split; [exact ET |]. split; [auto |]. intros [v D1]. apply digit_isdig in D1; [congruence | lia].
  Qed.
End Number.
