(** * Literals survive: what the generator writes, the compiler reads back *)

From Coq Require Import String.
From Coq Require Import List Lia.
Import ListNotations.
From Verif Require Import Base CLib Bytes Dec Type_model Dispatch_model Switch_model.
From Verif Require Import Precomp_syntax Precomp_table Precomp_model Precomp_spec PrecompName_proofs.

Lemma name_eq_neq a b : a <> b -> name_eq a b = false.
Proof. intros N. destruct (name_eq a b) eqn:E; auto. apply name_eq_spec in E. congruence. Qed.

Lemma c_digits_dec ds : forall acc, Forall Dec.is_digit ds -> c_digits acc ds = Some (dval acc ds).
Proof.
  induction ds as [| c ds IH]; intros acc F; [reflexivity |]. inversion F as [| ? ? D F']; subst.
  cbn [c_digits]. unfold Dec.is_digit in D.
  destruct (Z.leb_spec 48 c), (Z.leb_spec c 57); try lia. cbn [andb]. rewrite IH by auto. reflexivity.
Qed.

Lemma c_digits_ll ds : forall acc, Forall Dec.is_digit ds -> c_digits acc (ds ++ bytes "LL") = Some (dval acc ds).
Proof.
  induction ds as [| c ds IH]; intros acc F; [reflexivity |]. inversion F as [| ? ? D F']; subst.
  cbn [c_digits app]. unfold Dec.is_digit in D.
  destruct (Z.leb_spec 48 c), (Z.leb_spec c 57); try lia. cbn [andb]. rewrite IH by auto. reflexivity.
Qed.

Lemma c_int_dec (suffix : name) v : suffix = [] \/ suffix = bytes "LL" -> c_int (print_dec v ++ suffix) = Some v.
Proof.
  intros S.
  assert (R : forall n, 0 <= n -> exists c r, udec n = c :: r /\ Dec.is_digit c /\ c_decimal (udec n ++ suffix) = Some n).
  { intros n N. destruct (udec_spec n N) as (F & V & NE & H0 & HZ).
    destruct (udec n) as [| c r] eqn:E; [congruence |]. exists c, r. split; auto. split; [inversion F; auto |].
    assert (Q : c_decimal ((c :: r) ++ suffix) = c_digits 0 ((c :: r) ++ suffix)).
    { unfold c_decimal. cbn [app]. destruct (Z.eq_dec n 0) as [Z0 | Z0].
      - specialize (HZ Z0). injection HZ as -> ->. destruct S as [-> | ->]; reflexivity.
      - specialize (H0 ltac:(lia)). cbn in H0. destruct (r ++ suffix); auto. destruct (Z.eqb_spec c 48); [congruence |]. reflexivity. }
    rewrite Q. destruct S as [-> | ->].
    - rewrite app_nil_r, c_digits_dec by auto. f_equal. exact V.
    - rewrite c_digits_ll by auto. f_equal. exact V. }
  unfold c_int, print_dec.
  destruct (Z.ltb_spec v 0) as [N | N].
  - destruct (R (- v) ltac:(lia)) as (c & r & E & D & V).
    rewrite !name_eq_neq by (cbn; intros Q; discriminate Q).
    cbn [app]. rewrite Z.eqb_refl. rewrite V. rewrite E, <- app_comm_cons, zlen_cons.
    pose proof (zlen_nonneg (r ++ suffix)). destruct (Z.ltb_spec 0 (1 + zlen (r ++ suffix))); [| lia].
    cbn [omap]. f_equal. lia.
  - destruct (R v N) as (c & r & E & D & V). rewrite E in *. unfold Dec.is_digit in D.
    cbn [app] in *.
    rewrite !name_eq_neq by (cbn; intros Q; injection Q as Q _; lia).
    destruct (Z.eqb_spec c 45); [lia |]. exact V.
Qed.

Lemma c_int_add_int v : c_int (add_int v) = Some v.
Proof.
  unfold add_int. destruct (Z.eqb_spec v (-2147483648)) as [-> |]; [reflexivity |].
  rewrite <- (app_nil_r (print_dec v)). apply c_int_dec. auto.
Qed.

Lemma c_int_add_long v : c_int (add_long v) = Some v.
Proof.
  unfold add_long. destruct (Z.eqb_spec v (-9223372036854775808)) as [-> |]; [reflexivity |].
  apply c_int_dec. auto.
Qed.

Lemma c_int_add_byte v : c_int (add_byte v) = Some v.
Proof. unfold add_byte. rewrite <- (app_nil_r (print_dec v)). apply c_int_dec. auto. Qed.

Lemma add_int_inj v w : add_int v = add_int w -> v = w.
Proof. intros E. apply (f_equal c_int) in E. rewrite !c_int_add_int in E. congruence. Qed.

Lemma plain_string s : plain s -> c_string s = Some s.
Proof.
  unfold c_string, plain. intros P. induction P as [| c s N F IH]; [reflexivity |]. cbn [c_lit lit_end].
  destruct (Z.eqb_spec c 92); [subst; exfalso; apply N; cbn; tauto |].
  destruct (Z.eqb_spec c 34); [subst; exfalso; apply N; cbn; tauto |].
  destruct (Z.eqb_spec c 10); [subst; exfalso; apply N; cbn; tauto |].
  destruct (Z.eqb_spec c 63); [subst; exfalso; apply N; cbn; tauto |].
  destruct (Z.eqb_spec c 0); [subst; exfalso; apply N; cbn; tauto |].
  cbn [orb]. rewrite IH. reflexivity.
Qed.

Lemma plain_c_str s : plain s -> c_str s = s.
Proof.
  unfold plain. intros P. induction P as [| c s N F IH]; [reflexivity |]. cbn [c_str].
  destruct (Z.eqb_spec c 0); [subst; exfalso; apply N; cbn; tauto |]. rewrite IH. reflexivity.
Qed.

Lemma hex_digit_value d : 0 <= d <= 15 -> hex_value (hex_digit d) = Some d.
Proof.
  intros R. unfold hex_value, hex_digit. destruct (Z.ltb_spec d 10).
  - destruct (Z.leb_spec 48 (48 + d)), (Z.leb_spec (48 + d) 57); try lia. cbn [andb]. f_equal. lia.
  - destruct (Z.leb_spec 48 (55 + d)), (Z.leb_spec (55 + d) 57); try lia; cbn [andb].
    destruct (Z.leb_spec 65 (55 + d)), (Z.leb_spec (55 + d) 70); try lia; cbn [andb]. f_equal. lia.
Qed.

Lemma c_lit_x r : c_lit LEsc (120 :: r) = c_lit (LHex None) r.
Proof. reflexivity. Qed.

Lemma c_lit_hex v c r d : hex_value c = Some d ->
  c_lit (LHex v) (c :: r) = c_lit (LHex (Some (match v with Some v => v * 16 + d | None => d end))) r.
Proof. intros H. cbn [c_lit]. rewrite H. reflexivity. Qed.

Lemma c_lit_backslash m r done : lit_end m = Some done -> c_lit m (92 :: r) = omap (app done) (c_lit LEsc r).
Proof.
  intros L. destruct m; [| discriminate |]; cbn [c_lit]; [| change (hex_value 92) with (@None Z); cbv iota];
  rewrite L; reflexivity.
Qed.

Lemma hex_string s : Forall is_byte s -> c_string (flat_map add_hex_char s) = Some s.
Proof.
  unfold c_string. intros F.
  assert (P : forall m done, lit_end m = Some done -> c_lit m (flat_map add_hex_char s) = Some (done ++ s)).
  { induction F as [| c s B F IH]; intros m done L.
    - cbn [flat_map]. unfold c_lit. rewrite app_nil_r. exact L.
    - change (flat_map add_hex_char (c :: s)) with (92 :: 120 :: hex_digit (u8 c / 16) :: hex_digit (u8 c mod 16) :: flat_map add_hex_char s).
      unfold is_byte in B. assert (U : u8 c = c) by (unfold u8; apply Z.mod_small; lia). rewrite U.
      assert (H1 : 0 <= c / 16 <= 15) by (split; [apply Z.div_pos; lia | apply Z.lt_succ_r; apply Z.div_lt_upper_bound; lia]).
      assert (H2 : 0 <= c mod 16 <= 15) by (pose proof (Z.mod_pos_bound c 16 ltac:(lia)); lia).
      rewrite (c_lit_backslash m _ done L), c_lit_x.
      rewrite (c_lit_hex _ _ _ _ (hex_digit_value _ H1)), (c_lit_hex _ _ _ _ (hex_digit_value _ H2)).
      rewrite IH with (done := [c]); [reflexivity |].
      cbn [lit_end]. replace (c / 16 * 16 + c mod 16) with c by (pose proof (Z.div_mod c 16); lia).
      destruct (Z.leb_spec c 255); [reflexivity | lia]. }
  rewrite (P LPlain []); auto.
Qed.
