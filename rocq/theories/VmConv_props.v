(** * Integers and strings: C19 *)

From Verif Require Import Base CLib Dec Bytes CStrto VmConv_model.

(** ** Specification *)

(** [s] is the decimal notation of [v]. *)
Definition decimal_of (v : Z) (s : list Z) : Prop :=
  exists ds, s = (if v <? 0 then [45] else []) ++ ds /\
    Forall is_digit ds /\ ds <> [] /\ digits_value ds = Z.abs v /\
    (hd 0 ds = 48 -> ds = [48]).

(** The nearest value of the type. *)
Definition clamp (k : ikind) (v : Z) : Z := Z.max (imin k) (Z.min (imax k) v).

(** A string that starts with a number: white space, an optional sign, at
    least one digit, then anything that is not a digit. *)
Inductive sign := Plus | Minus | NoSign.
Definition sign_text (s : sign) : list Z := match s with Plus => [43] | Minus => [45] | NoSign => [] end.
Definition sign_value (s : sign) (v : Z) : Z := match s with Minus => - v | _ => v end.

Definition space (c : Z) : Prop := c = 32 \/ 9 <= c <= 13.
Definition ends (rest : list Z) : Prop :=
  match rest with [] => True | c :: _ => ~ is_digit c end.

(** ** Proofs *)

Lemma digit_of_dec c : (digit_of c <? 10) = true <-> is_digit c.
Proof.
  unfold digit_of, is_digit.
  destruct (Z.leb_spec 48 c), (Z.leb_spec c 57), (Z.leb_spec 97 c), (Z.leb_spec c 122),
    (Z.leb_spec 65 c), (Z.leb_spec c 90); cbn [andb]; try lia.
Qed.
Lemma digit_of_value c : is_digit c -> digit_of c = c - 48.
Proof.
  intros (A & B). unfold digit_of. destruct (Z.leb_spec 48 c); [| lia].
  destruct (Z.leb_spec c 57); [| lia]. reflexivity.
Qed.

Lemma read_digits_spec ds : forall rest acc n, Forall is_digit ds -> ends rest ->
  read_digits 10 (ds ++ rest) acc n = (dval acc ds, n + zlen ds).
Proof.
  induction ds as [| d ds IH]; intros rest acc n D E; cbn [app].
  - change (zlen (@nil Z)) with 0. unfold dval. cbn [fold_left].
    replace (n + 0) with n by lia.
    destruct rest as [| c rest]; [reflexivity |]. cbn [read_digits ends] in *.
    destruct (digit_of c <? 10) eqn:Q; [apply digit_of_dec in Q; contradiction | reflexivity].
  - inversion D; subst. cbn [read_digits]. rewrite (proj2 (digit_of_dec d)) by auto.
    rewrite IH by auto. rewrite zlen_cons, digit_of_value by auto.
    unfold dval. cbn [fold_left]. f_equal. lia.
Qed.

Lemma isspace_spec c : c_isspace c = true <-> space c.
Proof. unfold c_isspace, space. lia. Qed.

Lemma skip_spaces sp s : Forall space sp ->
  match s with [] => True | c :: _ => ~ space c end ->
  skip_while c_isspace (sp ++ s) = (zlen sp, s).
Proof.
  induction 1 as [| c sp C Sp IH]; intros E; cbn [app].
  - destruct s as [| c s]; [reflexivity |]. cbn [skip_while].
    destruct (c_isspace c) eqn:Q; [apply isspace_spec in Q; contradiction | reflexivity].
  - cbn [skip_while]. rewrite (proj2 (isspace_spec c)) by auto. rewrite IH by auto.
    rewrite zlen_cons. f_equal. lia.
Qed.

Lemma digits_value_nonneg ds : Forall is_digit ds -> 0 <= digits_value ds.
Proof.
  change (digits_value ds) with (dval 0 ds).
  assert (forall a, 0 <= a -> Forall is_digit ds -> 0 <= dval a ds).
  { induction ds as [| d ds IH]; intros a A D; [exact A |]. inversion D; subst.
    unfold dval. cbn [fold_left]. apply IH; auto. unfold is_digit in *. lia. }
  intros D. apply H; auto. lia.
Qed.

Lemma take_prefix_10 s : take_prefix 10 s = (0, s).
Proof. destruct s as [| a [| b [| c s]]]; reflexivity. Qed.

(** strtoll on such a string. *)
Lemma strto_spec lo hi sp sg ds rest :
  Forall space sp -> Forall is_digit ds -> ds <> [] -> ends rest -> lo <= 0 <= hi ->
  strto lo hi 10 (sp ++ sign_text sg ++ ds ++ rest) =
    let v := sign_value sg (digits_value ds) in
    (Z.max lo (Z.min hi v), zlen (sp ++ sign_text sg ++ ds),
     (v <? lo) || (hi <? v)).
Proof.
  intros Sp D Ne E Lh. unfold strto.
  destruct ds as [| d ds]; [congruence |]. inversion D as [| ? ? Dd Dds]; subst.
  rewrite skip_spaces; auto.
  2: { destruct sg; cbn; unfold is_digit, space in *; lia. }
  assert (Q : read_digits 10 ((d :: ds) ++ rest) 0 0 = (digits_value (d :: ds), 0 + zlen (d :: ds))).
  { apply read_digits_spec; auto. }
  pose proof (zlen_nonneg ds) as Ln.
  assert (Lz : zlen (d :: ds) =? 0 = false). { rewrite zlen_cons. lia. }
  assert (M : take_sign ((d :: ds) ++ rest) = (false, 0, (d :: ds) ++ rest)).
  { cbn [app take_sign]. unfold is_digit in Dd.
    destruct (Z.eqb_spec d 45); [lia |]. destruct (Z.eqb_spec d 43); [lia |]. reflexivity. }
  assert (V : 0 <= digits_value (d :: ds)) by (apply digits_value_nonneg; auto).
  destruct sg; cbn [sign_text sign_value app].
  - change (43 :: d :: ds ++ rest) with (43 :: (d :: ds) ++ rest).
    change (take_sign (43 :: (d :: ds) ++ rest)) with (false, 1, (d :: ds) ++ rest). cbv beta iota. rewrite take_prefix_10, Q. replace (0 + zlen (d :: ds)) with (zlen (d :: ds)) by lia. rewrite Lz.
    cbv zeta. rewrite !zlen_app, !zlen_cons.
    destruct (Z.ltb_spec (digits_value (d :: ds)) lo), (Z.ltb_spec hi (digits_value (d :: ds)));
      cbn [orb]; f_equal; try f_equal; lia.
  - change (45 :: d :: ds ++ rest) with (45 :: (d :: ds) ++ rest).
    change (take_sign (45 :: (d :: ds) ++ rest)) with (true, 1, (d :: ds) ++ rest). cbv beta iota. rewrite take_prefix_10, Q. replace (0 + zlen (d :: ds)) with (zlen (d :: ds)) by lia. rewrite Lz.
    cbv zeta. rewrite !zlen_app, !zlen_cons.
    destruct (Z.ltb_spec (- digits_value (d :: ds)) lo), (Z.ltb_spec hi (- digits_value (d :: ds)));
      cbn [orb]; f_equal; try f_equal; lia.
  - change (d :: ds ++ rest) with ((d :: ds) ++ rest). rewrite M. cbv beta iota.
    rewrite take_prefix_10, Q. replace (0 + zlen (d :: ds)) with (zlen (d :: ds)) by lia. rewrite Lz.
    cbv zeta. rewrite !zlen_app, !zlen_cons.
    destruct (Z.ltb_spec (digits_value (d :: ds)) lo), (Z.ltb_spec hi (digits_value (d :: ds)));
      cbn [orb]; f_equal; try f_equal; lia.
Qed.

Lemma c_str_app_nonul a b : Forall (fun c => c <> 0) a -> c_str (a ++ b) = a ++ c_str b.
Proof.
  induction 1 as [| c a C A IH]; cbn [app c_str]; auto.
  destruct (Z.eqb_spec c 0); [contradiction |]. rewrite IH. reflexivity.
Qed.

Lemma ends_c_str rest : ends rest -> ends (c_str rest).
Proof. destruct rest as [| c r]; cbn; auto. destruct (c =? 0); cbn; auto. Qed.

(** The conversion of a string that starts with a number is that number,
    clamped to the range of the type. *)
Theorem C19_string_to_int : forall k sp sg ds rest,
  Forall space sp -> Forall is_digit ds -> ds <> [] -> ends rest ->
  string_to_int k (Some (sp ++ sign_text sg ++ ds ++ rest)) =
  clamp k (sign_value sg (digits_value ds)).
Proof.
  intros k sp sg ds rest Sp D Ne E. unfold string_to_int.
  assert (C : c_str (sp ++ sign_text sg ++ ds ++ rest) = sp ++ sign_text sg ++ ds ++ c_str rest).
  { rewrite !c_str_app_nonul; auto.
    - apply Forall_impl with (2 := D). intros c. unfold is_digit. lia.
    - destruct sg; repeat constructor; lia.
    - apply Forall_impl with (2 := Sp). intros c. unfold space. lia. }
  rewrite C. unfold strtoll. rewrite strto_spec by (auto using ends_c_str; lia).
  cbv zeta. cbn [fst]. set (v := sign_value sg (digits_value ds)).
  set (n := Z.max INT64_MIN (Z.min INT64_MAX v)).
  unfold clamp.
  destruct k; cbn [imin imax].
  - destruct (Z.ltb_spec 127 n), (Z.ltb_spec n (-128)); rewrite wrap8_id; unfold in_i8, n in *; lia.
  - destruct (Z.ltb_spec 32767 n), (Z.ltb_spec n (-32768)); rewrite wrap16_id; unfold in_i16, n in *; lia.
  - destruct (Z.ltb_spec INT32_MAX n), (Z.ltb_spec n INT32_MIN); rewrite wrap32_id; unfold in_i32, n in *; lia.
  - rewrite wrap64_id; unfold in_i64, n in *; lia.
Qed.

Lemma int_to_string_text v : in_i64 v -> int_to_string v = print_dec v.
Proof.
  intros V. unfold int_to_string, snprintf_dec, TMP_BUFFER.
  assert (L : forall n, 0 <= n <= 9223372036854775808 -> zlen (udec n) <= 19).
  { intros n N. destruct (Z.eq_dec n 0) as [-> | Nz]; [vm_compute; discriminate |].
    pose proof (udec_length n 19). apply H; lia. }
  assert (N : Forall (fun c => c <> 0) (print_dec v)).
  { unfold print_dec. destruct (Z.ltb_spec v 0).
    - constructor; [lia |]. destruct (udec_spec (- v)) as (D & _); [lia |].
      apply Forall_impl with (2 := D). intros c. unfold is_digit. lia.
    - destruct (udec_spec v) as (D & _); [lia |].
      apply Forall_impl with (2 := D). intros c. unfold is_digit. lia. }
  rewrite ztake_all.
  - rewrite <- (app_nil_r (print_dec v)) at 1. rewrite c_str_app_nonul by auto. apply app_nil_r.
  - unfold in_i64 in V. unfold print_dec. destruct (Z.ltb_spec v 0).
    + rewrite zlen_cons. specialize (L (- v)). lia.
    + specialize (L v). lia.
Qed.

(** The text is the decimal notation of the number. *)
Theorem C19_int_to_string : forall v, in_i64 v -> decimal_of v (int_to_string v).
Proof.
  intros v V. rewrite int_to_string_text by auto. unfold print_dec, decimal_of.
  assert (N : 0 <= Z.abs v) by lia.
  destruct (udec_spec (Z.abs v) N) as (D & Va & Ne & Hd & Z0).
  exists (udec (Z.abs v)). split.
  - destruct (Z.ltb_spec v 0).
    + rewrite Z.abs_neq by lia. reflexivity.
    + rewrite Z.abs_eq by lia. reflexivity.
  - split; auto. split; auto. split; auto. intros H. apply Z0.
    destruct (Z.eq_dec (Z.abs v) 0); auto. exfalso. apply Hd; auto. lia.
Qed.

(** There is only one. *)
Lemma dval_inj ds : forall ds' a a', length ds = length ds' -> Forall is_digit ds -> Forall is_digit ds' ->
  0 <= a -> 0 <= a' -> dval a ds = dval a' ds' -> a = a' /\ ds = ds'.
Proof.
  induction ds as [| d ds IH]; intros [| d' ds'] a a' L D D' A A' E; try discriminate.
  - auto.
  - inversion D; inversion D'; subst. unfold is_digit in *.
    unfold dval in E. cbn [fold_left] in E. apply IH in E; auto; try lia.
    destruct E as (E1 & ->). assert (a = a') by lia. subst. split; auto. f_equal. lia.
Qed.

Lemma dval_lower d ds : is_digit d -> Forall is_digit ds -> d <> 48 -> 10 ^ zlen ds <= dval 0 (d :: ds).
Proof.
  intros D Ds N. unfold dval. cbn [fold_left].
  change (fold_left (fun a c => a * 10 + (c - 48)) ds (0 * 10 + (d - 48))) with (dval (0 * 10 + (d - 48)) ds).
  rewrite dval_shift. unfold is_digit in D.
  pose proof (digits_value_nonneg ds Ds) as V. change (digits_value ds) with (dval 0 ds) in V.
  assert (0 < 10 ^ zlen ds) by (apply Z.pow_pos_nonneg; [lia | apply zlen_nonneg]). nia.
Qed.
Lemma dval_upper ds : Forall is_digit ds -> dval 0 ds < 10 ^ zlen ds.
Proof.
  intros D. assert (forall a, 0 <= a -> dval a ds < (a + 1) * 10 ^ zlen ds) as H.
  { induction D as [| d ds Dd D IH]; intros a A.
    - change (a < (a + 1) * 1). lia.
    - unfold dval. cbn [fold_left]. specialize (IH (a * 10 + (d - 48))).
      unfold is_digit in Dd. unfold dval in IH. rewrite zlen_cons.
      pose proof (zlen_nonneg ds). rewrite Z.pow_add_r by lia. change (10 ^ 1) with 10.
      assert (0 < 10 ^ zlen ds) by (apply Z.pow_pos_nonneg; lia). nia. }
  specialize (H 0). lia.
Qed.

Lemma digits_unique ds ds' : Forall is_digit ds -> Forall is_digit ds' -> ds <> [] -> ds' <> [] ->
  (hd 0 ds = 48 -> ds = [48]) -> (hd 0 ds' = 48 -> ds' = [48]) ->
  digits_value ds = digits_value ds' -> ds = ds'.
Proof.
  intros D D' N N' H H' E. change (dval 0 ds = dval 0 ds') in E.
  assert (LT : forall a b, Forall is_digit a -> Forall is_digit b -> a <> [] ->
    (hd 0 b = 48 -> b = [48]) -> (length a < length b)%nat -> dval 0 a <> dval 0 b).
  { intros a b Da Db Na Hb L X. destruct b as [| c b]; [cbn in L; lia |].
    inversion Db; subst. destruct (Z.eq_dec c 48) as [-> | Nc].
    - rewrite (Hb eq_refl) in L. destruct a; [congruence |]. cbn in L. lia.
    - pose proof (dval_lower c b ltac:(auto) ltac:(auto) Nc). pose proof (dval_upper a Da).
      assert (10 ^ zlen a <= 10 ^ zlen b).
      { apply Z.pow_le_mono_r; [lia |]. unfold zlen. cbn in L. lia. }
      lia. }
  destruct (Nat.lt_trichotomy (length ds) (length ds')) as [L | [L | L]].
  - exfalso. eapply (LT ds ds'); eauto.
  - apply dval_inj in E; auto; try lia. apply E.
  - exfalso. eapply (LT ds' ds); eauto.
Qed.

Theorem C19_decimal_unique : forall v s s', decimal_of v s -> decimal_of v s' -> s = s'.
Proof.
  intros v s s' (ds & -> & D & N & V & H) (ds' & -> & D' & N' & V' & H').
  f_equal. apply digits_unique; auto. congruence.
Qed.

(** To a string and back. *)
Theorem C19_round_trip : forall k v, imin k <= v <= imax k ->
  string_to_int k (Some (int_to_string v)) = v.
Proof.
  intros k v B. assert (V : in_i64 v) by (unfold in_i64; destruct k; cbn in B; lia).
  destruct (C19_int_to_string v V) as (ds & E & D & Ne & Va & _). rewrite E.
  pose proof (C19_string_to_int k [] (if v <? 0 then Minus else NoSign) ds [] ltac:(constructor) D Ne I) as S.
  cbn [app] in S. rewrite app_nil_r in S.
  replace (sign_text (if v <? 0 then Minus else NoSign)) with (if v <? 0 then [45] else []) in S
    by (destruct (v <? 0); reflexivity).
  rewrite S. rewrite Va. unfold clamp.
  destruct (Z.ltb_spec v 0); cbn [sign_value]; lia.
Qed.

(** undef, and strings that do not start with a number, are 0. *)
Definition starts_with_number (s : list Z) : Prop :=
  exists sp sg ds rest, s = sp ++ sign_text sg ++ ds ++ rest /\
    Forall space sp /\ Forall is_digit ds /\ ds <> [] /\ ends rest.

Lemma skip_while_split p s : exists a b, s = a ++ b /\ Forall (fun c => p c = true) a /\
  match b with [] => True | c :: _ => p c = false end /\ skip_while p s = (zlen a, b).
Proof.
  induction s as [| c s IH].
  - exists [], []. repeat split; auto.
  - destruct IH as (a & b & -> & A & B & E). cbn [skip_while]. destruct (p c) eqn:P.
    + exists (c :: a), b. rewrite E. repeat split; auto. rewrite zlen_cons. f_equal. lia.
    + exists [], (c :: a ++ b). repeat split; auto.
Qed.

Lemma digit_prefix s : exists ds rest, s = ds ++ rest /\ Forall is_digit ds /\ ends rest.
Proof.
  induction s as [| c s IH].
  - exists [], []. repeat split; auto.
  - destruct IH as (ds & rest & -> & D & E).
    destruct (digit_of c <? 10) eqn:Q.
    + exists (c :: ds), rest. repeat split; auto. constructor; auto. apply digit_of_dec; auto.
    + exists [], (c :: ds ++ rest). repeat split; auto. cbn. intros X. apply digit_of_dec in X. congruence.
Qed.

Theorem C19_no_number : forall k,
  string_to_int k None = 0 /\
  (forall s, Forall (fun c => c <> 0) s -> ~ starts_with_number s -> string_to_int k (Some s) = 0).
Proof.
  intros k. split; [reflexivity |]. intros s Nul N. unfold string_to_int.
  assert (Cs : c_str s = s).
  { rewrite <- (app_nil_r s) at 1. rewrite c_str_app_nonul by auto. apply app_nil_r. }
  rewrite Cs.
  assert (Z0 : strtoll 10 s = (0, 0, false)).
  { unfold strtoll, strto.
    destruct (skip_while_split c_isspace s) as (sp & s1 & E & Sp & S1 & Sk). rewrite Sk.
    assert (Spa : Forall space sp).
    { apply Forall_impl with (2 := Sp). intros c. apply isspace_spec. }
    assert (K : forall sg s2, s1 = sign_text sg ++ s2 -> read_digits 10 s2 0 0 = (0, 0)).
    { intros sg s2 E2. destruct (digit_prefix s2) as (ds & rest & -> & D & En).
      destruct ds as [| d ds].
      - rewrite (read_digits_spec [] rest) by auto. reflexivity.
      - exfalso. apply N. exists sp, sg, (d :: ds), rest. subst. repeat split; auto. discriminate. }
    assert (M : exists neg ns s2 sg, take_sign s1 = (neg, ns, s2) /\ s1 = sign_text sg ++ s2).
    { destruct s1 as [| c s1]; [exists false, 0, [], NoSign; auto |]. cbn [take_sign].
      destruct (Z.eqb_spec c 45) as [-> | N1]; [exists true, 1, s1, Minus; auto |].
      destruct (Z.eqb_spec c 43) as [-> | N2]; [exists false, 1, s1, Plus; auto |].
      exists false, 0, (c :: s1), NoSign. auto. }
    destruct M as (neg & ns & s2 & sg & M & Es). rewrite M, take_prefix_10, (K sg s2 Es). reflexivity. }
  rewrite Z0. destruct k; reflexivity.
Qed.

(** string to byte[] and back. *)
Theorem C19_byte_array_round_trip :
  (forall s, Forall (fun c => 0 <= c <= 255) s ->
     bytes_to_string (string_to_bytes (Some s)) = Ret s /\
     exists a, string_to_bytes (Some s) = Some a /\ zlen a = zlen s /\ Forall in_i8 a) /\
  (forall a, Forall in_i8 a ->
     exists s, bytes_to_string (Some a) = Ret s /\ string_to_bytes (Some s) = Some a).
Proof.
  split.
  - intros s B. cbn [string_to_bytes bytes_to_string]. split.
    + f_equal. rewrite map_map. rewrite <- (map_id s) at 2. apply map_ext_in. intros c C.
      rewrite Forall_forall in B. specialize (B c C). unfold u8, wrap8, wrap.
      destruct (Z.le_gt_cases c 127).
      * rewrite (Z.mod_small (c + 128)) by lia. rewrite Z.mod_small; lia.
      * replace ((c + 128) mod (2 * 128)) with (c - 128).
        -- replace (c - 128 - 128) with (c + (-1) * 256) by lia. rewrite Z.mod_add, Z.mod_small; lia.
        -- replace (c + 128) with (c - 128 + 1 * 256) by lia. change (2 * 128) with 256.
           rewrite Z.mod_add, Z.mod_small; lia.
    + eexists; split; [reflexivity |]. split.
      * unfold zlen. rewrite map_length. reflexivity.
      * apply Forall_forall. intros c C. apply in_map_iff in C. destruct C as (x & <- & X).
        unfold in_i8, wrap8, wrap. pose proof (Z.mod_pos_bound (x + 128) (2 * 128)). lia.
  - intros a A. cbn [string_to_bytes bytes_to_string]. eexists; split; [reflexivity |].
    f_equal. rewrite map_map. rewrite <- (map_id a) at 2. apply map_ext_in. intros c C.
    rewrite Forall_forall in A. specialize (A c C). unfold in_i8 in A. unfold u8, wrap8.
    apply (wrap_mod 128); lia.
Qed.

(** undef as a byte[] is not handled. *)
Theorem C19_undef_byte_array_refuted : exists a, bytes_to_string a = UB.
Proof. exists None. reflexivity. Qed.

Example C19_ex :
  int_to_string (-128) = bytes "-128" /\
  string_to_int IByte (Some (bytes " +300x")) = 127 /\
  string_to_int IInt (Some (bytes "-99999999999999999999")) = -2147483648 /\
  string_to_int ILong (Some (bytes "12 34")) = 12 /\
  string_to_int IInt (Some (bytes "abc")) = 0.
Proof. repeat split. Qed.

Print Assumptions C19_string_to_int.
Print Assumptions C19_int_to_string.
Print Assumptions C19_decimal_unique.
Print Assumptions C19_round_trip.
Print Assumptions C19_no_number.
Print Assumptions C19_byte_array_round_trip.
Print Assumptions C19_undef_byte_array_refuted.
