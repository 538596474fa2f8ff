(** * Decimal notation of integers, as produced by the C conversions
    "%d", "%ld" (ISO C 7.21.6.1, default precision: no leading zeros, a minus
    sign for negative numbers). Strings are lists of byte codes. *)

From Verif Require Import Base.

(** Digits of [n >= 0], most significant first. *)
Fixpoint udec_loop (fuel : nat) (n : Z) (acc : list Z) : list Z :=
  match fuel with
  | O => acc
  | S f =>
      let acc := (48 + n mod 10) :: acc in
      if n / 10 =? 0 then acc else udec_loop f (n / 10) acc
  end.

Definition udec (n : Z) : list Z := udec_loop (S (Z.to_nat (Z.log2 n))) n [].

Definition print_dec (n : Z) : list Z := if n <? 0 then 45 :: udec (- n) else udec n.

(** ** Specification: the value of a digit string *)

Definition is_digit (c : Z) : Prop := 48 <= c <= 57.

Definition digits_value (s : list Z) : Z := fold_left (fun a c => a * 10 + (c - 48)) s 0.

Definition dval (a : Z) (s : list Z) : Z := fold_left (fun a c => a * 10 + (c - 48)) s a.

Lemma dval_shift s : forall a, dval a s = a * 10 ^ zlen s + dval 0 s.
Proof.
  unfold dval. induction s as [| c s IH]; intros a; cbn [fold_left].
  - rewrite zlen_nil. lia.
  - rewrite IH. rewrite (IH (0 * 10 + (c - 48))). rewrite zlen_cons.
    pose proof (zlen_nonneg s). rewrite Z.pow_add_r by lia. lia.
Qed.

Lemma dval_app a s s' : dval a (s ++ s') = dval (dval a s) s'.
Proof. unfold dval. apply fold_left_app. Qed.

Lemma udec_loop_spec f : forall n acc,
  0 <= n -> n < 2 ^ Z.of_nat f -> (0 < f)%nat ->
  exists ds, udec_loop f n acc = ds ++ acc /\ Forall is_digit ds /\ dval 0 ds = n /\
    ds <> [] /\ (0 < n -> hd 0 ds <> 48) /\ (n = 0 -> ds = [48]).
Proof.
  induction f as [| f IH]; intros n acc N B P; [lia |].
  cbn [udec_loop].
  pose proof (Z.mod_pos_bound n 10 ltac:(lia)).
  pose proof (Z_div_mod_eq_full n 10).
  destruct (Z.eqb_spec (n / 10) 0) as [Q | Q].
  - exists [48 + n mod 10]. split; [reflexivity |]. split.
    { constructor; auto. unfold is_digit; lia. }
    split; [unfold dval; cbn [fold_left]; lia |]. split; [discriminate |].
    split; [cbn [hd]; lia |]. intros ->. reflexivity.
  - assert (0 <= n / 10) by (apply Z.div_pos; lia).
    destruct f as [| f].
    { cbn in B. assert (n < 10) by lia. rewrite Z.div_small in Q by lia. lia. }
    destruct (IH (n / 10) ((48 + n mod 10) :: acc)) as (ds & E & D & V & Ne & Hd & Z0); try lia.
    { assert (2 ^ Z.of_nat (S (S f)) = 2 * 2 ^ Z.of_nat (S f)).
      { rewrite <- Z.pow_succ_r by lia. f_equal; lia. }
      apply Z.div_lt_upper_bound; lia. }
    exists (ds ++ [48 + n mod 10]). rewrite E, <- app_assoc. split; [reflexivity |]. split.
    { apply Forall_app; split; auto. constructor; auto. unfold is_digit; lia. }
    split. { rewrite dval_app, V. unfold dval; cbn [fold_left]. lia. }
    split. { destruct ds; discriminate. }
    split. { intros _. destruct ds as [| d ds]; [congruence |]. cbn in *. apply Hd. lia. }
    intros ->. cbn in Q. lia.
Qed.

Lemma udec_spec n : 0 <= n ->
  Forall is_digit (udec n) /\ digits_value (udec n) = n /\ udec n <> [] /\
  (0 < n -> hd 0 (udec n) <> 48) /\ (n = 0 -> udec n = [48]).
Proof.
  intros N. unfold udec.
  destruct (udec_loop_spec (S (Z.to_nat (Z.log2 n))) n []) as (ds & E & D & V & Ne & Hd & Z0); try lia.
  { rewrite Nat2Z.inj_succ, Z2Nat.id by apply Z.log2_nonneg.
    destruct (Z.eq_dec n 0) as [-> | P]; [reflexivity |]. apply Z.log2_spec; lia. }
  rewrite E, app_nil_r. auto 6.
Qed.

(** The number of digits. *)
Lemma digits_lower s : Forall is_digit s -> s <> [] -> hd 0 s <> 48 ->
  10 ^ (zlen s - 1) <= dval 0 s.
Proof.
  destruct s as [| c s]; intros F N H; [congruence |]. inversion F; subst. cbn in H.
  unfold is_digit in *. unfold dval. cbn [fold_left]. fold (dval (0 * 10 + (c - 48)) s).
  rewrite dval_shift. rewrite zlen_cons.
  replace (1 + zlen s - 1) with (zlen s) by lia.
  assert (0 <= dval 0 s).
  { clear -H3. induction s as [| d s IH] using rev_ind; [unfold dval; cbn; lia |].
    apply Forall_app in H3. destruct H3 as [A B]. inversion B; subst. rewrite dval_app.
    specialize (IH A). unfold dval at 1; cbn [fold_left]. unfold is_digit in *. lia. }
  assert (0 < 10 ^ zlen s) by (apply Z.pow_pos_nonneg; auto; lia).
  nia.
Qed.

Lemma udec_length n k : 0 <= n -> 1 <= k -> n < 10 ^ k -> 1 <= zlen (udec n) <= k.
Proof.
  intros N K B. destruct (udec_spec n N) as (D & V & Ne & Hd & Z0).
  assert (1 <= zlen (udec n)).
  { destruct (udec n); [congruence |]. rewrite zlen_cons. pose proof (zlen_nonneg l). lia. }
  split; auto.
  destruct (Z.eq_dec n 0) as [-> | P].
  - rewrite Z0 by auto. unfold zlen; cbn; lia.
  - pose proof (digits_lower (udec n) D Ne (Hd ltac:(lia))) as L.
    unfold digits_value in V. fold (dval 0 (udec n)) in V. rewrite V in L.
    destruct (Z_le_gt_dec (zlen (udec n)) k); auto.
    assert (10 ^ k <= 10 ^ (zlen (udec n) - 1)) by (apply Z.pow_le_mono_r; lia). lia.
Qed.
