(** * Proofs about the integer operators *)

From Verif Require Import Base VmArith_model VmArith_spec.

Definition width_ok (bits : Z) : Prop := bits = 32 \/ bits = 64.

Lemma pow_half bits : 1 <= bits -> 2 ^ bits = 2 * 2 ^ (bits - 1).
Proof. intros H. rewrite <- Z.pow_succ_r by lia. f_equal; lia. Qed.

Lemma half_big bits : width_ok bits -> 2147483648 <= half bits.
Proof. intros [-> | ->]; vm_compute; discriminate. Qed.

Lemma c_signed_fits bits x : fits bits x -> c_signed bits x = Ret x.
Proof.
  unfold fits, c_signed, half. intros H.
  rewrite (proj2 (Z.leb_le _ _)), (proj2 (Z.ltb_lt _ _)) by lia. reflexivity.
Qed.

Lemma c_signed_cases bits x :
  (fits bits x /\ c_signed bits x = Ret x) \/ (~ fits bits x /\ c_signed bits x = UB).
Proof.
  unfold fits, c_signed, half.
  destruct (Z.leb_spec (- 2 ^ (bits - 1)) x), (Z.ltb_spec x (2 ^ (bits - 1))); cbn [andb];
    intuition lia.
Qed.

Lemma uread_wrap bits x : width_ok bits -> 0 <= x < 2 ^ bits ->
  uread bits (wrap (half bits) x) = x /\ fits bits (wrap (half bits) x).
Proof.
  intros W H. assert (1 <= bits) by (destruct W; lia).
  pose proof (half_big bits W) as HB.
  pose proof (pow_half bits ltac:(auto)) as P. fold (half bits) in P.
  split.
  - unfold uread. destruct (wrap_eqmod (half bits) x ltac:(lia)) as (k & E).
    rewrite E, <- P, Z.mod_add, Z.mod_small by lia. reflexivity.
  - unfold fits. fold (half bits). apply wrap_range. lia.
Qed.

Lemma uread_range bits a : width_ok bits -> 0 <= uread bits a < 2 ^ bits.
Proof. intros [-> | ->]; apply Z.mod_pos_bound; lia. Qed.

Lemma uread_0 bits b : width_ok bits -> fits bits b -> uread bits b = 0 -> b = 0.
Proof.
  intros W F E. unfold uread, fits in *.
  assert (1 <= bits) by (destruct W; lia).
  pose proof (half_big bits W) as HB. unfold half in HB.
  rewrite pow_half in E by auto.
  apply Z.mod_divide in E; [| lia]. destruct E as (k & E).
  assert (k = 0); [| lia].
  destruct (Z_lt_ge_dec k 0), (Z_lt_ge_dec 0 k); nia.
Qed.

Lemma quot_fits bits a b : width_ok bits -> fits bits a -> fits bits b -> b <> 0 ->
  (a = - 2 ^ (bits - 1) /\ b = -1 /\ ~ fits bits (Z.quot a b)) \/
  (~ (a = - 2 ^ (bits - 1) /\ b = -1) /\ fits bits (Z.quot a b)).
Proof.
  intros W Fa Fb B0. unfold fits in *.
  pose proof (half_big bits W) as HB. unfold half in HB.
  set (h := 2 ^ (bits - 1)) in *.
  pose proof (Z.quot_rem' a b) as QR.
  pose proof (Z.rem_bound_abs a b B0) as RB.
  pose proof (Z.rem_sign_nz a b B0) as RS.
  destruct (Z.eq_dec b (-1)) as [-> | B1].
  - assert (Z.rem a (-1) = 0) by lia.
    destruct (Z.eq_dec a (- h)); [left | right]; repeat split; try lia.
  - right. split; [tauto |].
    destruct (Z.eq_dec b 1) as [-> | B2]; [rewrite Z.quot_1_r; lia |].
    assert (2 <= Z.abs b) by lia.
    assert (A : Z.abs (Z.quot a b) * Z.abs b <= Z.abs a).
    { rewrite <- Z.quot_abs by lia.
      pose proof (Z.mul_quot_le (Z.abs a) (Z.abs b) ltac:(lia) ltac:(lia)). lia. }
    nia.
Qed.

Lemma quot_trunc a b : b <> 0 -> trunc_quotient a b (Z.quot a b).
Proof.
  intros B0. exists (Z.rem a b).
  pose proof (Z.quot_rem' a b). pose proof (Z.rem_bound_abs a b B0).
  split; [lia |]. split; [lia |].
  destruct (Z.eq_dec (Z.rem a b) 0) as [E | E]; [auto | right].
  pose proof (Z.rem_sign_nz a b B0 E) as S.
  destruct (Z.rem a b) eqn:E1, a eqn:E2; cbn in S; try lia.
Qed.

Lemma mod_cases bits a b : width_ok bits -> fits bits a -> fits bits b -> b <> 0 ->
  (a = - 2 ^ (bits - 1) /\ b = -1 /\ mod_i bits a b = UB) \/
  (~ (a = - 2 ^ (bits - 1) /\ b = -1) /\
   exists r, mod_i bits a b = Ret r /\ fits bits r /\ floor_remainder a b r).
Proof.
  intros W Fa Fb B0. unfold mod_i, c_rem, c_div.
  rewrite (proj2 (Z.eqb_neq b 0) B0).
  destruct (quot_fits bits a b W Fa Fb B0) as [(E1 & E2 & N) | (E & F)].
  - left. split; [auto |]. split; [auto |].
    destruct (c_signed_cases bits (Z.quot a b)) as [(F & _) | (_ & ->)]; [tauto |]. reflexivity.
  - right. split; [auto |]. rewrite (c_signed_fits _ _ F). cbn [obind].
    pose proof (Z.quot_rem' a b) as QR. pose proof (Z.rem_bound_abs a b B0) as RB.
    pose proof (Z.rem_sign_nz a b B0) as RS.
    pose proof (half_big bits W) as HB. unfold half in HB.
    unfold fits in *. set (h := 2 ^ (bits - 1)) in *.
    destruct (Z.eq_dec (Z.rem a b) 0) as [Z0 | Z0].
    + rewrite Z0. rewrite Z.eqb_refl, andb_false_r. exists 0. split; [reflexivity |].
      split; [lia |]. exists (Z.quot a b). lia.
    + rewrite (proj2 (Z.eqb_neq _ 0) Z0). cbn [negb]. rewrite andb_true_r.
      specialize (RS Z0).
      assert (SG : (0 < Z.rem a b /\ 0 < a) \/ (Z.rem a b < 0 /\ a < 0)).
      { destruct (Z.rem a b) eqn:E1, a eqn:E2; cbn in RS; try lia. }
      destruct (Bool.eqb (a <? 0) (b <? 0)) eqn:S; cbn [negb].
      * apply eqb_prop in S. exists (Z.rem a b). split; [reflexivity |].
        split; [lia |]. exists (Z.quot a b). lia.
      * apply eqb_false_iff in S.
        assert (FR : fits bits (Z.rem a b + b)) by (unfold fits; fold h; lia).
        rewrite (c_signed_fits _ _ FR). exists (Z.rem a b + b). split; [reflexivity |].
        split; [unfold fits in FR; fold h in FR; lia |].
        exists (Z.quot a b - 1). split; [lia |]. lia.
Qed.

(** A number fits iff its bits from [bits - 1] on are all its sign. *)
Lemma fits_bits bits a : 1 <= bits ->
  (fits bits a <-> forall i, bits - 1 <= i -> Z.testbit a i = (a <? 0)).
Proof.
  intros P. unfold fits. split.
  - intros F i I. destruct (Z.ltb_spec a 0).
    + replace a with (- (- a)) by lia. rewrite Z.bits_opp by lia.
      destruct (Z.eq_dec (Z.pred (- a)) 0) as [E | E].
      * rewrite E, Z.bits_0. reflexivity.
      * rewrite Z.bits_above_log2; [reflexivity | lia |].
        assert (Z.log2 (Z.pred (- a)) < bits - 1); [| lia].
        apply Z.log2_lt_pow2; lia.
    + destruct (Z.eq_dec a 0) as [-> | E]; [apply Z.bits_0 |].
      apply Z.bits_above_log2; [lia |].
      assert (Z.log2 a < bits - 1); [| lia]. apply Z.log2_lt_pow2; lia.
  - intros B. destruct (Z.ltb_spec a 0) as [N | N].
    + assert (L : 0 <= Z.lnot a) by (unfold Z.lnot; lia).
      assert (Z.lnot a < 2 ^ (bits - 1)); [| unfold Z.lnot in *; lia].
      destruct (Z_lt_ge_dec (Z.lnot a) (2 ^ (bits - 1))) as [| G]; [auto | exfalso].
      assert (0 < 2 ^ (bits - 1)) by (apply Z.pow_pos_nonneg; lia).
      assert (bits - 1 <= Z.log2 (Z.lnot a)) by (apply Z.log2_le_pow2; lia).
      pose proof (Z.bit_log2 (Z.lnot a) ltac:(lia)) as BL.
      rewrite Z.lnot_spec in BL by lia. rewrite B in BL by lia. discriminate.
    + assert (0 < 2 ^ (bits - 1)) by (apply Z.pow_pos_nonneg; lia).
      destruct (Z_lt_ge_dec a (2 ^ (bits - 1))) as [| G]; [lia | exfalso].
      assert (bits - 1 <= Z.log2 a) by (apply Z.log2_le_pow2; lia).
      pose proof (Z.bit_log2 a ltac:(lia)) as BL. rewrite B in BL by lia. discriminate.
Qed.

Lemma bitwise_fits bits f g a b : 1 <= bits ->
  (forall i, 0 <= i -> Z.testbit (f a b) i = g (Z.testbit a i) (Z.testbit b i)) ->
  (f a b <? 0) = g (a <? 0) (b <? 0) ->
  fits bits a -> fits bits b -> fits bits (f a b).
Proof.
  intros P S N Fa Fb. rewrite fits_bits in * by auto.
  intros i I. rewrite S, N, Fa, Fb by lia. reflexivity.
Qed.

Lemma land_neg a b : (Z.land a b <? 0) = (a <? 0) && (b <? 0).
Proof.
  pose proof (Z.land_nonneg a b).
  destruct (Z.ltb_spec (Z.land a b) 0), (Z.ltb_spec a 0), (Z.ltb_spec b 0); cbn; lia.
Qed.
Lemma lor_neg a b : (Z.lor a b <? 0) = (a <? 0) || (b <? 0).
Proof.
  pose proof (Z.lor_nonneg a b).
  destruct (Z.ltb_spec (Z.lor a b) 0), (Z.ltb_spec a 0), (Z.ltb_spec b 0); cbn; lia.
Qed.
Lemma lxor_neg a b : (Z.lxor a b <? 0) = xorb (a <? 0) (b <? 0).
Proof.
  pose proof (Z.lxor_nonneg a b).
  destruct (Z.ltb_spec (Z.lxor a b) 0), (Z.ltb_spec a 0), (Z.ltb_spec b 0); cbn; lia.
Qed.

Lemma shiftr_between a n : 0 <= n ->
  Z.shiftr a n * 2 ^ n <= a < (Z.shiftr a n + 1) * 2 ^ n.
Proof.
  intros N. rewrite Z.shiftr_div_pow2 by auto.
  assert (0 < 2 ^ n) by (apply Z.pow_pos_nonneg; lia).
  pose proof (Z_div_mod_eq_full a (2 ^ n)). pose proof (Z.mod_pos_bound a (2 ^ n) ltac:(lia)). lia.
Qed.

Lemma shiftr_fits bits a n : 0 <= n -> fits bits a -> fits bits (Z.shiftr a n).
Proof.
  intros N F. pose proof (shiftr_between a n N) as B. unfold fits in *.
  assert (1 <= 2 ^ n) by (pose proof (Z.pow_pos_nonneg 2 n); lia). nia.
Qed.

(** Everything about one operator application. *)
Lemma int_op_total bits o a b : width_ok bits -> fits bits a -> fits bits b ->
  (divides o /\ b = 0 /\ int_op bits o a b = Die DIVIDE_ZERO) \/
  (~ (divides o /\ b = 0) /\ c_undefined bits o a b /\ int_op bits o a b = UB) \/
  (~ (divides o /\ b = 0) /\ ~ c_undefined bits o a b /\
   exists r, int_op bits o a b = Ret r /\ fits bits r /\ means bits o a b r).
Proof.
  intros W Fa Fb. assert (P : 1 <= bits) by (destruct W; lia).
  assert (DV : forall o', o' = o -> ~ divides o' -> ~ (divides o /\ b = 0)) by (intros ? ->; tauto).
  destruct o; cbn [int_op c_undefined means].
  - (* add *) right. destruct (c_signed_cases bits (a + b)) as [(F & E) | (F & E)]; unfold add_i; rewrite E;
      [right | left]; unfold divides; (split; [intros ([|[|[|]]] & _); discriminate |]); split; eauto.
  - (* sub *) right. destruct (c_signed_cases bits (a - b)) as [(F & E) | (F & E)]; unfold sub_i; rewrite E;
      [right | left]; unfold divides; (split; [intros ([|[|[|]]] & _); discriminate |]); split; eauto.
  - (* mul *) right. destruct (c_signed_cases bits (a * b)) as [(F & E) | (F & E)]; unfold mul_i; rewrite E;
      [right | left]; unfold divides; (split; [intros ([|[|[|]]] & _); discriminate |]); split; eauto.
  - (* div *) unfold div_i, c_div. destruct (Z.eqb_spec b 0) as [B0 | B0].
    + left. unfold divides. tauto.
    + right. destruct (quot_fits bits a b W Fa Fb B0) as [(E1 & E2 & N) | (N & F)].
      * left. split; [tauto |]. split; [tauto |].
        destruct (c_signed_cases bits (Z.quot a b)) as [(F & _) | (_ & ->)]; [tauto | reflexivity].
      * right. split; [tauto |]. split; [tauto |]. exists (Z.quot a b).
        rewrite (c_signed_fits _ _ F). split; [reflexivity |]. split; [auto |]. apply quot_trunc; auto.
  - (* divu *) unfold divu_i. destruct (Z.eqb_spec b 0) as [B0 | B0].
    + left. unfold divides. tauto.
    + right; right. split; [tauto |]. split; [tauto |].
      pose proof (uread_range bits a W). pose proof (uread_range bits b W).
      assert (uread bits b <> 0) by (intros E; apply B0; eapply uread_0; eauto).
      unfold c_unsigned. fold (uread bits a) (uread bits b).
      assert (0 <= uread bits a / uread bits b < 2 ^ bits).
      { split; [apply Z.div_pos; lia |].
        apply Z.div_lt_upper_bound; [lia |]. nia. }
      destruct (uread_wrap bits (uread bits a / uread bits b) W) as (E & F); [lia |].
      eauto.
  - (* mod *) destruct (Z.eq_dec b 0) as [B0 | B0].
    + left. unfold divides, mod_i. subst b. cbn. tauto.
    + right. destruct (mod_cases bits a b W Fa Fb B0) as [(E1 & E2 & E) | (N & r & E & F & M)].
      * left. tauto.
      * right. split; [tauto |]. split; [tauto |]. eauto.
  - (* modu *) unfold modu_i. destruct (Z.eqb_spec b 0) as [B0 | B0].
    + left. unfold divides. tauto.
    + right; right. split; [tauto |]. split; [tauto |].
      pose proof (uread_range bits a W). pose proof (uread_range bits b W).
      assert (uread bits b <> 0) by (intros E; apply B0; eapply uread_0; eauto).
      unfold c_unsigned. fold (uread bits a) (uread bits b).
      pose proof (Z.mod_pos_bound (uread bits a) (uread bits b) ltac:(lia)).
      destruct (uread_wrap bits (uread bits a mod uread bits b) W) as (E & F); [lia |].
      eauto.
  - (* shl *) right. unfold shl_i, shift_ok.
    destruct (Z.leb_spec 0 b), (Z.ltb_spec b bits), (Z.leb_spec 0 a); cbn [andb].
    { destruct (c_signed_cases bits (a * 2 ^ b)) as [(F & E) | (F & E)]; rewrite E; [right | left];
        unfold divides; (split; [intros ([|[|[|]]] & _); discriminate |]); split;
        [intuition lia | eauto | tauto | auto]. }
    all: left; unfold divides; (split; [intros ([|[|[|]]] & _); discriminate |]); split; auto; lia.
  - (* sar *) right. unfold sar_i, shift_ok.
    destruct (Z.leb_spec 0 b), (Z.ltb_spec b bits); cbn [andb].
    { right. unfold divides; (split; [intros ([|[|[|]]] & _); discriminate |]); split; [lia |].
      exists (Z.shiftr a b). split; [reflexivity |]. split; [apply shiftr_fits; auto |].
      apply shiftr_between; auto. }
    all: left; unfold divides; (split; [intros ([|[|[|]]] & _); discriminate |]); split; auto; lia.
  - (* shr *) right. unfold shr_i, shift_ok.
    destruct (Z.leb_spec 0 b), (Z.ltb_spec b bits); cbn [andb].
    { right. unfold divides; (split; [intros ([|[|[|]]] & _); discriminate |]); split; [lia |].
      unfold c_unsigned. fold (uread bits a).
      pose proof (uread_range bits a W) as R.
      pose proof (shiftr_between (uread bits a) b ltac:(auto)) as S.
      assert (1 <= 2 ^ b) by (pose proof (Z.pow_pos_nonneg 2 b); lia).
      assert (0 <= Z.shiftr (uread bits a) b) by (apply Z.shiftr_nonneg; lia).
      destruct (uread_wrap bits (Z.shiftr (uread bits a) b) W) as (E & F); [nia |].
      exists (wrap (half bits) (Z.shiftr (uread bits a) b)).
      rewrite E. auto. }
    all: left; unfold divides; (split; [intros ([|[|[|]]] & _); discriminate |]); split; auto; lia.
  - (* and *) right; right. unfold and_i, divides. split; [intros ([|[|[|]]] & _); discriminate |].
    split; [tauto |]. exists (Z.land a b). split; [reflexivity |].
    split; [| intros; apply Z.land_spec].
    apply (bitwise_fits bits Z.land andb); auto; [intros; apply Z.land_spec | apply land_neg].
  - (* or *) right; right. unfold or_i, divides. split; [intros ([|[|[|]]] & _); discriminate |].
    split; [tauto |]. exists (Z.lor a b). split; [reflexivity |].
    split; [| intros; apply Z.lor_spec].
    apply (bitwise_fits bits Z.lor orb); auto; [intros; apply Z.lor_spec | apply lor_neg].
  - (* xor *) right; right. unfold xor_i, divides. split; [intros ([|[|[|]]] & _); discriminate |].
    split; [tauto |]. exists (Z.lxor a b). split; [reflexivity |].
    split; [| intros; apply Z.lxor_spec].
    apply (bitwise_fits bits Z.lxor xorb); auto; [intros; apply Z.lxor_spec | apply lxor_neg].
  - (* not *) right; right. unfold not_i, divides. split; [intros ([|[|[|]]] & _); discriminate |].
    split; [tauto |]. exists (Z.lnot a). split; [reflexivity |].
    split; [unfold fits, Z.lnot in *; lia | intros; apply Z.lnot_spec; lia].
  - (* neg *) right. unfold neg_i, divides.
    destruct (c_signed_cases bits (- a)) as [(F & E) | (F & E)]; rewrite E; [right | left];
      (split; [intros ([|[|[|]]] & _); discriminate |]); unfold fits in *; split; eauto; lia.
Qed.
