(** * C44: rand *)
From Coq Require Import ZArith Reals Psatz.
From Flocq Require Import Core IEEE754.BinarySingleNaN.
From Verif Require Import Base Array_model Array_proofs Float64.
Open Scope R_scope.

(** rand, Fn.spvm:610-618: (double)crand / ((double)RAND_MAX + 1), times max;
    the double and the new seed.  (RAND_MAX: Fn.spvm:45.) *)
Definition rand (seed max : Z) : f64 * Z :=
  let (r, seed) := crand seed in
  let random_number := f64_div (f64_of_Z r) (f64_add (f64_of_Z 2147483647) (f64_of_Z 1)) in
  (f64_mul random_number (f64_of_Z max), seed).

Lemma two31 : B2R (f64_add (f64_of_Z 2147483647) (f64_of_Z 1)) = 2147483648.
Proof.
  destruct (of_Z_ok 2147483647 eq_refl) as [A FA]. destruct (of_Z_ok 1 eq_refl) as [B FB].
  assert (R : rnd64 (B2R (f64_of_Z 2147483647) + B2R (f64_of_Z 1)) = 2147483648).
  { rewrite A, B. rewrite <- plus_IZR. apply rnd64_id, format_Z. reflexivity. }
  destruct (add_ok _ _ FA FB) as [E _]; [| congruence].
  rewrite R. rewrite Rabs_pos_eq by lra. change 2147483648 with (IZR (Zpower radix2 31)). rewrite IZR_Zpower by lia.
  apply bpow_lt. lia.
Qed.

Lemma rand_ok seed max :
  in_i32 max ->
  let r := IZR (fst (crand seed)) in
  is_finite (fst (rand seed max)) = true /\ B2R (fst (rand seed max)) = rnd64 (r / 2147483648 * IZR max).
Proof.
  intros M r. unfold rand. pose proof (crand_range seed) as CR. destruct (crand seed) as [n s] eqn:EC. cbn [fst] in *.
  destruct (of_Z_ok n) as [A FA]; [lia |]. destruct (of_Z_ok max) as [B FB]; [unfold in_i32 in M; lia |].
  assert (D : rnd64 (B2R (f64_of_Z n) / B2R (f64_add (f64_of_Z 2147483647) (f64_of_Z 1))) = r / 2147483648).
  { rewrite two31, A. apply rnd64_id.
    replace (r / 2147483648) with (F2R (Float radix2 n (-31))).
    - apply format_small; lia.
    - unfold F2R. cbn [Fnum Fexp]. unfold r. change (bpow radix2 (-31)) with (/ IZR 2147483648). lra. }
  assert (RB : 0 <= r < 2147483648) by (unfold r; split; [apply IZR_le | apply IZR_lt]; lia).
  assert (DB : 0 <= r / 2147483648 < 1) by lra.
  destruct (div_ok (f64_of_Z n) (f64_add (f64_of_Z 2147483647) (f64_of_Z 1))) as [E FE]; auto.
  { rewrite two31. lra. }
  { rewrite D, Rabs_pos_eq by lra. apply Rlt_le_trans with 1; [lra |]. change 1 with (bpow radix2 0). apply bpow_le. lia. }
  assert (G : Rabs (rnd64 (r / 2147483648 * IZR max)) <= IZR (2 ^ 31)).
  { apply abs_round_le_generic; [apply fexp64_valid | apply valid_rnd_N | apply format_Z; reflexivity |].
    rewrite Rabs_mult, (Rabs_pos_eq (r / 2147483648)) by lra. rewrite <- abs_IZR.
    assert (IZR (Z.abs max) <= IZR (2 ^ 31)) by (apply IZR_le; unfold in_i32 in M; lia).
    assert (0 <= IZR (Z.abs max)) by (apply IZR_le; lia). nra. }
  destruct (mul_ok (f64_div (f64_of_Z n) (f64_add (f64_of_Z 2147483647) (f64_of_Z 1))) (f64_of_Z max)) as [P FP]; auto.
  - rewrite E, D, B. eapply Rle_lt_trans; [exact G |]. change (IZR (2 ^ 31)) with (IZR (Zpower radix2 31)).
    rewrite IZR_Zpower by lia. apply bpow_lt. lia.
  - split; auto. rewrite P, E, D, B. reflexivity.
Qed.

Lemma rand_bound seed max :
  in_i32 max -> (max <> 0)%Z -> Rabs (B2R (fst (rand seed max))) < IZR (Z.abs max).
Proof.
  intros M NZ. destruct (rand_ok seed max M) as [_ E]. rewrite E. clear E.
  pose proof (crand_range seed) as CR. set (n := fst (crand seed)) in *.
  assert (MA : 1 <= IZR (Z.abs max)) by (apply IZR_le; lia).
  destruct (Z.eq_dec n 0) as [-> | N0].
  - unfold Rdiv. rewrite !Rmult_0_l, round_0, Rabs_R0 by apply valid_rnd_N. lra.
  - set (x := IZR n / 2147483648 * IZR max).
    assert (XA : Rabs x = IZR n / 2147483648 * IZR (Z.abs max)).
    { unfold x. rewrite Rabs_mult, <- abs_IZR. f_equal. apply Rabs_pos_eq. assert (0 <= IZR n) by (apply IZR_le; lia). lra. }
    assert (N1 : 1 <= IZR n) by (apply IZR_le; lia).
    assert (N2 : IZR n <= 2147483647) by (apply IZR_le; lia).
    assert (X1 : / 2147483648 <= Rabs x) by (rewrite XA; nra).
    assert (X2 : Rabs x <= 2147483647 / 2147483648 * IZR (Z.abs max)) by (rewrite XA; nra).
    assert (T : bpow radix2 (-1022) <= Rabs x).
    { eapply Rle_trans; [| exact X1]. change (/ 2147483648) with (bpow radix2 (-31)). apply bpow_le. lia. }
    pose proof (rnd64_rel x T) as R.
    assert (B53 : bpow radix2 (-53) <= bpow radix2 (-40)) by (apply bpow_le; lia).
    change (bpow radix2 (-40)) with (/ 1099511627776) in B53.
    pose proof (bpow_gt_0 radix2 (-53)) as BP.
    pose proof (Rabs_triang (rnd64 x - x) x) as TR. replace (rnd64 x - x + x) with (rnd64 x) in TR by lra.
    assert (Rabs x * bpow radix2 (-53) <= Rabs x * / 1099511627776) by (apply Rmult_le_compat_l; [apply Rabs_pos | auto]).
    lra.
Qed.

(** rand is a number, at least 0 and less than max (default 1). *)
Theorem C44_rand_range seed max :
  in_i32 max -> (0 < max)%Z ->
  is_finite (fst (rand seed max)) = true /\ 0 <= B2R (fst (rand seed max)) < IZR max.
Proof.
  intros M P. destruct (rand_ok seed max M) as [F E]. split; auto. split.
  - rewrite E. pose proof (crand_range seed) as CR.
    rewrite <- (round_0 radix2 fexp64 ZnearestE). apply round_le; [apply fexp64_valid | apply valid_rnd_N |].
    assert (0 <= IZR (fst (crand seed))) by (apply IZR_le; lia). assert (0 < IZR max) by (apply IZR_lt; auto). nra.
  - pose proof (rand_bound seed max M ltac:(lia)) as B. rewrite Z.abs_eq in B by lia.
    eapply Rle_lt_trans; [apply Rle_abs | exact B].
Qed.
Print Assumptions C44_rand_range.

(** It is a function of the seed, and the seed changes as with crand. *)
Theorem C44_rand_seed seed max : snd (rand seed max) = snd (crand seed).
Proof. unfold rand. destruct (crand seed). reflexivity. Qed.
Print Assumptions C44_rand_seed.

(** For any max: as far from 0 as max at most, and not on the other side. *)
Theorem C44_rand_any_max seed max :
  in_i32 max ->
  is_finite (fst (rand seed max)) = true /\
  ((max = 0)%Z -> B2R (fst (rand seed max)) = 0) /\
  ((max < 0)%Z -> IZR max < B2R (fst (rand seed max)) <= 0).
Proof.
  intros M. destruct (rand_ok seed max M) as [F E]. split; auto. split.
  - intros ->. rewrite E, Rmult_0_r, round_0 by apply valid_rnd_N. reflexivity.
  - intros N. split.
    + pose proof (rand_bound seed max M ltac:(lia)) as B. rewrite Z.abs_neq in B by lia. rewrite opp_IZR in B.
      apply Rabs_lt_inv in B. lra.
    + rewrite E. rewrite <- (round_0 radix2 fexp64 ZnearestE). apply round_le; [apply fexp64_valid | apply valid_rnd_N |].
      pose proof (crand_range seed) as CR. assert (0 <= IZR (fst (crand seed))) by (apply IZR_le; lia).
      assert (IZR max <= 0) by (apply IZR_le; lia). nra.
Qed.
Print Assumptions C44_rand_any_max.

(** The seed 12345 and max 6 give 2.8967... *)
Example C44_ex :
  in_i32 6 /\ (0 < 6)%Z /\ crand 12345 = (1036784229, -698016724)%Z /\
  B2SF (fst (rand 12345 6)) = SpecFloat.S754_finite false 6522882358247424 (-51).
Proof. split; [unfold in_i32; lia |]. split; [lia |]. split; vm_compute; reflexivity. Qed.
