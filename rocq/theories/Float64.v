(** * Double precision numbers: IEEE 754 binary64, rounding to nearest even

    Flocq's formalisation; the C operations on double are taken to be these. *)
From Coq Require Import ZArith Reals Psatz.
From Flocq Require Import Core IEEE754.BinarySingleNaN.

Definition f64 : Type := binary_float 53 1024.
Global Instance prec_gt_0_53 : Prec_gt_0 53 := eq_refl.
Global Instance prec_lt_emax_64 : Prec_lt_emax 53 1024 := eq_refl.

(** (double)n of an int or long, x * y, x / y, x + y *)
Definition f64_of_Z (n : Z) : f64 := binary_normalize 53 1024 _ _ mode_NE n 0 false.
Definition f64_mul (x y : f64) : f64 := Bmult mode_NE x y.
Definition f64_div (x y : f64) : f64 := Bdiv mode_NE x y.
Definition f64_add (x y : f64) : f64 := Bplus mode_NE x y.

Notation fexp64 := (SpecFloat.fexp 53 1024).
Notation rnd64 := (round radix2 fexp64 ZnearestE).

Lemma fexp64_FLT e : fexp64 e = FLT_exp (3 - 1024 - 53) 53 e.
Proof. reflexivity. Qed.
Global Instance fexp64_valid : Valid_exp fexp64 := FLT_exp_valid (3 - 1024 - 53) 53.

Open Scope R_scope.

Lemma format_small m e : (Z.abs m < 2 ^ 53)%Z -> (-1074 <= e)%Z -> generic_format radix2 fexp64 (F2R (Float radix2 m e)).
Proof.
  intros M E. apply (generic_format_FLT radix2 (-1074) 53). exists (Float radix2 m e); auto.
Qed.

Lemma format_Z n : (Z.abs n < 2 ^ 53)%Z -> generic_format radix2 fexp64 (IZR n).
Proof. intros N. replace (IZR n) with (F2R (Float radix2 n 0)) by (unfold F2R; cbn; lra). apply format_small; auto. lia. Qed.

Lemma rnd64_id x : generic_format radix2 fexp64 x -> rnd64 x = x.
Proof. apply round_generic. apply valid_rnd_N. Qed.

Lemma of_Z_ok n : (Z.abs n < 2 ^ 53)%Z -> B2R (f64_of_Z n) = IZR n /\ is_finite (f64_of_Z n) = true.
Proof.
  intros N. pose proof (binary_normalize_correct 53 1024 _ _ mode_NE n 0 false) as H. cbv zeta in H.
  assert (E : F2R (Float radix2 n 0) = IZR n) by (unfold F2R; cbn; lra). rewrite E in H.
  assert (R : rnd64 (IZR n) = IZR n) by (apply rnd64_id, format_Z; auto).
  cbn [round_mode] in H. change (ZnearestE) with (Znearest (fun x => negb (Z.even x))) in *.
  rewrite R in H. rewrite Rlt_bool_true in H.
  - destruct H as (A & B & _). auto.
  - rewrite <- abs_IZR. apply Rlt_trans with (IZR (2 ^ 53)); [apply IZR_lt; auto |].
    change (IZR (2 ^ 53)) with (IZR (Zpower radix2 53)). rewrite IZR_Zpower by lia. apply bpow_lt. lia.
Qed.

Lemma div_ok x y : is_finite x = true -> B2R y <> 0 -> Rabs (rnd64 (B2R x / B2R y)) < bpow radix2 1024 ->
  B2R (f64_div x y) = rnd64 (B2R x / B2R y) /\ is_finite (f64_div x y) = true.
Proof.
  intros F Y L. pose proof (Bdiv_correct 53 1024 _ _ mode_NE x y Y) as H. cbn [round_mode] in H.
  rewrite Rlt_bool_true in H by exact L. destruct H as (A & B & _). rewrite F in B. auto.
Qed.

Lemma mul_ok x y : is_finite x = true -> is_finite y = true -> Rabs (rnd64 (B2R x * B2R y)) < bpow radix2 1024 ->
  B2R (f64_mul x y) = rnd64 (B2R x * B2R y) /\ is_finite (f64_mul x y) = true.
Proof.
  intros F G L. pose proof (Bmult_correct 53 1024 _ _ mode_NE x y) as H. cbn [round_mode] in H.
  rewrite Rlt_bool_true in H by exact L. destruct H as (A & B & _). rewrite F, G in B. auto.
Qed.

Lemma add_ok x y : is_finite x = true -> is_finite y = true -> Rabs (rnd64 (B2R x + B2R y)) < bpow radix2 1024 ->
  B2R (f64_add x y) = rnd64 (B2R x + B2R y) /\ is_finite (f64_add x y) = true.
Proof.
  intros F G L. pose proof (Bplus_correct 53 1024 _ _ mode_NE x y F G) as H. cbn [round_mode] in H.
  rewrite Rlt_bool_true in H by exact L. destruct H as (A & B & _). auto.
Qed.

(** The relative error of rounding a number that is not tiny. *)
Lemma rnd64_rel x : bpow radix2 (-1022) <= Rabs x -> Rabs (rnd64 x - x) <= Rabs x * bpow radix2 (-53).
Proof.
  intros X. pose proof (error_le_half_ulp radix2 fexp64 (fun x => negb (Z.even x)) x) as H.
  pose proof (ulp_FLT_le radix2 (-1074) 53 x) as U. change (-1074 + 53 - 1)%Z with (-1022)%Z in U.
  specialize (U X). change (ulp radix2 (FLT_exp (-1074) 53) x) with (ulp radix2 fexp64 x) in U.
  change (1 - 53)%Z with (1 + -53)%Z in U. rewrite bpow_plus in U. change (bpow radix2 1) with 2 in U. change (round radix2 fexp64 ZnearestE x) with (round radix2 fexp64 (Znearest (fun x => negb (Z.even x))) x). set (b := bpow radix2 (-53)) in *.
  lra.
Qed.
