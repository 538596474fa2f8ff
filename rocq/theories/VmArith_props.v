(** * Properties of the integer operators: C14, C15 *)

From Verif Require Import Base VmArith_model VmArith_spec VmArith_proofs.

(** ** C14: division and remainder

    For int ([bits] = 32) and long ([bits] = 64): a zero divisor throws;
    otherwise [/] truncates, [%] has the sign of the divisor and belongs to
    the floor quotient, and the unsigned variants are division and remainder
    of the unsigned readings. *)
Theorem C14_divide : forall bits a b,
  bits = 32 \/ bits = 64 -> fits bits a -> fits bits b ->
  ~ (a = - 2 ^ (bits - 1) /\ b = -1) ->
  (b = 0 -> is_die (div_i bits a b) = true) /\
  (b <> 0 -> exists q, div_i bits a b = Ret q /\ fits bits q /\ trunc_quotient a b q).
Proof.
  intros bits a b W Fa Fb N.
  destruct (int_op_total bits ODiv a b W Fa Fb) as [(_ & B & E) | [(_ & U & _) | (D & _ & r & E & F & M)]];
    cbn [int_op means c_undefined] in *.
  - rewrite E. split; [reflexivity | intros; lia].
  - tauto.
  - unfold divides in D. split; [intros; tauto | eauto].
Qed.

Theorem C14_modulo : forall bits a b,
  bits = 32 \/ bits = 64 -> fits bits a -> fits bits b ->
  ~ (a = - 2 ^ (bits - 1) /\ b = -1) ->
  (b = 0 -> is_die (mod_i bits a b) = true) /\
  (b <> 0 -> exists r, mod_i bits a b = Ret r /\ fits bits r /\ floor_remainder a b r).
Proof.
  intros bits a b W Fa Fb N.
  destruct (int_op_total bits OMod a b W Fa Fb) as [(_ & B & E) | [(_ & U & _) | (D & _ & r & E & F & M)]];
    cbn [int_op means c_undefined] in *.
  - rewrite E. split; [reflexivity | intros; lia].
  - tauto.
  - unfold divides in D. split; [intros; tauto | eauto].
Qed.

Theorem C14_unsigned : forall bits a b,
  bits = 32 \/ bits = 64 -> fits bits a -> fits bits b ->
  (b = 0 -> is_die (divu_i bits a b) = true /\ is_die (modu_i bits a b) = true) /\
  (b <> 0 -> exists q r,
     divu_i bits a b = Ret q /\ fits bits q /\ uread bits q = uread bits a / uread bits b /\
     modu_i bits a b = Ret r /\ fits bits r /\ uread bits r = uread bits a mod uread bits b).
Proof.
  intros bits a b W Fa Fb.
  destruct (int_op_total bits ODivU a b W Fa Fb) as [(_ & B & E) | [(_ & U & _) | (D & _ & q & E & F & M)]];
  destruct (int_op_total bits OModU a b W Fa Fb) as [(_ & B' & E') | [(_ & U' & _) | (D' & _ & r & E' & F' & M')]];
    cbn [int_op means c_undefined] in *; try tauto;
    rewrite E, E'; unfold divides in *; split; intros; try tauto; try lia.
  exists q, r. tauto.
Qed.

(** The remainder specification determines the remainder, and the truncating
    quotient is determined too: the theorems above leave no freedom. *)
Theorem C14_spec_determined : forall a b, b <> 0 ->
  (forall q q', trunc_quotient a b q -> trunc_quotient a b q' -> q = q') /\
  (forall r r', floor_remainder a b r -> floor_remainder a b r' -> r = r').
Proof.
  intros a b B. split.
  - intros q q' (r & E & R & S) (r' & E' & R' & S').
    assert (Q : (q - q') * b = r' - r) by lia.
    assert (Z.abs (q - q') < 1); [| lia].
    assert (Z.abs (q - q') * Z.abs b < Z.abs b); [| nia].
    rewrite <- Z.abs_mul, Q. lia.
  - intros r r' (q & E & R & S) (q' & E' & R' & S').
    assert (Q : (q - q') * b = r' - r) by lia.
    assert (Z.abs (q - q') < 1); [| nia].
    assert (Z.abs (q - q') * Z.abs b < Z.abs b); [| nia].
    rewrite <- Z.abs_mul, Q. lia.
Qed.

Example C14_example :
  div_i 32 (-7) 2 = Ret (-3) /\ mod_i 32 (-7) 2 = Ret 1 /\ mod_i 32 7 (-2) = Ret (-1) /\
  divu_i 32 (-1) 2 = Ret 2147483647 /\ modu_i 64 (-1) 10 = Ret 5 /\
  is_die (div_i 32 5 0) = true /\ fits 32 (-7) /\ fits 32 2.
Proof. repeat split; try reflexivity; vm_compute; discriminate. Qed.

(** ** C15: which operands are undefined

    The property ("never undefined") is false. What holds: an operator on
    in-range operands throws exactly for a zero divisor, is undefined exactly
    for the operands listed in [c_undefined], and otherwise returns an in-range
    result that is the mathematical one. *)
Theorem C15_defined_partial : forall bits o a b,
  bits = 32 \/ bits = 64 -> fits bits a -> fits bits b ->
  (is_die (int_op bits o a b) = true <-> divides o /\ b = 0) /\
  (int_op bits o a b = UB <-> c_undefined bits o a b /\ ~ (divides o /\ b = 0)) /\
  (forall r, int_op bits o a b = Ret r -> fits bits r /\ means bits o a b r) /\
  int_op bits o a b <> Fuel.
Proof.
  intros bits o a b W Fa Fb.
  destruct (int_op_total bits o a b W Fa Fb) as [(D & B & E) | [(D & U & E) | (D & U & r & E & F & M)]];
    rewrite E; cbn [is_die].
  - split; [split; auto |]. split; [split; [discriminate | tauto] |]. split; discriminate.
  - split; [split; [discriminate | tauto] |]. split; [tauto |]. split; discriminate.
  - split; [split; [discriminate | tauto] |]. split; [split; [discriminate | tauto] |].
    split; [| discriminate]. intros r' E'. injection E' as <-. auto.
Qed.

Theorem C15_never_undefined_refuted :
  exists o a b, fits 32 a /\ fits 32 b /\ int_op 32 o a b = UB.
Proof. exists ODiv, (-2147483648), (-1). repeat split; vm_compute; try discriminate. Qed.

(** Each affected operator has such operands, for int and for long. *)
Theorem C15_undefined_operators_refuted : forall o,
  In o [OAdd; OSub; OMul; ODiv; OMod; OShl; OSar; OShr; ONeg] ->
  forall bits, bits = 32 \/ bits = 64 ->
  exists a b, fits bits a /\ fits bits b /\ int_op bits o a b = UB.
Proof.
  intros o I bits [-> | ->]; cbn [In] in I;
    repeat (destruct I as [<- | I]); try contradiction;
    [ exists 2147483647, 1 | exists (-2147483648), 1 | exists 65536, 65536
    | exists (-2147483648), (-1) | exists (-2147483648), (-1) | exists 1, 32 | exists 1, 32 | exists 1, (-1)
    | exists (-2147483648), 0
    | exists 9223372036854775807, 1 | exists (-9223372036854775808), 1 | exists 4294967296, 4294967296
    | exists (-9223372036854775808), (-1) | exists (-9223372036854775808), (-1)
    | exists 1, 64 | exists 1, 64 | exists 1, (-1) | exists (-9223372036854775808), 0 ];
    repeat split; vm_compute; try discriminate.
Qed.

Example C15_example :
  int_op 32 OAdd 2000000000 147483647 = Ret 2147483647 /\
  int_op 64 OShl 1 62 = Ret 4611686018427387904 /\
  int_op 32 OShr (-1) 28 = Ret 15 /\ int_op 32 OSar (-9) 1 = Ret (-5) /\
  int_op 32 OXor (-1) 5 = Ret (-6) /\ int_op 32 ONot 5 0 = Ret (-6).
Proof. repeat split; reflexivity. Qed.

(** Comparison of ints and longs: [cmp_i] is the sign of the difference. *)
Theorem C15_compare : forall a b, cmp_i a b = Z.sgn (a - b).
Proof. intros a b. unfold cmp_i. destruct (Z.ltb_spec b a), (Z.ltb_spec a b); lia. Qed.

Print Assumptions C14_divide.
Print Assumptions C14_modulo.
Print Assumptions C14_unsigned.
Print Assumptions C14_spec_determined.
Print Assumptions C15_defined_partial.
Print Assumptions C15_never_undefined_refuted.
Print Assumptions C15_undefined_operators_refuted.
Print Assumptions C15_compare.
