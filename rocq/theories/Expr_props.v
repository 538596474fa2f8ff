(** * C61: numeric expressions

    A numeric expression compiles exactly when the documented rules give it a
    type; the compiled code computes the documented value, converts operands
    and results as documented, leaves the variables as documented, and throws
    or has undefined behaviour exactly when the documented operators do. Two
    restrictions are needed, and each is shown necessary. *)

From Verif Require Import Base VmArith_model Expr_model Expr_spec Expr_proofs.

(** An expression compiles if and only if it has a type. *)
Theorem C61_accept : forall F D (fl : floats F D) (T : nat -> option nty) (n : nat) (e : expr F D),
  (forall x, (n <= x)%nat -> T x = None) -> well_formed T e ->
  ((exists c, compile F D T n e = Some c) <-> (exists t, ty T e = Some t)).
Proof.
  intros F D fl T n e Fr W. pose proof (compile_accepts fl T n e Fr W) as A. split.
  - intros (c & C). destruct (ty T e); [eauto | congruence].
  - intros (t & Y). rewrite Y in A. exact A.
Qed.
Print Assumptions C61_accept.

(** The code of an expression: [R] are registers that hold the variables' values
    [st]; afterwards the result is in its register and every declared variable
    has the value the evaluation gives it. *)
Theorem C61_value_partial : forall F D (fl : floats F D) (T : nat -> option nty) (n : nat) (e : expr F D) c t
    (R : nty -> nat -> val F D) (st : nat -> val F D),
  (forall x, (n <= x)%nat -> T x = None) -> well_formed T e ->
  stable T e -> not_dropped T e ->
  compile F D T n e = Some c -> ty T e = Some t ->
  (forall x s, T x = Some s -> R s x = st x) ->
  match eval fl T e st with
  | Ret (v, st') => exists R', run F D fl R (c_instrs F D c) = Ret R' /\
                               R' t (c_result F D c) = v /\
                               forall x s, T x = Some s -> R' s x = st' x
  | Die m => run F D fl R (c_instrs F D c) = Die m
  | UB => run F D fl R (c_instrs F D c) = UB
  | Fuel => False
  end.
Proof.
  intros F D fl T n e c t R st Fr W S N C Y Rp.
  pose proof (compile_correct fl T n e Fr W c t R st C Y S N Rp) as H.
  destruct (eval fl T e st) as [[v st'] | | |] eqn:E; inversion H as [a R' (H1 & H2) | | |]; subst; auto.
  - exists R'. auto.
  - exfalso. exact (eval_not_fuel fl T _ _ E).
Qed.
Print Assumptions C61_value_partial.

(** The result and the variables always have values of their types, if
    conversions from float and double only give values of the target type. *)
Theorem C61_typed_partial : forall F D (fl : floats F D) (T : nat -> option nty) (n : nat) (e : expr F D) c t
    (R R' : nty -> nat -> val F D),
  (forall x, (n <= x)%nat -> T x = None) -> well_formed T e ->
  stable T e -> not_dropped T e ->
  (forall d f z, z_of_f F D fl d f = Some z -> in_range d z = true) ->
  (forall d f z, z_of_d F D fl d f = Some z -> in_range d z = true) ->
  compile F D T n e = Some c -> ty T e = Some t ->
  (forall x s, T x = Some s -> value_ok s (R s x)) ->
  run F D fl R (c_instrs F D c) = Ret R' ->
  value_ok t (R' t (c_result F D c)) /\ forall x s, T x = Some s -> value_ok s (R' s x).
Proof.
  intros F D fl T n e c t R R' Fr W S N FF FD C Y Ok E.
  set (st := fun x => match T x with Some s => R s x | None => VI F D 0 end).
  assert (Rp : forall x s, T x = Some s -> R s x = st x) by (intros x s H; unfold st; rewrite H; reflexivity).
  pose proof (compile_correct fl T n e Fr W c t R st C Y S N Rp) as H. rewrite E in H.
  inversion H as [[v st'] ? (H1 & H2) Ev | | |]; subst.
  assert (Ok' : forall x s, T x = Some s -> value_ok s (st x)) by (intros x s Hx; rewrite <- (Rp _ _ Hx); auto).
  destruct (eval_typed fl (conj FF FD) T e t st v st' W Y Ok' (eq_sym Ev)) as (V & V'). cbn [fst snd] in *.
  rewrite H1. split; [auto |]. intros x s Hx. rewrite (H2 _ _ Hx). auto.
Qed.
Print Assumptions C61_typed_partial.

(** ** The restrictions are needed *)

(** Two int variables, 0 and 1. *)
Definition ints : nat -> option nty := fun x => if Nat.ltb x 2 then Some TInt else None.
Definition at01 {F D} (a b : Z) : nty -> nat -> val F D :=
  fun _ x => match x with 0%nat => VI F D a | 1%nat => VI F D b | _ => VI F D 0 end.
Definition lit {F D} (z : Z) : expr F D := EConst F D TInt (VI F D z).

(** $x + ($x = 5) is 10 whatever $x was; ++$x + ++$x adds the last value
    twice. *)
Theorem C61_operand_order_refuted : forall F D (fl : floats F D) (a : Z), 0 <= a <= 1000 ->
  let e1 := EBin F D BAdd (EVar F D 0) (EAssign F D 0 (lit 5)) in
  let e2 := EBin F D BAdd (EInc F D false false 0) (EInc F D false false 0) in
  (exists c st' R', compile F D ints 2 e1 = Some c /\
     eval fl ints e1 (at01 a 0 TInt) = Ret (VI F D (a + 5), st') /\
     run F D fl (at01 a 0) (c_instrs F D c) = Ret R' /\ R' TInt (c_result F D c) = VI F D 10) /\
  (exists c st' R', compile F D ints 2 e2 = Some c /\
     eval fl ints e2 (at01 a 0 TInt) = Ret (VI F D ((a + 1) + (a + 1 + 1)), st') /\
     run F D fl (at01 a 0) (c_instrs F D c) = Ret R' /\
     R' TInt (c_result F D c) = VI F D ((a + 1 + 1) + (a + 1 + 1))) /\
  not_dropped ints e1 /\ not_dropped ints e2.
Proof.
  intros F D fl a H e1 e2.
  assert (A : forall x y, -2000 <= x <= 5000 -> -2000 <= y <= 5000 -> int_op 32 OAdd x y = Ret (x + y)).
  { intros x y Hx Hy. cbn [int_op]. unfold add_i, c_signed, half. change (2 ^ (32 - 1)) with 2147483648.
    replace ((- (2147483648) <=? x + y) && (x + y <? 2147483648)) with true; [reflexivity |].
    symmetry. apply andb_true_iff. rewrite Z.leb_le, Z.ltb_lt. lia. }
  split; [| split; [| split; cbn; tauto]].
  - eexists _, _, _. split; [reflexivity |]. split; [| split].
    + unfold e1, lit. cbn -[int_op]. rewrite A by lia. reflexivity.
    + cbn -[int_op]. change (wrap32 (5 mod 2 ^ 32)) with 5. rewrite A by lia. reflexivity.
    + reflexivity.
  - eexists _, _, _. split; [reflexivity |]. split; [| split].
    + unfold e2. cbn -[int_op]. rewrite A by lia. cbn -[int_op]. rewrite A by lia. cbn -[int_op]. rewrite A by lia. reflexivity.
    + cbn -[int_op]. change (wrap32 (1 mod 2 ^ 32)) with 1.
      repeat (rewrite A by lia; cbn -[int_op]). reflexivity.
    + reflexivity.
Qed.
Print Assumptions C61_operand_order_refuted.

(** $y = (1, ++$x) does not assign $y. *)
Theorem C61_dropped_assignment_refuted : forall F D (fl : floats F D) (a b : Z), 0 <= a <= 1000 ->
  let e := EAssign F D 1 (ESeq F D (lit 1) (EInc F D false false 0)) in
  exists c st' R', compile F D ints 2 e = Some c /\ stable ints e /\
    eval fl ints e (at01 a b TInt) = Ret (VI F D (a + 1), st') /\ st' 1%nat = VI F D (a + 1) /\
    run F D fl (at01 a b) (c_instrs F D c) = Ret R' /\ R' TInt 1%nat = VI F D b.
Proof.
  intros F D fl a b H e.
  assert (A : int_op 32 OAdd a 1 = Ret (a + 1)).
  { cbn [int_op]. unfold add_i, c_signed, half. change (2 ^ (32 - 1)) with 2147483648.
    replace ((- (2147483648) <=? a + 1) && (a + 1 <? 2147483648)) with true; [reflexivity |].
    symmetry. apply andb_true_iff. rewrite Z.leb_le, Z.ltb_lt. lia. }
  eexists _, _, _. split; [reflexivity |]. split; [cbn; tauto |]. split; [| split; [| split]].
  - unfold e, lit. cbn -[int_op]. rewrite A. reflexivity.
  - reflexivity.
  - cbn -[int_op]. change (wrap32 (1 mod 2 ^ 32)) with 1. rewrite A. reflexivity.
  - reflexivity.
Qed.
Print Assumptions C61_dropped_assignment_refuted.

(** ** The hypotheses are met: a byte, an int, a long and a double variable *)

Definition mixed : nat -> option nty :=
  fun x => match x with
           | 0%nat => Some TByte | 1%nat => Some TInt | 2%nat => Some TLong | 3%nat => Some TDouble
           | _ => None
           end.
(** Floating-point arithmetic on integers stands in for the arguments. *)
Definition toy_op (o : fop) (a b : Z) : Z :=
  match o with FAdd => a + b | FSub => a - b | FMul => a * b | FDiv => Z.quot a b end.
Definition toy : floats Z Z :=
  Floats Z Z toy_op Z.opp Z.ltb Z.eqb Z.leb toy_op Z.opp Z.ltb Z.eqb Z.leb
    (fun z => z) (fun z => z) (fun z => z) (fun z => z)
    (fun t z => if in_range t z then Some z else None) (fun t z => if in_range t z then Some z else None).

(** $b += ($d = $i++ * ($l = 3)) - (byte)(-300) *)
Definition sample : expr Z Z :=
  EOpAssign Z Z BAdd 0
    (EBin Z Z BSub
       (EAssign Z Z 3 (EBin Z Z BMul (EInc Z Z false true 1) (EAssign Z Z 2 (lit 3))))
       (ECast Z Z TByte (EUn Z Z UMinus (lit 300)))).
Definition sample_regs : nty -> nat -> val Z Z :=
  fun t x => match t, x with
             | TByte, 0%nat => VI Z Z 10 | TInt, 1%nat => VI Z Z 7 | TLong, 2%nat => VI Z Z 0
             | TDouble, 3%nat => VD Z Z 0 | _, _ => VI Z Z 0
             end.
Definition sample_store : nat -> val Z Z :=
  fun x => match mixed x with Some t => sample_regs t x | None => VI Z Z 0 end.

Definition out_of {A} (d : A) (o : outcome A) : A := match o with Ret a => a | _ => d end.
Definition is_ret {A} (o : outcome A) : bool := match o with Ret _ => true | _ => false end.
Lemma ret_out {A} (d : A) o : is_ret o = true -> o = Ret (out_of d o).
Proof. destruct o; try discriminate. reflexivity. Qed.

Definition sample_code : code Z Z :=
  match compile Z Z mixed 4 sample with Some c => c | None => Code Z Z mixed [] 0 end.
Definition sample_after : nty -> nat -> val Z Z :=
  out_of sample_regs (run Z Z toy sample_regs (c_instrs Z Z sample_code)).

Example C61_sample_meets :
  (forall x, (4 <= x)%nat -> mixed x = None) /\ well_formed mixed sample /\
  stable mixed sample /\ not_dropped mixed sample /\ ty mixed sample = Some TByte /\
  compile Z Z mixed 4 sample = Some sample_code /\ List.length (c_instrs Z Z sample_code) = 17%nat /\
  run Z Z toy sample_regs (c_instrs Z Z sample_code) = Ret sample_after /\
  sample_after TByte (c_result Z Z sample_code) = VI Z Z (10 + (21 - (-44))) /\
  sample_after TInt 1%nat = VI Z Z 8 /\ sample_after TLong 2%nat = VI Z Z 3 /\
  sample_after TDouble 3%nat = VD Z Z 21.
Proof.
  split; [intros x H; do 4 (destruct x; [lia |]); reflexivity |].
  split.
  { unfold sample, lit, well_formed. repeat split; try (cbn; congruence). }
  split.
  { unfold sample, lit. cbn [stable]. repeat split.
    - intros x H. vm_compute in H. destruct H.
    - intros x H. vm_compute in H. vm_compute. intuition congruence. }
  split; [unfold sample; cbn [not_dropped]; repeat split |]. split; [vm_compute; reflexivity |].
  split; [reflexivity |]. split; [vm_compute; reflexivity |].
  split; [apply ret_out; vm_compute; reflexivity |].
  repeat split; vm_compute; reflexivity.
Qed.

(** An int does not fit a byte variable; a literal does if its value does. *)
Example C61_refuses :
  ty mixed (EAssign Z Z 0 (EVar Z Z 1)) = None /\ ty mixed (EAssign Z Z 0 (lit 127)) = Some TByte /\
  ty mixed (EAssign Z Z 0 (lit 128)) = None /\ ty mixed (EBin Z Z BMod (EVar Z Z 3) (lit 2)) = None /\
  ty mixed (EBin Z Z BShl (EVar Z Z 1) (EVar Z Z 2)) = None /\
  ty mixed (EBin Z Z BShl (EVar Z Z 2) (EVar Z Z 0)) = Some TLong.
Proof. repeat split; reflexivity. Qed.

(** Division by zero throws. *)
Example C61_throws :
  match compile Z Z mixed 4 (EBin Z Z BDiv (EVar Z Z 1) (EVar Z Z 2)) with
  | Some c => run Z Z toy sample_regs (c_instrs Z Z c) = Die DIVIDE_ZERO
  | None => False
  end.
Proof. vm_compute. reflexivity. Qed.
