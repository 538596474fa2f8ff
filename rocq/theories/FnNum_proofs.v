(** * Proofs about numbers in Fn *)
From Verif Require Import Base CLib Array_model CStrto FnMem_model FnStr_model FnStr_spec FnStr_proofs FnNum_model FnNum_spec.

(** ** Wrapping *)
Lemma wrap_congr half a b : 0 < half -> a mod (2 * half) = b mod (2 * half) -> wrap half a = wrap half b.
Proof. intros H E. unfold wrap. rewrite (Z.add_mod a), (Z.add_mod b), E by lia. reflexivity. Qed.
Lemma wrap_mod_eq half a : 0 < half -> wrap half a mod (2 * half) = a mod (2 * half).
Proof. intros H. unfold wrap. rewrite Zminus_mod_idemp_l. f_equal. lia. Qed.
Lemma wrap_mul_l half a b : 0 < half -> wrap half (wrap half a * b) = wrap half (a * b).
Proof. intros H. apply wrap_congr; auto. rewrite Z.mul_mod, wrap_mod_eq, <- Z.mul_mod by lia. reflexivity. Qed.
Lemma wrap_add_lr half a b : 0 < half -> wrap half (wrap half a + wrap half b) = wrap half (a + b).
Proof. intros H. apply wrap_congr; auto. rewrite Z.add_mod, !wrap_mod_eq, <- Z.add_mod by lia. reflexivity. Qed.
Lemma wrap32_mul_l a b : wrap32 (wrap32 a * b) = wrap32 (a * b). Proof. apply wrap_mul_l; lia. Qed.
Lemma wrap64_mul_l a b : wrap64 (wrap64 a * b) = wrap64 (a * b). Proof. apply wrap_mul_l; lia. Qed.
Lemma wrap32_mul_r a b : wrap32 (a * wrap32 b) = wrap32 (a * b).
Proof. rewrite (Z.mul_comm a (wrap32 b)), wrap32_mul_l. f_equal. lia. Qed.
Lemma wrap32_add_lr a b : wrap32 (wrap32 a + wrap32 b) = wrap32 (a + b). Proof. apply wrap_add_lr; lia. Qed.
Lemma wrap32_idem a : wrap32 (wrap32 a) = wrap32 a. Proof. apply wrap32_id, wrap32_range. Qed.
Lemma wrap64_idem a : wrap64 (wrap64 a) = wrap64 a. Proof. apply wrap64_id, wrap64_range. Qed.

(** ** Digits *)
Lemma digit_of_spec base c v : base <= 36 -> (digit base c v <-> digit_of c = v /\ v < base).
Proof.
  intros B. unfold digit, digit_of.
  destruct (Z.leb_spec 48 c); destruct (Z.leb_spec c 57); cbn [andb];
    destruct (Z.leb_spec 97 c); destruct (Z.leb_spec c 122); cbn [andb];
    destruct (Z.leb_spec 65 c); destruct (Z.leb_spec c 90); cbn [andb]; lia.
Qed.

Definition isdig (base c : Z) : bool := digit_of c <? base.

(** The value of digits after [acc]. *)
Definition value (base acc : Z) (ds : list Z) : Z := fold_left (fun a c => a * base + digit_of c) ds acc.

Lemma number_value base ds m : base <= 36 ->
  (number base ds m <-> ds <> [] /\ Forall (fun c => isdig base c = true) ds /\ m = value base 0 ds).
Proof.
  intros B. split.
  - induction 1 as [c v D | ds n c v N IH D].
    + apply digit_of_spec in D as [D L]; auto. split; [discriminate |]. split.
      * constructor; auto. unfold isdig. apply Z.ltb_lt. lia.
      * cbn. lia.
    + destruct IH as (NE & F & ->). apply digit_of_spec in D as [D L]; auto.
      split; [destruct ds; discriminate |]. split.
      * apply Forall_app. split; auto. constructor; auto. unfold isdig. apply Z.ltb_lt. lia.
      * unfold value. rewrite fold_left_app. cbn. lia.
  - intros (NE & F & ->). induction ds as [| c ds IH] using rev_ind; [congruence |].
    apply Forall_app in F as [F1 F2]. inversion F2 as [| ? ? C _]; subst. apply Z.ltb_lt in C.
    assert (D : digit base c (digit_of c)) by (apply digit_of_spec; auto).
    destruct ds as [| d ds].
    + cbn. constructor. auto.
    + unfold value. rewrite fold_left_app. cbn [fold_left]. constructor; auto. apply IH; [discriminate | auto].
Qed.

(** What follows the digits does not begin with one. *)
Definition stops (p : Z -> bool) (rest : list Z) : Prop := match rest with [] => True | c :: _ => p c = false end.

Lemma read_digits_ok base s acc n :
  exists ds rest, s = ds ++ rest /\ Forall (fun c => isdig base c = true) ds /\ stops (isdig base) rest /\
    read_digits base s acc n = (value base acc ds, n + zlen ds).
Proof.
  revert acc n. induction s as [| c s IH]; intros acc n.
  - exists [], []. cbn. repeat split; auto. f_equal. rewrite zlen_nil. lia.
  - cbn [read_digits]. destruct (digit_of c <? base) eqn:D.
    + destruct (IH (acc * base + digit_of c) (n + 1)) as (ds & rest & -> & F & ST & ->).
      exists (c :: ds), rest. split; [reflexivity |]. split; [constructor; auto |]. split; [auto |].
      unfold value. cbn [fold_left]. f_equal. rewrite zlen_cons. lia.
    + exists [], (c :: s). cbn. repeat split; auto. f_equal. rewrite zlen_nil. lia.
Qed.

Lemma read_digits_app base ds rest acc n :
  Forall (fun c => isdig base c = true) ds -> stops (isdig base) rest ->
  read_digits base (ds ++ rest) acc n = (value base acc ds, n + zlen ds).
Proof.
  intros F ST. revert acc n. induction F as [| c ds C F IH]; intros acc n.
  - cbn [app]. unfold value. cbn [fold_left]. rewrite zlen_nil, Z.add_0_r. destruct rest as [| c r]; [reflexivity |].
    cbn [read_digits]. unfold stops, isdig in ST. rewrite ST. reflexivity.
  - cbn [app read_digits]. unfold isdig in C. rewrite C, IH. unfold value. cbn [fold_left]. f_equal.
    rewrite zlen_cons. lia.
Qed.

Lemma skip_while_ok p s :
  exists ws rest, s = ws ++ rest /\ Forall (fun c => p c = true) ws /\ stops p rest /\ skip_while p s = (zlen ws, rest).
Proof.
  induction s as [| c s (ws & rest & -> & F & ST & E)].
  - exists [], []. cbn. repeat split; auto.
  - cbn [skip_while]. destruct (p c) eqn:P.
    + rewrite E. exists (c :: ws), rest. repeat split; auto. rewrite zlen_cons. f_equal. lia.
    + exists [], (c :: ws ++ rest). repeat split; auto.
Qed.

Lemma skip_while_app p ws rest :
  Forall (fun c => p c = true) ws -> stops p rest -> skip_while p (ws ++ rest) = (zlen ws, rest).
Proof.
  intros F ST. induction F as [| c ws C F IH].
  - cbn [app]. destruct rest as [| c r]; [reflexivity |]. cbn [skip_while]. cbn in ST. rewrite ST. reflexivity.
  - cbn [app skip_while]. rewrite C, IH. rewrite zlen_cons. f_equal. lia.
Qed.

Lemma white_space c : white c <-> c_isspace c = true.
Proof.
  unfold white, c_isspace. rewrite orb_true_iff, andb_true_iff, !Z.leb_le, Z.eqb_eq. tauto.
Qed.

Lemma space_not_digit base c : 0 < base <= 36 -> isdig base c = true -> c_isspace c = false /\ c <> 45 /\ c <> 43.
Proof.
  intros B D. unfold isdig, digit_of, c_isspace in *.
  destruct (Z.leb_spec 48 c); destruct (Z.leb_spec c 57); cbn [andb] in *;
    destruct (Z.leb_spec 97 c); destruct (Z.leb_spec c 122); cbn [andb] in *;
    destruct (Z.leb_spec 65 c); destruct (Z.leb_spec c 90); cbn [andb] in *; try (apply Z.ltb_lt in D; lia);
    destruct (Z.leb_spec 9 c); destruct (Z.leb_spec c 13); cbn [andb orb]; try lia;
    destruct (Z.eqb_spec c 32); lia.
Qed.

(** ** The number at the beginning *)
Definition clamp (lo hi v : Z) : Z := Z.max lo (Z.min hi v).

Lemma strto_denotes lo hi base s v :
  lo <= hi -> In base bases -> denotes base s v ->
  exists e, strto lo hi base s = (clamp lo hi v, zlen s, e) /\ (e = false <-> lo <= v <= hi).
Proof.
  intros LH IB (ws & sign & pre & ds & m & E & W & PR & N & SG).
  assert (B : 0 < base <= 36) by (destruct IB as [<- | [<- | [<- | [<- | []]]]]; lia).
  apply number_value in N as (NE & F & EM); [| lia].
  destruct ds as [| d ds]; [congruence |]. inversion F as [| ? ? D F']; subst x l.
  pose proof (space_not_digit base d B D) as (ND & N45 & N43).
  assert (W' : Forall (fun c => c_isspace c = true) ws).
  { eapply Forall_impl; [| exact W]. intros c. apply white_space. }
  assert (P1 : stops c_isspace (pre ++ d :: ds) /\ forall c r, pre ++ d :: ds = c :: r -> c <> 45 /\ c <> 43).
  { destruct PR as [-> | [_ [-> | ->]]]; cbn; (split; [auto | intros c r [= <- <-]; split; auto; lia]). }
  destruct P1 as [P1 P2].
  assert (P3 : stops c_isspace (sign ++ pre ++ d :: ds)).
  { destruct SG as [[-> _] | [[-> | ->] _]]; cbn [app]; auto; reflexivity. }
  unfold strto. rewrite E, skip_while_app by auto.
  assert (TS : take_sign (sign ++ pre ++ d :: ds) =
               (match sign with 45 :: _ => true | _ => false end, zlen sign, pre ++ d :: ds)).
  { destruct SG as [[-> _] | [[-> | ->] _]]; cbn [app take_sign]; try reflexivity.
    destruct (pre ++ d :: ds) as [| c r] eqn:EP; [reflexivity |]. cbn [take_sign].
    destruct (P2 c r eq_refl) as [Q1 Q2]. destruct (Z.eqb_spec c 45); [lia |]. destruct (Z.eqb_spec c 43); [lia |]. reflexivity. }
  rewrite TS.
  assert (TP : take_prefix base (pre ++ d :: ds) = (zlen pre, d :: ds)).
  { destruct PR as [-> | [-> P]].
    - cbn [app]. unfold take_prefix. destruct ds as [| x [| y r]]; try reflexivity.
      inversion F' as [| ? ? DX F'']; subst x0 l. destruct (base =? 16) eqn:E16; cbn [andb]; auto.
      apply Z.eqb_eq in E16. subst base.
      destruct (Z.eqb_spec x 120) as [-> |]; [discriminate |]. destruct (Z.eqb_spec x 88) as [-> |]; [discriminate |].
      rewrite andb_false_r. reflexivity.
    - assert (D16 : digit_of d <? 16 = true) by exact D.
      destruct P as [-> | ->]; cbn [app]; unfold take_prefix; rewrite D16; reflexivity. }
  rewrite TP.
  pose proof (read_digits_app base (d :: ds) [] 0 0 F I) as RD. rewrite app_nil_r in RD. rewrite RD.
  cbn iota beta zeta. rewrite Z.add_0_l.
  destruct (Z.eqb_spec (zlen (d :: ds)) 0) as [Z0 |]; [rewrite zlen_cons in Z0; pose proof (zlen_nonneg ds); lia |].
  rewrite <- EM.
  assert (EV : (if (match sign with 45 :: _ => true | _ => false end) : bool then - m else m) = v).
  { destruct SG as [[-> ->] | [[-> | ->] ->]]; reflexivity. }
  rewrite EV.
  assert (EU : zlen ws + zlen sign + zlen pre + zlen (d :: ds) = zlen (ws ++ sign ++ pre ++ d :: ds)) by (zlens; lia).
  rewrite EU. unfold clamp.
  destruct (Z.ltb_spec v lo); [| destruct (Z.ltb_spec hi v)]; eexists; (split; [f_equal; f_equal; lia | split; [congruence + lia | lia + auto]]).
Qed.

Lemma strto_all lo hi base s v e :
  In base bases -> strto lo hi base s = (v, zlen s, e) -> s <> [] -> exists w, denotes base s w.
Proof.
  intros IB H NE.
  assert (B : 0 < base <= 36) by (destruct IB as [<- | [<- | [<- | [<- | []]]]]; lia).
  unfold strto in H. destruct (skip_while_ok c_isspace s) as (ws & s1 & E1 & W & _ & SW). rewrite SW in H.
  destruct (take_sign s1) as [[neg nsign] s2] eqn:TS.
  assert (S1 : exists sign, s1 = sign ++ s2 /\ zlen sign = nsign /\
      ((sign = [45] /\ neg = true) \/ ((sign = [] \/ sign = [43]) /\ neg = false))).
  { unfold take_sign in TS. destruct s1 as [| c r]; [inversion TS; subst; exists []; split; [reflexivity |]; split; [reflexivity |]; auto |].
    destruct (Z.eqb_spec c 45) as [-> |]; [inversion TS; subst; exists [45]; split; [reflexivity |]; split; [reflexivity |]; auto |].
    destruct (Z.eqb_spec c 43) as [-> |]; inversion TS; subst; [exists [43]; split; [reflexivity |]; split; [reflexivity |]; auto | exists []; split; [reflexivity |]; split; [reflexivity |]; auto]. }
  destruct S1 as (sign & E2 & LS & SG).
  destruct (take_prefix base s2) as [npre s3] eqn:TP.
  assert (S2 : exists pre, s2 = pre ++ s3 /\ zlen pre = npre /\
      (pre = [] \/ base = 16 /\ (pre = [48; 120] \/ pre = [48; 88]))).
  { unfold take_prefix in TP. destruct s2 as [| z [| x [| d r]]]; try (inversion TP; subst; exists []; split; [reflexivity |]; split; [reflexivity |]; auto; fail).
    destruct (Z.eqb_spec base 16); cbn [andb] in TP; [| inversion TP; subst; exists []; split; [reflexivity |]; split; [reflexivity |]; auto].
    destruct (Z.eqb_spec z 48); cbn [andb] in TP; [| inversion TP; subst; exists []; split; [reflexivity |]; split; [reflexivity |]; auto]. subst z.
    destruct (Z.eqb_spec x 120); cbn [orb andb] in TP.
    - subst x. destruct (digit_of d <? 16); inversion TP; subst; [exists [48; 120]; split; [reflexivity |]; split; [reflexivity |]; auto | exists []; split; [reflexivity |]; split; [reflexivity |]; auto].
    - destruct (Z.eqb_spec x 88); cbn [andb] in TP; [subst x; destruct (digit_of d <? 16); inversion TP; subst; [exists [48; 88]; split; [reflexivity |]; split; [reflexivity |]; auto | exists []; split; [reflexivity |]; split; [reflexivity |]; auto] |].
      inversion TP; subst; exists []; split; [reflexivity |]; split; [reflexivity |]; auto. }
  destruct S2 as (pre & E3 & LP & PR).
  destruct (read_digits_ok base s3 0 0) as (ds & rest & E4 & F & ST & RD). rewrite RD in H. rewrite Z.add_0_l in H.
  destruct (Z.eqb_spec (zlen ds) 0) as [Z0 | NZ].
  - injection H as _ H _. pose proof (zlen_0_nil s (eq_sym H)). congruence.
  - set (vv := if neg : bool then - value base 0 ds else value base 0 ds) in *. cbv zeta in H.
    assert (U : zlen ws + nsign + npre + zlen ds = zlen s).
    { destruct (vv <? lo); [| destruct (hi <? vv)]; injection H as _ H _; exact H. }
    assert (R : rest = []).
    { apply zlen_0_nil. subst s s1 s2 s3. rewrite !zlen_app in U. lia. }
    subst rest. rewrite app_nil_r in E4. subst s3.
    exists vv, ws, sign, pre, ds, (value base 0 ds). subst. repeat split; auto.
    + eapply Forall_impl; [| exact W]. intros c. apply white_space.
    + apply number_value; [lia |]. split; [intros ->; apply NZ; reflexivity | auto].
    + unfold vv. destruct SG as [[-> ->] | [SG ->]]; auto.
Qed.

Lemma denotes_fun base s v w : In base bases -> denotes base s v -> denotes base s w -> v = w.
Proof.
  intros IB D1 D2. set (lo := Z.min v w). set (hi := Z.max v w).
  destruct (strto_denotes lo hi base s v ltac:(lia) IB D1) as (e & E1 & _).
  destruct (strto_denotes lo hi base s w ltac:(lia) IB D2) as (e' & E2 & _).
  rewrite E1 in E2. injection E2 as E2 _. unfold clamp in E2. lia.
Qed.

Lemma strto_nil lo hi base : strto lo hi base [] = (0, 0, false).
Proof. reflexivity. Qed.

Lemma base_ok_spec b : base_ok b = true <-> In b bases.
Proof.
  unfold base_ok. rewrite !orb_true_iff, !Z.eqb_eq. cbn. intuition lia.
Qed.

Lemma to_int_spec long64 s base :
  match to_int_with_base long64 (Some s) base with
  | Ret v => In base bases /\ in_i32 v /\ (denotes base (c_str s) v \/ (c_str s = [] /\ v = 0))
  | Die _ => ~ In base bases \/ (c_str s <> [] /\ forall v, denotes base (c_str s) v -> ~ in_i32 v)
  | _ => False
  end.
Proof.
  unfold to_int_with_base. destruct (base_ok base) eqn:BO.
  2: { left. rewrite <- base_ok_spec, BO. discriminate. }
  apply base_ok_spec in BO. set (t := c_str s). clearbody t.
  destruct (list_eq_dec Z.eq_dec t []) as [-> | NE].
  { assert (E : strtol long64 base [] = (0, 0, false)) by (destruct long64; reflexivity). rewrite E.
    change (In base bases /\ in_i32 0 /\ (denotes base [] 0 \/ (@nil Z = [] /\ 0 = 0))). split; auto. split; [unfold in_i32; lia | auto]. }
  set (lo := if long64 then INT64_MIN else INT32_MIN). set (hi := if long64 then INT64_MAX else INT32_MAX).
  assert (EL : strtol long64 base t = strto lo hi base t) by (unfold lo, hi; destruct long64; reflexivity).
  rewrite EL. destruct (strto lo hi base t) as [[num used] e] eqn:ST.
  assert (BD : lo <= INT32_MIN /\ INT32_MAX <= hi) by (unfold lo, hi; destruct long64; lia).
  destruct (Z.eqb_spec used (zlen t)) as [-> | NU]; cbn [negb].
  - destruct (strto_all _ _ _ _ _ _ BO ST NE) as (w & D).
    destruct (strto_denotes lo hi base t w ltac:(lia) BO D) as (e' & E & IF). rewrite ST in E. injection E as -> <-.
    destruct (e || (clamp lo hi w <? INT32_MIN) || (clamp lo hi w >? INT32_MAX)) eqn:G.
    + right. split; auto. intros v D'. rewrite (denotes_fun _ _ _ _ BO D' D). unfold in_i32. intros R.
      assert (e = false) by (apply IF; lia). subst e. unfold clamp in G. cbn [orb] in G. rewrite Z.gtb_ltb in G.
      apply orb_true_iff in G as [G | G]; apply Z.ltb_lt in G; lia.
    + apply orb_false_iff in G as [G G3]. apply orb_false_iff in G as [-> G2]. rewrite Z.gtb_ltb in G3.
      apply Z.ltb_ge in G2. apply Z.ltb_ge in G3.
      assert (lo <= w <= hi) by (apply IF; auto). replace (clamp lo hi w) with w in * by (unfold clamp; lia).
      rewrite wrap32_id by (unfold in_i32; lia). split; auto. split; [unfold in_i32; lia | auto].
  - right. split; auto. intros v D. exfalso.
    destruct (strto_denotes lo hi base t v ltac:(lia) BO D) as (e' & E & IF). rewrite ST in E. congruence.
Qed.

Lemma to_long_spec s base :
  match to_long_with_base (Some s) base with
  | Ret v => In base bases /\ in_i64 v /\ (denotes base (c_str s) v \/ (c_str s = [] /\ v = 0))
  | Die _ => ~ In base bases \/ (c_str s <> [] /\ forall v, denotes base (c_str s) v -> ~ in_i64 v)
  | _ => False
  end.
Proof.
  unfold to_long_with_base. destruct (base_ok base) eqn:BO.
  2: { left. rewrite <- base_ok_spec, BO. discriminate. }
  apply base_ok_spec in BO. set (t := c_str s). clearbody t.
  destruct (list_eq_dec Z.eq_dec t []) as [-> | NE].
  { change (In base bases /\ in_i64 0 /\ (denotes base [] 0 \/ (@nil Z = [] /\ 0 = 0))). split; auto. split; [unfold in_i64; lia | auto]. }
  unfold strtoll. destruct (strto INT64_MIN INT64_MAX base t) as [[num used] e] eqn:ST.
  destruct (Z.eqb_spec used (zlen t)) as [-> | NU]; cbn [negb].
  - destruct (strto_all _ _ _ _ _ _ BO ST NE) as (w & D).
    destruct (strto_denotes INT64_MIN INT64_MAX base t w ltac:(lia) BO D) as (e' & E & IF). rewrite ST in E. injection E as -> <-.
    destruct e.
    + right. split; auto. intros v D'. rewrite (denotes_fun _ _ _ _ BO D' D). unfold in_i64. intros R.
      assert (true = false) by (apply IF; lia). discriminate.
    + assert (INT64_MIN <= w <= INT64_MAX) by (apply IF; auto). replace (clamp INT64_MIN INT64_MAX w) with w by (unfold clamp; lia).
      split; [auto |]. split; [unfold in_i64; lia |]. left. exact D.
  - right. split; auto. intros v D. exfalso.
    destruct (strto_denotes INT64_MIN INT64_MAX base t v ltac:(lia) BO D) as (e' & E & IF). rewrite ST in E. congruence.
Qed.

Lemma c_str_no_nul s : ~ In 0 s -> c_str s = s.
Proof.
  induction s as [| c s IH]; [reflexivity |]. intros N. cbn [c_str].
  destruct (Z.eqb_spec c 0) as [-> |]; [exfalso; apply N; left; auto |]. rewrite IH; auto. intros H. apply N. right. auto.
Qed.

(** ** powers *)
Lemma powi_loop_ok n base ret : in_i32 ret -> powi_loop n base ret = wrap32 (ret * base ^ Z.of_nat n).
Proof.
  revert ret. induction n as [| n IH]; intros ret R.
  - cbn. rewrite Z.mul_1_r, wrap32_id; auto.
  - cbn [powi_loop]. rewrite IH by apply wrap32_range. rewrite wrap32_mul_l. f_equal.
    rewrite Nat2Z.inj_succ, Z.pow_succ_r by lia. lia.
Qed.

Lemma powi_ok base e :
  match powi base e with
  | Ret v => 0 <= e /\ (base <> 0 \/ e <> 0) /\ v = wrap32 (base ^ e)
  | Die _ => e < 0 \/ (base = 0 /\ e = 0)
  | _ => False
  end.
Proof.
  unfold powi. destruct (Z.geb_spec e 0); [| lia].
  destruct (Z.eqb_spec base 0); destruct (Z.eqb_spec e 0); cbn [negb orb]; auto;
    (split; [lia |]; split; [lia |]; rewrite powi_loop_ok by (unfold in_i32; lia); rewrite Z2Nat.id by lia; f_equal; lia).
Qed.

Lemma powl_loop_ok fuel base e i ret :
  0 <= i -> i <= e -> e <= INT32_MAX -> in_i64 ret -> e - i < Z.of_nat fuel ->
  powl_loop fuel base e i ret = Ret (wrap64 (ret * base ^ (e - i))).
Proof.
  revert i ret. induction fuel as [| fuel IH]; intros i ret I LE LM R F; [lia |]. cbn [powl_loop].
  destruct (Z.ltb_spec i e).
  - rewrite wrap32_id by (unfold in_i32; lia). rewrite IH by (try lia; apply wrap64_range).
    f_equal. rewrite wrap64_mul_l. f_equal. replace (e - i) with (Z.succ (e - (i + 1))) by lia.
    rewrite Z.pow_succ_r by lia. lia.
  - replace (e - i) with 0 by lia. rewrite Z.pow_0_r, Z.mul_1_r, wrap64_id; auto.
Qed.

Lemma powl_loop_fuel fuel base e i ret : INT32_MAX < e -> in_i32 i -> powl_loop fuel base e i ret = Fuel.
Proof.
  intros L. revert i ret. induction fuel as [| fuel IH]; intros i ret I; [reflexivity |]. cbn [powl_loop].
  destruct (Z.ltb_spec i e); [| unfold in_i32 in I; lia]. apply IH. apply wrap32_range.
Qed.

(** ** hex *)
Lemma hex_digit_dec b : 0 <= b <= 255 ->
  (digit 16 b (hex_digit_value (wrap8 b)) /\ is_hex_digit (wrap8 b) = 1) \/
  ((forall v, ~ digit 16 b v) /\ is_hex_digit (wrap8 b) = 0).
Proof.
  intros B. unfold digit. pose proof (wrap8_byte b B) as W.
  destruct (Z.leb_spec b 127) as [L | L].
  - replace (wrap8 b) with b by (symmetry; apply wrap8_id; unfold in_i8; lia).
    unfold hex_digit_value, is_hex_digit, flag01. rewrite !Z.geb_leb.
    destruct (Z.leb_spec 48 b); destruct (Z.leb_spec b 57); cbn [andb orb];
    destruct (Z.leb_spec 97 b); destruct (Z.leb_spec b 102); cbn [andb orb];
    destruct (Z.leb_spec 65 b); destruct (Z.leb_spec b 70); cbn [andb orb]; try lia;
      first [left; split; [lia | reflexivity] | right; split; [intros v; lia | reflexivity]].
  - right. split; [intros v; lia |].
    assert (E : wrap8 b = b - 256).
    { unfold wrap8, wrap. replace (b + 128) with (b - 128 + 1 * (2 * 128)) by lia.
      rewrite Z.mod_add by lia. rewrite Z.mod_small by lia. lia. }
    rewrite E. unfold is_hex_digit, flag01. rewrite !Z.geb_leb.
    destruct (Z.leb_spec 48 (b - 256)); [lia |]. destruct (Z.leb_spec 97 (b - 256)); [lia |]. destruct (Z.leb_spec 65 (b - 256)); [lia |].
    reflexivity.
Qed.

Lemma number_digits base ds m : number base ds m -> forall b, In b ds -> exists v, digit base b v.
Proof.
  induction 1 as [c v D | ds n c v N IH D]; intros b IN.
  - destruct IN as [<- | []]. eauto.
  - apply in_app_iff in IN as [IN | [<- | []]]; eauto.
Qed.

Lemma hex_loop_ok n s d v :
  is_string s -> Z.of_nat n <= zlen s -> zlen s <= 8 -> 0 <= d -> d + Z.of_nat n <= 8 ->
  (exists m, (n = O /\ m = 0 \/ number 16 (ztake (Z.of_nat n) s) m) /\
     hex_loop n s d (wrap32 v) = Ret (wrap32 (v + m * 16 ^ d))) \/
  ((exists b, In b (ztake (Z.of_nat n) s) /\ forall w, ~ digit 16 b w) /\ exists e, hex_loop n s d (wrap32 v) = Die e).
Proof.
  intros S. revert d v. induction n as [| n IH]; intros d v L L8 D DN.
  - left. exists 0. split; [left; auto |]. cbn [hex_loop]. f_equal. f_equal. lia.
  - cbn [hex_loop]. rewrite Nat2Z.inj_succ in *.
    destruct (znth_lt s (Z.of_nat n) ltac:(lia)) as (b & B).
    rewrite (char_at_ok _ _ _ B). cbn [obind].
    assert (BB : 0 <= b <= 255) by (destruct S as [F _]; rewrite Forall_forall in F; apply F, (znth_In _ _ _ B)).
    assert (TS : ztake (Z.succ (Z.of_nat n)) s = ztake (Z.of_nat n) s ++ [b]) by (apply ztake_snoc; auto).
    rewrite TS.
    destruct (hex_digit_dec b BB) as [[DV IH1] | [ND IH0]].
    + rewrite IH1. cbn [negb]. change (1 =? 0) with false. cbn [negb].
      pose proof (powi_ok 16 d) as P. destruct (powi 16 d) as [p | e | |]; try lia. destruct P as (_ & _ & ->). cbn [obind].
      rewrite wrap32_mul_r, wrap32_add_lr.
      set (h := hex_digit_value (wrap8 b)) in *.
      destruct (IH (d + 1) (v + h * 16 ^ d)) as [(m & M & E) | (X & e & E)]; try lia.
      * left. exists (m * 16 + h). split.
        -- right. destruct M as [[-> ->] | M].
           ++ change (ztake (Z.of_nat 0) s) with (@nil Z). cbn [app]. change (0 * 16 + h) with h. constructor. auto.
           ++ constructor; auto.
        -- rewrite E. f_equal. f_equal. replace (d + 1) with (Z.succ d) by lia. rewrite Z.pow_succ_r by lia. lia.
      * right. split; [| eauto]. destruct X as (c & IN & X). exists c. split; auto. apply in_app_iff. auto.
    + right. rewrite IH0. cbn [negb]. change (0 =? 0) with true. cbn [negb]. split; [| eauto].
      exists b. split; [apply in_app_iff; right; left; auto | auto].
Qed.
