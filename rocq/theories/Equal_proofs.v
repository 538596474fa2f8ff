(** * Proofs about comparators, equality checkers and Array->equals *)
From Verif Require TypeCache_proofs.
From Verif Require Import Base CLib Dec Array_model Array_proofs FnMem_model StrCmp_model Sort_spec Equal_model Equal_spec.
Local Open Scope Z_scope.

Lemma answers_iff (P Q : Prop) r : (P <-> Q) -> answers P r -> answers Q r.
Proof. intros E [[H ->] | [H ->]]; [left | right]; tauto. Qed.

Lemma answers_01 (P : Prop) r : r = 0 \/ r = 1 -> (r = 1 <-> P) -> answers P r.
Proof. intros [-> | ->] E; [right | left]; split; auto; [intros H; apply E in H; discriminate | apply E; auto]. Qed.

(** [Forall2] by positions. *)
Lemma forall2_znth {A} (E : A -> A -> Prop) (a b : list A) :
  Forall2 E a b <-> zlen a = zlen b /\ forall i x y, znth a i = Some x -> znth b i = Some y -> E x y.
Proof.
  revert b. induction a as [| x a IH]; intros [| y b]; split.
  - intros _. split; auto. intros i x y H. apply znth_Some in H. unfold zlen in H. cbn in H. lia.
  - constructor.
  - intros H. inversion H.
  - intros [H _]. unfold zlen in H. cbn in H. lia.
  - intros H. inversion H.
  - intros [H _]. unfold zlen in H. cbn in H. lia.
  - intros H. inversion H as [| ? ? ? ? H1 H2]; subst. apply IH in H2. destruct H2 as [L H2].
    split; [unfold zlen in *; cbn [length]; lia |]. intros i u v Hu Hv.
    destruct (Z.eq_dec i 0) as [-> | N].
    + cbn in Hu, Hv. inversion Hu; inversion Hv; subst; auto.
    + rewrite znth_cons in Hu, Hv. destruct (Z.eqb_spec i 0); [lia |]. eauto.
  - intros [L H]. constructor.
    + apply (H 0); auto.
    + apply IH. split; [unfold zlen in *; cbn [length] in L; lia |]. intros i u v Hu Hv.
      pose proof (znth_Some _ _ _ Hu). apply (H (i + 1)); rewrite znth_cons;
        (destruct (Z.eqb_spec (i + 1) 0); [lia |]); replace (i + 1 - 1) with i by lia; auto.
Qed.

Lemma equals_answers {A} (eqb : A -> A -> bool) (E : A -> A -> Prop) (a b : list A) :
  (forall x y, eqb x y = true <-> E x y) ->
  exists r, equals eqb (Some a) (Some b) = Ret r /\ answers (Forall2 E a b) r.
Proof.
  intros H. cbn [equals]. destruct (Z.eqb_spec (zlen a) (zlen b)) as [L | N].
  - zlen_facts. destruct (equals_loop_ok eqb a b (Z.to_nat (zlen a)) 0) as (r & Er & R & Q); try lia.
    exists r. split; auto. apply answers_01; auto. rewrite Q, forall2_znth. split.
    + intros K. split; auto. intros i x y Hx Hy. apply H. apply (K i); auto. apply znth_Some in Hx. lia.
    + intros [_ K] j x y _ Hx Hy. apply H. eauto.
  - exists 0. split; auto. right. split; auto. intros K. apply forall2_znth in K. tauto.
Qed.

Section Objects.
  Variables S R : Type.
  Variable checker : S -> option R -> option R -> S * outcome Z.
  Variable E : option R -> option R -> Prop.

  Lemma check_loop_ok a b n i s :
    (forall i s x y, znth a i = Some x -> znth b i = Some y ->
       exists s' r, checker s x y = (s', Ret r) /\ ((E x y /\ r <> 0) \/ (~ E x y /\ r = 0))) ->
    0 <= i -> i + Z.of_nat n = zlen a -> zlen a = zlen b ->
    exists s' r, check_loop S R checker a b n i s = (s', Ret r) /\
      answers (forall j x y, i <= j -> znth a j = Some x -> znth b j = Some y -> E x y) r.
  Proof.
    intros H. revert i s. induction n as [| n IH]; intros i s Hi L1 L2; cbn [check_loop].
    - exists s, 1. split; auto. left. split; auto. intros j x y Hj Hx. apply znth_Some in Hx. lia.
    - destruct (znth_lt a i) as [x Ex]; [lia |]. destruct (znth_lt b i) as [y Ey]; [lia |].
      unfold elem_get. rewrite Ex, Ey. destruct (H i s x y Ex Ey) as (s' & r & -> & Q).
      destruct Q as [[Q N] | [Q ->]].
      + destruct (Z.eqb_spec r 0); [contradiction |].
        destruct (IH (i + 1) s') as (s2 & r2 & -> & A); try lia. exists s2, r2. split; auto.
        eapply answers_iff; [| exact A]. split; intros K j u v Hj Hu Hv.
        * destruct (Z.eq_dec j i) as [-> |]; [congruence |]. apply (K j); auto. lia.
        * apply (K j); auto. lia.
      + cbn. exists s', 0. split; auto. right. split; auto. intros K. apply Q. apply (K i); auto. lia.
  Qed.

  Lemma equals_object_ok a b s :
    (forall i s x y, znth a i = Some x -> znth b i = Some y ->
       exists s' r, checker s x y = (s', Ret r) /\ ((E x y /\ r <> 0) \/ (~ E x y /\ r = 0))) ->
    forall same,
    exists s' r, equals_object S R same (Some a) (Some b) (Some checker) s = (s', Ret r) /\ answers (Forall2 E a b) r.
  Proof.
    intros H same. cbn [equals_object]. destruct (Z.eqb_spec (zlen a) (zlen b)) as [L | N].
    - zlen_facts. destruct (check_loop_ok a b (Z.to_nat (zlen a)) 0 s H) as (s' & r & Er & A); try lia.
      exists s', r. split; auto. eapply answers_iff; [| exact A]. rewrite forall2_znth. split.
      + intros K. split; auto. intros i x y Hx Hy. apply (K i); auto. apply znth_Some in Hx. lia.
      + intros [_ K] j x y _ Hx Hy. eauto.
    - exists s, 0. split; auto. right. split; auto. intros K. apply forall2_znth in K. tauto.
  Qed.
End Objects.

Lemma bytes_eqb_spec a b : Bool.reflect (a = b) (bytes_eqb a b).
Proof. unfold bytes_eqb. destruct (list_eq_dec Z.eq_dec a b); constructor; auto. Qed.

Lemma numbers_ok b1 b2 n :
  is_raw b1 = true -> is_raw b2 = true ->
  b_elem_size b1 = b_elem_size b2 -> b_length b1 = b_length b2 ->
  n = b_elem_size b1 * b_length b1 -> 0 <= n <= INT32_MAX -> zlen (b_data b1) = n -> zlen (b_data b2) = n ->
  fn_memcmp [b1; b2] (Some 0) 0 (Some 1) 0 n = Ret (memcmp (b_data b1) (b_data b2) n).
Proof.
  intros R1 R2 Es El En B L1 L2. unfold fn_memcmp.
  assert (G1 : forall e1 e2, get_raw [b1; b2] (Some 0) e1 e2 = Ret (0, b1))
    by (intros; unfold get_raw; change (znth [b1; b2] 0) with (Some b1); cbv beta iota; rewrite R1; reflexivity).
  assert (G2 : forall e1 e2, get_raw [b1; b2] (Some 1) e1 e2 = Ret (1, b2))
    by (intros; unfold get_raw; change (znth [b1; b2] 1) with (Some b2); cbv beta iota; rewrite R2; reflexivity).
  rewrite G1, obind_ret, G2, obind_ret. destruct (Z.geb_spec n 0); [| lia]. cbn [obind].
  unfold byte_length, c_mul, c_add. rewrite <- Es, <- El, <- En.
  destruct (Z.leb_spec INT32_MIN n); [| lia].
  destruct (Z.leb_spec n INT32_MAX); [| lia]. rewrite Z.add_0_l.
  destruct (Z.leb_spec INT32_MIN n); [| lia]. destruct (Z.leb_spec n INT32_MAX); [| lia].
  cbn [andb]. rewrite !obind_ret, !Z.leb_refl. cbn [obind].
  rewrite L1, L2. cbn. rewrite !Z.leb_refl. reflexivity.
Qed.

(** ** The text of a point *)
Lemma digits_cut a b c d x y : Forall is_digit a -> Forall is_digit b -> ~ is_digit c -> ~ is_digit d ->
  a ++ c :: x = b ++ d :: y -> a = b /\ c = d /\ x = y.
Proof.
  intros A B C D. revert b A B. induction a as [| u a IH]; intros [| v b] A B E; cbn in E.
  - injection E as -> ->. auto.
  - injection E as E1 E2. inversion B; subst. contradiction.
  - injection E as E1 E2. inversion A; subst. contradiction.
  - injection E as -> E. inversion A; inversion B; subst. destruct (IH b) as (-> & -> & ->); auto.
Qed.

Lemma dec_cut a b c d x y : ~ is_digit c -> ~ is_digit d ->
  print_dec a ++ c :: x = print_dec b ++ d :: y -> a = b /\ c = d /\ x = y.
Proof.
  unfold print_dec. intros C D E.
  destruct (Z.ltb_spec a 0); destruct (Z.ltb_spec b 0).
  - cbn in E. injection E as E. apply digits_cut in E; auto; try apply udec_spec; try lia.
    destruct E as (E & E' & ->). apply TypeCache_proofs.udec_inj in E; [split; [lia | auto] | lia | lia].
  - destruct (TypeCache_proofs.udec_head b (d :: y) ltac:(lia)) as (u & r & Q & N). rewrite Q in E. cbn in E. congruence.
  - destruct (TypeCache_proofs.udec_head a (c :: x) ltac:(lia)) as (u & r & Q & N). rewrite Q in E. cbn in E. congruence.
  - apply digits_cut in E; auto; try apply udec_spec; try lia.
    destruct E as (E & E' & ->). apply TypeCache_proofs.udec_inj in E; auto.
Qed.

Lemma to_string_inj p q : to_string p = to_string q -> p = q.
Proof.
  destruct p as [x y z], q as [x' y' z']. unfold to_string. cbn [p_x p_y p_z].
  assert (C : ~ is_digit 44) by (unfold is_digit; lia). assert (D : ~ is_digit 41) by (unfold is_digit; lia).
  change (bytes "(") with [40]. change (bytes ",") with [44]. change (bytes ")") with [41].
  destruct z as [z |], z' as [z' |]; intros E; injection E as E; apply dec_cut in E; auto;
    destruct E as (-> & _ & E); apply dec_cut in E; auto; destruct E as (-> & K & E); try discriminate; auto.
  apply dec_cut in E; auto. destruct E as (-> & _). reflexivity.
Qed.
