(** * String comparison: C17 *)

From Verif Require Import Base CLib StrCmp_model StrCmp_spec.

Lemma before_bytes_cons x a b : before_bytes a b -> before_bytes (x :: a) (x :: b).
Proof.
  intros [p y r E1 E2 | p u v r r' E1 E2 L]; subst.
  - eapply (Prefix _ _ (x :: p)); reflexivity.
  - eapply (Smaller _ _ (x :: p)); try reflexivity; auto.
Qed.

Lemma before_bytes_cons_inv x y a b : before_bytes (x :: a) (y :: b) ->
  x < y \/ (x = y /\ before_bytes a b).
Proof.
  intros [p v r E1 E2 | p u v r r' E1 E2 L].
  - subst p. cbn in E2. injection E2 as -> ->. right. split; [reflexivity |].
    eapply Prefix; reflexivity.
  - destruct p as [| z p]; cbn in *.
    + injection E1 as -> _. injection E2 as -> _. auto.
    + injection E1 as -> ->. injection E2 as -> ->. right. split; [reflexivity |].
      eapply Smaller; eauto.
Qed.

Lemma before_bytes_irrefl a : ~ before_bytes a a.
Proof.
  induction a as [| x a IH]; intros H.
  - destruct H as [p y r E1 E2 | p x y r r' E1 E2 L].
    + destruct p; discriminate.
    + destruct p; discriminate.
  - apply before_bytes_cons_inv in H. destruct H as [H | (_ & H)]; [lia | auto].
Qed.

Lemma before_bytes_nil_r a : ~ before_bytes a [].
Proof.
  intros [p y r E1 E2 | p x y r r' E1 E2 L]; destruct p; discriminate.
Qed.

Lemma before_bytes_trans a : forall b c, before_bytes a b -> before_bytes b c -> before_bytes a c.
Proof.
  induction a as [| x a IH]; intros b c H1 H2.
  - destruct c as [| z c]; [exfalso; eapply before_bytes_nil_r; eauto |].
    eapply (Prefix _ _ []); reflexivity.
  - destruct b as [| y b]; [exfalso; eapply before_bytes_nil_r; eauto |].
    destruct c as [| z c]; [exfalso; eapply before_bytes_nil_r; eauto |].
    apply before_bytes_cons_inv in H1. apply before_bytes_cons_inv in H2.
    destruct H1 as [L1 | (-> & H1)], H2 as [L2 | (-> & H2)].
    + eapply (Smaller _ _ []); try reflexivity; lia.
    + eapply (Smaller _ _ []); try reflexivity; lia.
    + eapply (Smaller _ _ []); try reflexivity; lia.
    + apply before_bytes_cons. eauto.
Qed.

(** The comparison loop against the order. *)
Definition bytes_compare (a b : list Z) : Z := string_cmp (Some a) (Some b).

Lemma zmin_if x y : (if x <? y then x else y) = Z.min x y.
Proof. destruct (Z.ltb_spec x y); lia. Qed.

Lemma memcmp_cons x y a b n : 0 <= n ->
  memcmp (x :: a) (y :: b) (1 + n) = if x <? y then -1 else if y <? x then 1 else memcmp a b n.
Proof.
  intros N. unfold memcmp, ztake. replace (Z.to_nat (1 + n)) with (S (Z.to_nat n)) by lia.
  reflexivity.
Qed.

Lemma bytes_compare_cons x y a b : bytes_compare (x :: a) (y :: b) =
  if x <? y then -1 else if y <? x then 1 else bytes_compare a b.
Proof.
  unfold bytes_compare, string_cmp. rewrite !zlen_cons, !zmin_if.
  replace (Z.min (1 + zlen a) (1 + zlen b)) with (1 + Z.min (zlen a) (zlen b)) by lia.
  pose proof (zlen_nonneg a). pose proof (zlen_nonneg b).
  rewrite memcmp_cons by lia.
  destruct (Z.ltb_spec x y); [reflexivity |].
  destruct (Z.ltb_spec y x); [reflexivity |].
  replace (1 + zlen a =? 1 + zlen b) with (zlen a =? zlen b) by lia.
  replace (1 + zlen a <? 1 + zlen b) with (zlen a <? zlen b) by lia.
  reflexivity.
Qed.

Lemma bytes_compare_spec a : forall b,
  (bytes_compare a b = 0 /\ a = b) \/
  (bytes_compare a b = -1 /\ before_bytes a b) \/
  (bytes_compare a b = 1 /\ before_bytes b a).
Proof.
  induction a as [| x a IH]; intros [| y b].
  - left. split; reflexivity.
  - right; left. split; [| eapply (Prefix _ _ []); reflexivity].
    unfold bytes_compare, string_cmp. rewrite zlen_cons.
    change (zlen (@nil Z)) with 0. pose proof (zlen_nonneg b).
    rewrite (proj2 (Z.ltb_lt 0 (1 + zlen b))) by lia.
    destruct (Z.eqb_spec 0 (1 + zlen b)); [lia | reflexivity].
  - right; right. split; [| eapply (Prefix _ _ []); reflexivity].
    unfold bytes_compare, string_cmp. rewrite zlen_cons.
    change (zlen (@nil Z)) with 0. pose proof (zlen_nonneg a).
    destruct (Z.ltb_spec (1 + zlen a) 0); [lia |].
    destruct (Z.eqb_spec (1 + zlen a) 0); [lia | reflexivity].
  - rewrite bytes_compare_cons.
    destruct (Z.ltb_spec x y).
    { right; left. split; [reflexivity |]. eapply (Smaller _ _ []); try reflexivity; lia. }
    destruct (Z.ltb_spec y x).
    { right; right. split; [reflexivity |]. eapply (Smaller _ _ []); try reflexivity; lia. }
    assert (x = y) by lia. subst y.
    destruct (IH b) as [(E & ->) | [(E & B) | (E & B)]]; rewrite E; auto using before_bytes_cons.
Qed.

Lemma string_cmp_spec s1 s2 :
  (string_cmp s1 s2 = 0 /\ s1 = s2) \/
  (string_cmp s1 s2 = -1 /\ before s1 s2) \/
  (string_cmp s1 s2 = 1 /\ before s2 s1).
Proof.
  destruct s1 as [a |], s2 as [b |]; cbn [string_cmp].
  - destruct (bytes_compare_spec a b) as [(E & ->) | [(E & B) | (E & B)]];
      unfold bytes_compare, string_cmp in E; rewrite E; auto using Bytes.
  - right; right. auto using UndefFirst.
  - right; left. auto using UndefFirst.
  - left; auto.
Qed.

Lemma before_irrefl s : ~ before s s.
Proof. intros H. inversion H; subst. eapply before_bytes_irrefl; eauto. Qed.

Lemma before_trans s1 s2 s3 : before s1 s2 -> before s2 s3 -> before s1 s3.
Proof.
  intros H1 H2. inversion H1; subst; inversion H2; subst.
  - apply UndefFirst.
  - apply Bytes. eapply before_bytes_trans; eauto.
Qed.

(** ** C17: the order is a strict total order ... *)
Theorem C17_total_order :
  (forall s, ~ before s s) /\
  (forall s1 s2 s3, before s1 s2 -> before s2 s3 -> before s1 s3) /\
  (forall s1 s2, before s1 s2 \/ s1 = s2 \/ before s2 s1).
Proof.
  split; [exact before_irrefl |]. split; [exact before_trans |].
  intros s1 s2. destruct (string_cmp_spec s1 s2) as [(_ & ->) | [(_ & B) | (_ & B)]]; auto.
Qed.

(** ... and every comparison operator agrees with it. *)
Theorem C17_operators_agree : forall s1 s2,
  flag (s1 = s2) (string_comparison EQ s1 s2) /\
  flag (s1 <> s2) (string_comparison NE s1 s2) /\
  flag (before s1 s2) (string_comparison LT s1 s2) /\
  flag (before s1 s2 \/ s1 = s2) (string_comparison LE s1 s2) /\
  flag (before s2 s1) (string_comparison GT s1 s2) /\
  flag (before s2 s1 \/ s1 = s2) (string_comparison GE s1 s2) /\
  (string_comparison CMP s1 s2 = -1 <-> before s1 s2) /\
  (string_comparison CMP s1 s2 = 0 <-> s1 = s2) /\
  (string_comparison CMP s1 s2 = 1 <-> before s2 s1).
Proof.
  intros s1 s2. unfold string_comparison, flag, b2z.
  assert (A : forall s s', before s s' -> ~ before s' s) by
    (intros s s' H H'; eapply before_irrefl, before_trans; eauto).
  destruct (string_cmp_spec s1 s2) as [(E & ->) | [(E & B) | (E & B)]]; rewrite E; cbn.
  - pose proof (before_irrefl s2). intuition congruence.
  - assert (s1 <> s2) by (intros ->; eapply before_irrefl; eauto).
    pose proof (A _ _ B). intuition congruence.
  - assert (s1 <> s2) by (intros ->; eapply before_irrefl; eauto).
    pose proof (A _ _ B). intuition congruence.
Qed.

Example C17_example :
  string_comparison CMP (Some (bytes "ab")) (Some (bytes "abc")) = -1 /\
  string_comparison LT None (Some []) = 1 /\
  string_comparison GT (Some [255]) (Some [1; 2; 3]) = 1 /\
  string_comparison EQ (Some [97; 0; 98]) (Some [97; 0; 99]) = 0 /\
  before (Some (bytes "abc")) (Some (bytes "abd")).
Proof.
  repeat split; try reflexivity. apply Bytes.
  apply (Smaller _ _ (bytes "ab") 99 100 [] []); reflexivity.
Qed.

Print Assumptions C17_total_order.
Print Assumptions C17_operators_agree.
