(** * C33, C34: Sort *)
From Coq Require Import Permutation.
From Verif Require Import Base Sort_model Sort_spec Sort_proofs.

(** C33. For every element type, every comparator (stateful, inconsistent,
    throwing) and every range that ends at or before index 2^30: whatever the
    outcome, the array has only been permuted inside the range; and the only
    exceptions are the comparator's own. *)
Theorem C33_permutes_only_the_range :
  forall (A S : Type) (cmp : S -> A -> A -> S * outcome Z) (zero : A) (fuel : nat)
         (s : S) (a : list A) (offset length off len : Z),
    (30 < fuel)%nat ->
    sort_range (zlen a) offset length = (off, len) ->
    0 <= off -> 0 <= len -> off + len <= zlen a -> zlen a <= INT32_MAX ->
    off + len <= 1073741824 ->
    exists s' a' o, sort cmp zero fuel s (Some a) true offset length = (s', Some a', o) /\
      permutes_range a a' off len /\
      (o = Ret tt \/ cmp_failure cmp o).
Proof.
  intros A S cmp zero fuel s a offset length off len F R O L B La Bd.
  inversion R; subst.
  destruct (sort_spec cmp zero fuel s a off length F O L B La Bd) as (s' & a' & o & E & P & Q).
  exists s', a', o. split; auto. split; auto. destruct o as [[] | | |]; auto.
Qed.

(** Every other call throws and leaves the array as it was. *)
Theorem C33_bad_arguments :
  forall (A S : Type) (cmp : S -> A -> A -> S * outcome Z) (zero : A) (fuel : nat)
         (s : S) (array : option (list A)) (has_comparator : bool) (offset length : Z),
    in_i32 offset -> in_i32 length ->
    (array = None \/ has_comparator = false \/ offset < 0 \/
     exists a off len, array = Some a /\ zlen a <= INT32_MAX /\
       sort_range (zlen a) offset length = (off, len) /\ off + len <= INT32_MAX /\
       (len < 0 \/ zlen a < off + len)) ->
    exists e, sort cmp zero fuel s array has_comparator offset length = (s, array, Die e).
Proof.
  intros A S cmp zero fuel s array hc offset length IO IL H. unfold in_i32 in *. unfold sort.
  destruct array as [a |]; [| eauto]. destruct hc; cbn [negb]; [| eauto].
  destruct (Z.geb_spec offset 0); cbn [negb]; [| eauto].
  destruct H as [H | [H | [H | (a' & off & len & H & La & R & B & D)]]]; try discriminate; try lia.
  inversion H; subst. inversion R; subst. zlen_facts.
  destruct (Z.ltb_spec length 0).
  - rewrite (wrap32_id (zlen a' - off)) by (unfold in_i32; lia).
    rewrite wrap32_id by (unfold in_i32; lia).
    destruct (Z.leb_spec (off + (zlen a' - off)) (zlen a')); cbn [negb]; [| eauto].
    destruct (Z.eqb_spec (zlen a' - off) 0); [lia |].
    destruct (Z.ltb_spec (zlen a' - off) 0); [eauto | lia].
  - rewrite wrap32_id by (unfold in_i32; lia).
    destruct (Z.leb_spec (off + length) (zlen a')); cbn [negb]; [lia | eauto].
Qed.

(** The range test adds in 32 bits: a range far outside the array is accepted
    silently (nothing is sorted, nothing is thrown). *)
Theorem C33_overflowing_range_refuted :
  exists (a : list Z) (offset length : Z),
    in_i32 offset /\ in_i32 length /\ zlen a < offset + length /\
    sort asc_cmp 0 1 tt (Some a) true offset length = (tt, Some a, Ret tt).
Proof.
  exists [2; 1], 2147483647, 2147483647. unfold in_i32.
  repeat split; try lia.
Qed.

(** A valid two-element range above index 2^30 cannot be sorted: the midpoint
    computation overflows and the call fails whatever the comparator. *)
Theorem C33_large_range_refuted :
  forall (A S : Type) (cmp : S -> A -> A -> S * outcome Z) (zero : A) (fuel : nat) (s : S)
         (a : list A),
    1073741826 <= zlen a <= INT32_MAX ->
    is_ret (snd (sort cmp zero fuel s (Some a) true 1073741824 2)) = false.
Proof. intros. apply large_range; auto. Qed.

(** C34. With a comparator that answers like a total preorder, the call
    returns, the range is in order, and elements that compare equal keep their
    order. *)
Theorem C34_sorted_and_stable :
  forall (A S : Type) (cmp : S -> A -> A -> S * outcome Z) (zero : A) (fuel : nat)
         (s : S) (a : list A) (offset length off len : Z) (c : A -> A -> Z),
    (30 < fuel)%nat ->
    (forall s x y, snd (cmp s x y) = Ret (c x y)) -> total_preorder c ->
    sort_range (zlen a) offset length = (off, len) ->
    0 <= off -> 0 <= len -> off + len <= zlen a -> zlen a <= INT32_MAX ->
    off + len <= 1073741824 ->
    exists s' a', sort cmp zero fuel s (Some a) true offset length = (s', Some a', Ret tt) /\
      permutes_range a a' off len /\
      in_order c (zsub a' off len) /\
      stable c (zsub a off len) (zsub a' off len).
Proof.
  intros A S cmp zero fuel s a offset length off len c F Pc Tc R O L B La Bd.
  inversion R; subst.
  destruct (sort_spec cmp zero fuel s a off length F O L B La Bd) as (s' & a' & o & E & P & Q).
  destruct o as [[] | e | |].
  - exists s', a'. split; auto. split; auto. destruct (Q c Pc Tc) as [Q1 Q2]. split; auto.
    apply strongly_sorted_in_order; auto.
  - destruct Q as (s0 & x & y & Q). rewrite Pc in Q. contradiction.
  - destruct Q as (s0 & x & y & Q). rewrite Pc in Q. contradiction.
  - destruct Q as (s0 & x & y & Q). rewrite Pc in Q. contradiction.
Qed.

(** The built-in numeric orders of sort_int_asc/desc (and byte, short, long). *)
Theorem C34_int_asc_desc :
  forall (fuel : nat) (a : list Z),
    (30 < fuel)%nat -> zlen a <= 1073741824 ->
    exists up down,
      sort asc_cmp 0 fuel tt (Some a) true 0 (-1) = (tt, Some up, Ret tt) /\
      sort desc_cmp 0 fuel tt (Some a) true 0 (-1) = (tt, Some down, Ret tt) /\
      Permutation a up /\ Permutation a down /\
      (forall i j x y, i < j -> znth up i = Some x -> znth up j = Some y -> x <= y) /\
      (forall i j x y, i < j -> znth down i = Some x -> znth down j = Some y -> y <= x).
Proof.
  intros fuel a F La. pose proof (zlen_nonneg a).
  assert (PR : forall a' n, permutes_range a a' 0 n -> n = zlen a -> Permutation a a').
  { intros a' n (pre & seg & seg' & post & E1 & E2 & L1 & L2 & P) ->.
    apply zlen_0_nil in L1. subst pre. cbn in E1, E2. rewrite E1, zlen_app in L2.
    assert (post = []) as -> by (apply zlen_0_nil; pose proof (zlen_nonneg seg); lia).
    rewrite !app_nil_r in *. subst. auto. }
  assert (W : forall (l : list Z) n, n = zlen l -> zsub l 0 n = l).
  { intros l n ->. unfold zsub. cbn. apply ztake_all. lia. }
  assert (LP : forall a' : list Z, Permutation a a' -> zlen a' = zlen a).
  { intros a' P. unfold zlen. rewrite (Permutation_length P). auto. }
  destruct (C34_sorted_and_stable Z unit asc_cmp 0 fuel tt a 0 (-1) 0 (zlen a - 0) int_cmp)
    as ([] & up & E1 & P1 & I1 & _); auto; try lia.
  { split; unfold int_cmp; intros.
    - destruct (Z.gtb_spec x y), (Z.ltb_spec x y), (Z.gtb_spec y x), (Z.ltb_spec y x); lia.
    - destruct (Z.gtb_spec x y), (Z.ltb_spec x y), (Z.gtb_spec y z), (Z.ltb_spec y z),
        (Z.gtb_spec x z), (Z.ltb_spec x z); lia. }
  destruct (C34_sorted_and_stable Z unit desc_cmp 0 fuel tt a 0 (-1) 0 (zlen a - 0)
    (fun x y => int_cmp y x)) as ([] & down & E2 & P2 & I2 & _); auto; try lia.
  { split; unfold int_cmp; intros.
    - destruct (Z.gtb_spec x y), (Z.ltb_spec x y), (Z.gtb_spec y x), (Z.ltb_spec y x); lia.
    - destruct (Z.gtb_spec y x), (Z.ltb_spec y x), (Z.gtb_spec z y), (Z.ltb_spec z y),
        (Z.gtb_spec z x), (Z.ltb_spec z x); lia. }
  apply PR in P1; [| lia]. apply PR in P2; [| lia].
  rewrite W in I1 by (rewrite (LP _ P1); lia). rewrite W in I2 by (rewrite (LP _ P2); lia).
  exists up, down. repeat (split; auto).
  - intros i j x y D Hx Hy. specialize (I1 i j x y D Hx Hy). unfold int_cmp in I1.
    destruct (Z.gtb_spec x y); lia.
  - intros i j x y D Hx Hy. specialize (I2 i j x y D Hx Hy). cbn in I2. unfold int_cmp in I2.
    destruct (Z.gtb_spec y x); lia.
Qed.

(** Non-vacuity: a stable sort by tens of a sub-range, and a comparator that
    throws at its third call. *)
Definition tens (x y : Z) : Z := int_cmp (x / 10) (y / 10).
Example C34_example :
  sort (fun s x y => (s, Ret (tens x y))) 0 31 tt (Some [99; 32; 18; 35; 11; 1]) true 1 4
  = (tt, Some [99; 18; 11; 32; 35; 1], Ret tt) /\ total_preorder tens.
Proof.
  split; [vm_compute; reflexivity |]. split; unfold tens, int_cmp; intros.
  - destruct (Z.gtb_spec (x / 10) (y / 10)), (Z.ltb_spec (x / 10) (y / 10)),
      (Z.gtb_spec (y / 10) (x / 10)), (Z.ltb_spec (y / 10) (x / 10)); lia.
  - destruct (Z.gtb_spec (x / 10) (y / 10)), (Z.ltb_spec (x / 10) (y / 10)),
      (Z.gtb_spec (y / 10) (z / 10)), (Z.ltb_spec (y / 10) (z / 10)),
      (Z.gtb_spec (x / 10) (z / 10)), (Z.ltb_spec (x / 10) (z / 10)); lia.
Qed.

Definition third_throws (n x y : Z) : Z * outcome Z :=
  (n + 1, if n =? 2 then Die "no" else Ret (int_cmp x y)).
Example C33_example :
  sort third_throws 0 31 0 (Some [4; 3; 2; 1]) true 0 (-1) = (3, Some [3; 4; 1; 2], Die "no").
Proof. vm_compute. reflexivity. Qed.

Print Assumptions C33_permutes_only_the_range.
Print Assumptions C33_bad_arguments.
Print Assumptions C33_overflowing_range_refuted.
Print Assumptions C33_large_range_refuted.
Print Assumptions C34_sorted_and_stable.
Print Assumptions C34_int_asc_desc.
