(** * C38, C43, C44: typed array copies, array utilities, random numbers *)
From Coq Require Import Permutation.
From Verif Require Import Base Array_model Array_spec Array_proofs.

(** ** C38 *)

(** memcpy_T: for every element type, all arrays and all int arguments whose
    range ends do not exceed the largest int.  A bad range throws; a good one
    copies exactly the range.  Overlap inside one array is excluded, as
    documented.  (The native code accepts every pair of non-negative offsets
    when the length is 0.) *)
Theorem C38_memcpy_exact :
  forall (A : Type) (same : bool) (d s : list A) (doff soff len : Z),
    zlen d <= INT32_MAX -> zlen s <= INT32_MAX ->
    doff + len <= INT32_MAX -> soff + len <= INT32_MAX ->
    (same = true -> s = d /\ (doff + len <= soff \/ soff + len <= doff)) ->
    (bad_copy d doff s soff len /\ ~ (len = 0 /\ 0 <= doff /\ 0 <= soff) ->
       exists e, memcpy same (Some d) doff (Some s) soff len = Die e) /\
    (~ bad_copy d doff s soff len \/ (len = 0 /\ 0 <= doff /\ 0 <= soff) ->
       exists d', memcpy same (Some d) doff (Some s) soff len = Ret d' /\
                  copied d doff s soff len d').
Proof.
  intros A same d s doff soff len Ld Ls Bd Bs Al. split.
  - intros [B NZ]. apply copy_checks_die; auto.
  - intros [NB | (-> & Hd & Hs)].
    + unfold bad_copy in NB. unfold memcpy. rewrite copy_checks_good by lia.
      destruct (Z.eqb_spec len 0) as [-> |]; [exists d; split; [reflexivity | apply copied_nil] |].
      replace (same && overlap doff soff len) with false.
      * eexists. split; [reflexivity | apply blit_copied; lia].
      * destruct same; auto. destruct (Al eq_refl) as [_ D]. unfold overlap. cbn [andb].
        destruct (Z.ltb_spec doff (soff + len)); destruct (Z.ltb_spec soff (doff + len)); auto; lia.
    + exists d. split; [| apply copied_nil]. unfold memcpy, copy_checks.
      change (0 >=? 0) with true. change (0 =? 0) with true.
      destruct (Z.geb_spec doff 0); [| lia]. destruct (Z.geb_spec soff 0); [| lia]. reflexivity.
Qed.

(** memmove_T: the same without the restriction on overlap; [copied] speaks
    about the source as it was before the call. *)
Theorem C38_memmove_exact :
  forall (A : Type) (d s : list A) (doff soff len : Z),
    zlen d <= INT32_MAX -> zlen s <= INT32_MAX ->
    doff + len <= INT32_MAX -> soff + len <= INT32_MAX ->
    (bad_copy d doff s soff len /\ ~ (len = 0 /\ 0 <= doff /\ 0 <= soff) ->
       exists e, memmove (Some d) doff (Some s) soff len = Die e) /\
    (~ bad_copy d doff s soff len \/ (len = 0 /\ 0 <= doff /\ 0 <= soff) ->
       exists d', memmove (Some d) doff (Some s) soff len = Ret d' /\
                  copied d doff s soff len d').
Proof.
  intros A d s doff soff len Ld Ls Bd Bs. split.
  - intros [B NZ]. apply copy_checks_die; auto.
  - intros [NB | (-> & Hd & Hs)].
    + unfold bad_copy in NB. unfold memmove. rewrite copy_checks_good by lia.
      destruct (Z.eqb_spec len 0) as [-> |]; [exists d; split; [reflexivity | apply copied_nil] |].
      eexists. split; [reflexivity | apply blit_copied; lia].
    + exists d. split; [| apply copied_nil]. unfold memmove, copy_checks.
      change (0 >=? 0) with true. change (0 =? 0) with true.
      destruct (Z.geb_spec doff 0); [| lia]. destruct (Z.geb_spec soff 0); [| lia]. reflexivity.
Qed.

(** Undefined arrays throw. *)
Theorem C38_undefined_arrays :
  forall (A : Type) (same : bool) (d s : option (list A)) (doff soff len : Z),
    d = None \/ s = None ->
    (exists e, memcpy same d doff s soff len = Die e) /\ (exists e, memmove d doff s soff len = Die e).
Proof.
  intros A same [d |] [s |] doff soff len [H | H]; try discriminate; unfold memcpy, memmove; cbn; eauto.
Qed.

(** The range test adds in 32 bits: there are calls on one-element arrays that
    are not rejected and leave the arrays (undefined behaviour). *)
Theorem C38_overflowing_range_refuted :
  exists (d s : list Z) (doff soff len : Z),
    in_i32 doff /\ in_i32 soff /\ in_i32 len /\ bad_copy d doff s soff len /\
    memcpy false (Some d) doff (Some s) soff len = UB /\
    memmove (Some d) doff (Some s) soff len = UB.
Proof.
  exists [1], [2], 1, 1, INT32_MAX. unfold in_i32, bad_copy.
  repeat split; try lia; try reflexivity. right. right. right. left. reflexivity.
Qed.

(** memcpy_object_address and memmove_object_address, on all arguments: the
    call returns or throws, the array keeps its length, and no element outside
    the range is touched, even when an element is rejected half way or a sum
    overflows. *)
Theorem C38_object_copy_frame :
  forall (A : Type) (accepts : A -> bool) (same : bool) (d s d' : list A) (doff soff len : Z)
         (o : outcome unit),
    in_i32 doff -> in_i32 soff -> in_i32 len -> zlen d <= INT32_MAX ->
    memcpy_object_address accepts same d doff s soff len = (d', o) \/
    memmove_object_address accepts same d doff s soff len = (d', o) ->
    zlen d' = zlen d /\ (o = Ret tt \/ exists e, o = Die e) /\
    forall p, p < doff \/ doff + len <= p -> znth d' p = znth d p.
Proof.
  unfold in_i32. intros A accepts same d s d' doff soff len o Hd Hs Hl Ld H.
  unfold memcpy_object_address, memmove_object_address in H.
  destruct (object_copy_checks d doff s soff len) as [e |] eqn:C.
  { destruct H as [H | H]; inversion H; subst; eauto. }
  apply object_copy_checks_nonneg in C.
  assert (U : copy_loop accepts same s doff soff (Z.to_nat len) 0 1 d = (d', o) ->
              zlen d' = zlen d /\ (o = Ret tt \/ exists e, o = Die e) /\
              forall p, p < doff \/ doff + len <= p -> znth d' p = znth d p).
  { intros E. eapply copy_up_frame in E; try lia. destruct E as (L & O & N).
    split; [auto |]. split; [auto |]. intros p Hp. apply N. lia. }
  destruct H as [H | H]; [auto |].
  destruct (doff <? soff); [auto |].
  eapply copy_down_frame in H; try lia. destruct H as (L & O & N).
  split; [auto |]. split; [auto |]. intros p Hp. apply N. lia.
Qed.

(** On good ranges with acceptable elements they copy exactly, memmove also
    when the ranges overlap; bad ranges throw and change nothing. *)
Theorem C38_object_copy_exact :
  forall (A : Type) (accepts : A -> bool) (same : bool) (d s : list A) (doff soff len : Z),
    in_i32 doff -> in_i32 soff -> in_i32 len ->
    zlen d <= INT32_MAX -> zlen s <= INT32_MAX ->
    doff + len <= INT32_MAX -> soff + len <= INT32_MAX ->
    (same = true -> s = d) ->
    (bad_copy d doff s soff len ->
       (exists e, memcpy_object_address accepts same d doff s soff len = (d, Die e)) /\
       (exists e, memmove_object_address accepts same d doff s soff len = (d, Die e))) /\
    (~ bad_copy d doff s soff len ->
     (forall j x, soff <= j < soff + len -> znth s j = Some x -> accepts x = true) ->
       (exists d', memmove_object_address accepts same d doff s soff len = (d', Ret tt) /\
                   copied d doff s soff len d') /\
       (same = false \/ doff + len <= soff \/ soff + len <= doff ->
        exists d', memcpy_object_address accepts same d doff s soff len = (d', Ret tt) /\
                   copied d doff s soff len d')).
Proof.
  intros A accepts same d s doff soff len Hd Hs Hl Ld Ls Bd Bs Al. split.
  - intros B. destruct (object_copy_checks_bad d doff s soff len) as [e E]; auto.
    unfold memcpy_object_address, memmove_object_address. rewrite E. eauto.
  - intros NB Acc. split.
    + apply memmove_object_ok; auto.
    + intros D. apply memcpy_object_ok; auto. intros S. split; auto.
      unfold bad_copy in NB. destruct D as [D | [D | D]]; [congruence | lia | lia].
Qed.

(** memset: a good range is filled, a bad one throws and changes nothing, and
    in no case is an element outside the range touched. *)
Theorem C38_memset_exact :
  forall (A : Type) (a : list A) (x : A) (offset length len : Z),
    in_i32 offset -> in_i32 length -> zlen a <= INT32_MAX ->
    range_length (zlen a) offset length = len -> offset + len <= INT32_MAX ->
    (offset < 0 \/ zlen a < offset + len ->
       exists e, memset (fun _ => true) a x offset length = (a, Die e)) /\
    (0 <= offset -> offset + len <= zlen a ->
       exists a', memset (fun _ => true) a x offset length = (a', Ret tt) /\ zlen a' = zlen a /\
         forall i, znth a' i = if (offset <=? i) && (i <? offset + len) then Some x else znth a i).
Proof.
  unfold in_i32, range_length. intros A a x offset length len Ho Hl La R B. zlen_facts.
  assert (E : 0 <= offset -> (if length <? 0 then wrap32 (zlen a - offset) else length) = len).
  { intros. destruct (Z.ltb_spec length 0); [rewrite wrap32_id by (unfold in_i32; lia) |]; auto. }
  split.
  - intros D. unfold memset. destruct (Z.geb_spec offset 0); cbn [negb]; [| eauto].
    cbv zeta. rewrite E by lia.
    rewrite wrap32_id by (unfold in_i32; destruct (Z.ltb_spec length 0); lia).
    destruct (Z.leb_spec (offset + len) (zlen a)); cbn [negb]; [lia | eauto].
  - intros Ho0 Bl. unfold memset. destruct (Z.geb_spec offset 0); [| lia]. cbn [negb].
    cbv zeta. rewrite E by lia.
    rewrite wrap32_id by (unfold in_i32; destruct (Z.ltb_spec length 0); lia).
    destruct (Z.leb_spec (offset + len) (zlen a)); [| lia]. cbn [negb].
    destruct (Z_le_gt_dec 0 len).
    + destruct (set_loop_ok (fun _ => true) x offset (Z.to_nat len) 0 a) as (a' & E' & L & N);
        try lia; auto.
      exists a'. split; [exact E' |]. split; [auto |]. intros i. rewrite N.
      replace (offset + 0) with offset by lia. rewrite Z2Nat.id by lia. reflexivity.
    + replace (Z.to_nat len) with 0%nat by lia. exists a. split; [reflexivity |]. split; auto.
      intros i. destruct (Z.leb_spec offset i); destruct (Z.ltb_spec i (offset + len)); auto; lia.
Qed.

Theorem C38_memset_frame :
  forall (A : Type) (accepts : A -> bool) (a a' : list A) (x : A) (offset length len : Z)
         (o : outcome unit),
    in_i32 offset -> in_i32 length -> zlen a <= INT32_MAX ->
    range_length (zlen a) offset length = len ->
    memset accepts a x offset length = (a', o) ->
    zlen a' = zlen a /\ (o = Ret tt \/ exists e, o = Die e) /\
    forall p, p < offset \/ offset + len <= p -> znth a' p = znth a p.
Proof.
  unfold in_i32, range_length. intros A accepts a a' x offset length len o Ho Hl La R E. zlen_facts.
  unfold memset in E. destruct (Z.geb_spec offset 0); cbn [negb] in E; [| inversion E; subst; eauto].
  assert (EL : (if length <? 0 then wrap32 (zlen a - offset) else length) = len).
  { destruct (Z.ltb_spec length 0); [rewrite wrap32_id by (unfold in_i32; lia) |]; auto. }
  cbv zeta in E. rewrite EL in E.
  destruct (negb (wrap32 (offset + len) <=? zlen a)); [inversion E; subst; eauto |].
  destruct (Z_le_gt_dec 0 len).
  - eapply set_loop_frame in E; try lia. destruct E as (L & O & N).
    split; [auto |]. split; [auto |]. intros p Hp. apply N. lia.
  - replace (Z.to_nat len) with 0%nat in E by lia. inversion E; subst. auto.
Qed.

(** "Throws leaving the destination unchanged" fails for the SPVM-level loops
    when the sum overflows: the range is accepted, written up to the end of the
    array, and only then does an exception arrive. *)
Theorem C38_partial_write_refuted :
  exists (d s d1 d2 : list Z) (e1 e2 : string) (off len : Z),
    in_i32 off /\ in_i32 len /\ zlen d < off + len /\
    memset (fun _ => true) d 9 off len = (d1, Die e1) /\ d1 <> d /\
    memcpy_object_address (fun _ => true) false d off s off len = (d2, Die e2) /\ d2 <> d.
Proof.
  exists [1; 2; 3], [4; 5; 6], [1; 9; 9], [1; 5; 6].
  set (m := "The index of the array must be greater than or equal to 0 and less than the length of the array."%string).
  exists m, m, 1, INT32_MAX. unfold in_i32.
  split; [lia |]. split; [lia |]. split; [reflexivity |].
  assert (N : Z.to_nat INT32_MAX = S (S (S (Z.to_nat 2147483644)))) by lia.
  split; [| split; [discriminate | split; [| discriminate]]].
  - unfold memset. change (1 >=? 0) with true. change (INT32_MAX <? 0) with false. cbn [negb].
    change (wrap32 (1 + INT32_MAX) <=? zlen [1; 2; 3]) with true. cbn [negb]. rewrite N. reflexivity.
  - unfold memcpy_object_address.
    change (object_copy_checks [1; 2; 3] 1 [4; 5; 6] 1 INT32_MAX) with (@None string).
    cbv iota. rewrite N. reflexivity.
Qed.

(** ** C43 *)

(** copy_T gives exactly the addressed elements, in a fresh array. *)
Theorem C43_copy :
  forall (A : Type) (zero : A) (a : list A) (offset length len : Z),
    in_i32 offset -> in_i32 length -> zlen a <= INT32_MAX ->
    range_length (zlen a) offset length = len -> offset + len <= INT32_MAX ->
    (0 <= offset /\ 0 <= len /\ offset + len <= zlen a ->
       exists c, copy zero (Some a) offset length = Ret c /\ zlen c = len /\
         forall i, 0 <= i < len -> znth c i = znth a (offset + i)) /\
    (offset < 0 \/ len < 0 \/ zlen a < offset + len ->
       exists e, copy zero (Some a) offset length = Die e).
Proof.
  unfold in_i32. intros A zero a offset length len Ho Hl La R B. zlen_facts. split.
  - intros (H1 & H2 & H3). exists (zsub a offset len).
    split; [apply copy_ok; auto |]. split; [rewrite zlen_sub; lia |].
    intros i Hi. rewrite znth_sub. destruct (Z.leb_spec 0 i); [| lia].
    destruct (Z.ltb_spec i len); [| lia]. cbn [andb]. f_equal; lia.
  - intros D. unfold copy. destruct (Z.geb_spec offset 0); [| eauto].
    unfold range_length in R.
    assert (E : (if length <? 0 then wrap32 (zlen a - offset) else length) = len).
    { destruct (Z.ltb_spec length 0); [rewrite wrap32_id by (unfold in_i32; lia) |]; auto. }
    cbv zeta. rewrite E. rewrite wrap32_id by (unfold in_i32; destruct (Z.ltb_spec length 0); lia).
    destruct (Z.leb_spec (offset + len) (zlen a)); [| eauto].
    unfold new_elems. destruct (Z.leb_spec 0 len); [lia | eexists; reflexivity].
Qed.

Theorem C43_merge :
  forall (A : Type) (zero : A) (a1 a2 : list A),
    zlen a1 + zlen a2 <= INT32_MAX -> merge zero (Some a1) (Some a2) = Ret (a1 ++ a2).
Proof. intros. apply merge_ok; auto. Qed.

(** equals_T answers 1 or 0, and 1 exactly when both arrays are undefined or
    both are defined, equally long and elementwise equal. *)
Theorem C43_equals :
  forall (A : Type) (eqb : A -> A -> bool) (o1 o2 : option (list A)),
    exists r, equals eqb o1 o2 = Ret r /\ (r = 0 \/ r = 1) /\
      (r = 1 <-> (o1 = None /\ o2 = None) \/
                 exists a1 a2, o1 = Some a1 /\ o2 = Some a2 /\ zlen a1 = zlen a2 /\
                   forall i x y, znth a1 i = Some x -> znth a2 i = Some y -> eqb x y = true).
Proof.
  intros A eqb [a1 |] [a2 |]; cbn [equals].
  - destruct (Z.eqb_spec (zlen a1) (zlen a2)) as [E | N].
    + zlen_facts. destruct (equals_loop_ok eqb a1 a2 (Z.to_nat (zlen a1)) 0) as (r & Er & R & Q); try lia.
      exists r. split; auto. split; auto. rewrite Q. split.
      * intros H1. right. exists a1, a2. repeat split; auto. intros i x y Hx Hy.
        apply (H1 i); auto. apply znth_Some in Hx. lia.
      * intros [[? ?] | (b1 & b2 & E1 & E2 & _ & H1)]; [discriminate |].
        inversion E1; inversion E2; subst. intros j x y _. apply H1.
    + exists 0. split; auto. split; auto. split; [discriminate |].
      intros [[? ?] | (b1 & b2 & E1 & E2 & E & _)]; [discriminate |].
      inversion E1; inversion E2; subst. contradiction.
  - exists 0. split; auto. split; auto. split; [discriminate |].
    intros [[? ?] | (b1 & b2 & E1 & E2 & _)]; discriminate.
  - exists 0. split; auto. split; auto. split; [discriminate |].
    intros [[? ?] | (b1 & b2 & E1 & E2 & _)]; discriminate.
  - exists 1. split; auto. split; auto. split; auto.
Qed.

(** For element types whose == is equality, equals decides equality. *)
Corollary C43_equals_decides :
  forall (A : Type) (eqb : A -> A -> bool) (a1 a2 : list A),
    (forall x y, eqb x y = true <-> x = y) ->
    equals eqb (Some a1) (Some a2) = Ret 1 <-> a1 = a2.
Proof.
  intros A eqb a1 a2 D. destruct (C43_equals A eqb (Some a1) (Some a2)) as (r & E & R & Q).
  rewrite E. split.
  - intros H. inversion H. apply Q in H1. destruct H1 as [[? ?] | (b1 & b2 & E1 & E2 & L & N)]; [discriminate |].
    inversion E1; inversion E2; subst. apply znth_ext. intros i Hi.
    destruct (znth b1 i) as [x |] eqn:Ex.
    + destruct (znth_lt b2 i) as [y Ey]; [apply znth_Some in Ex; lia |].
      rewrite Ey. f_equal. apply D. eapply N; eauto.
    + apply znth_None in Ex. symmetry. apply znth_ge. lia.
  - intros ->. f_equal. apply Q. right. exists a2, a2. repeat split; auto.
    intros. apply D. congruence.
Qed.

(** shuffle permutes, with the generator of Fn->crand. *)
Theorem C43_shuffle :
  forall (A : Type) (a : list A) (seed : Z),
    exists a' seed', shuffle crand (Some a) seed = Ret (a', seed') /\ Permutation a a'.
Proof.
  intros A a seed. cbn [shuffle]. destruct a as [| x a].
  - exists [], seed. split; [reflexivity | constructor].
  - apply shuffle_loop_ok; try (rewrite zlen_cons; zlen_facts; lia).
    intros s. pose proof (crand_range s). lia.
Qed.

(** repeat does not repeat: three elements, twice. *)
Theorem C43_repeat_refuted :
  exists (a : list Z) (count : Z) (r : list Z),
    repeat_array 0 (Some a) count = Ret r /\ r <> a ++ a /\ count = 2.
Proof. exists [1; 2; 3], 2, [1; 2; 1; 2; 1; 2]. repeat split; discriminate. Qed.

(** ** C44 (integer part) *)

(** Every seed gives a number from 0 to RAND_MAX, and a new 32-bit seed. *)
Theorem C44_crand_range :
  forall seed, 0 <= fst (crand seed) <= INT32_MAX /\ in_i32 (snd (crand seed)).
Proof. intros. split; [apply crand_range | apply wrap32_range]. Qed.

(** ** Concrete cases meeting the hypotheses *)

Example memmove_overlap_ex :
  memmove (Some [1; 2; 3; 4; 5]) 1 (Some [1; 2; 3; 4; 5]) 0 4 = Ret [1; 1; 2; 3; 4].
Proof. reflexivity. Qed.
Example memcpy_ex : memcpy false (Some [1; 2; 3]) 1 (Some [7; 8; 9]) 0 2 = Ret [1; 7; 8].
Proof. reflexivity. Qed.
Example memmove_object_overlap_ex :
  memmove_object_address (fun _ => true) true [1; 2; 3; 4; 5] 1 [1; 2; 3; 4; 5] 0 4
  = ([1; 1; 2; 3; 4], Ret tt).
Proof. reflexivity. Qed.
Example memcpy_object_reject_ex :
  exists e, memcpy_object_address (fun x => x <? 9) false [1; 2; 3] 0 [7; 9; 8] 0 3 = ([7; 2; 3], Die e).
Proof. eexists. reflexivity. Qed.
Example memset_ex : memset (fun _ => true) [1; 2; 3; 4] 0 1 (-1) = ([1; 0; 0; 0], Ret tt).
Proof. reflexivity. Qed.
Example copy_ex : copy 0 (Some [1; 2; 3; 4]) 1 2 = Ret [2; 3].
Proof. reflexivity. Qed.
Example equals_ex : equals Z.eqb (Some [1; 2]) (Some [1; 3]) = Ret 0.
Proof. reflexivity. Qed.
Example shuffle_ex : exists s, shuffle crand (Some [1; 2; 3; 4]) 12345 = Ret ([4; 1; 3; 2], s).
Proof. eexists. vm_compute. reflexivity. Qed.

Print Assumptions C38_memcpy_exact.
Print Assumptions C38_memmove_exact.
Print Assumptions C38_undefined_arrays.
Print Assumptions C38_overflowing_range_refuted.
Print Assumptions C38_object_copy_frame.
Print Assumptions C38_object_copy_exact.
Print Assumptions C38_memset_exact.
Print Assumptions C38_memset_frame.
Print Assumptions C38_partial_write_refuted.
Print Assumptions C43_copy.
Print Assumptions C43_merge.
Print Assumptions C43_equals.
Print Assumptions C43_equals_decides.
Print Assumptions C43_shuffle.
Print Assumptions C43_repeat_refuted.
Print Assumptions C44_crand_range.
