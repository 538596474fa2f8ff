(** * C74: comparison, equality and copies of objects *)
From Coq Require Import Permutation.
From Verif Require Import Base CLib Dec Array_model FnMem_model StrCmp_model StrCmp_spec StrCmp_props
  Sort_model Sort_spec Sort_props Equal_model Equal_spec Equal_proofs.
Local Open Scope Z_scope.

(** ** The default comparator *)
(** For objects that implement Comparable with a method cmp that answers like a total preorder,
    the default comparator answers like a total preorder on objects and undef: undef first. *)
Theorem C74_comparator :
  forall (S R : Type) (cmp : S -> R -> R -> S * outcome Z) (c : R -> R -> Z),
    (forall s x y, snd (cmp s x y) = Ret (c x y)) -> total_preorder c ->
    exists d : option R -> option R -> Z,
      (forall s a b, snd (default_comparator S R (fun _ => true) cmp s a b) = Ret (d a b)) /\
      total_preorder d /\
      (forall a b, d a b <= 0 <-> undef_first (fun x y => c x y <= 0) a b) /\
      (forall x y, d (Some x) (Some y) = c x y).
Proof.
  intros S R cmp c H T.
  exists (fun a b => match a, b with Some x, Some y => c x y | Some _, None => 1 | None, Some _ => -1 | None, None => 0 end).
  split; [| split; [| split]]; auto.
  - intros s [x |] [y |]; cbn; auto.
  - destruct T as [T1 T2]. split.
    + intros [x |] [y |]; auto; lia.
    + intros [x |] [y |] [z |]; try lia; eauto.
  - intros [x |] [y |]; split; intros K; try lia; try (inversion K; subst; auto; lia); constructor; auto.
Qed.

(** Sorting with it puts undef first and then the objects in their order, stably. *)
Theorem C74_sort :
  forall (S R : Type) (cmp : S -> R -> R -> S * outcome Z) (c : R -> R -> Z) (fuel : nat) (s : S) (a : list (option R)),
    (forall s x y, snd (cmp s x y) = Ret (c x y)) -> total_preorder c ->
    (30 < fuel)%nat -> zlen a <= 1073741824 ->
    exists s' a',
      sort (default_comparator S R (fun _ => true) cmp) None fuel s (Some a) true 0 (-1) = (s', Some a', Ret tt) /\
      Permutation a a' /\
      (forall i j x y, i < j -> znth a' i = Some x -> znth a' j = Some y ->
         undef_first (fun x y => c x y <= 0) x y) /\
      (forall x, filter (fun y => match y with Some y => (c x y <=? 0) && (c y x <=? 0) | None => false end) a' =
                 filter (fun y => match y with Some y => (c x y <=? 0) && (c y x <=? 0) | None => false end) a).
Proof.
  intros S R cmp c fuel s a H T F L. zlen_facts.
  destruct (C74_comparator S R cmp c H T) as (d & D1 & D2 & D3 & D4).
  destruct (C34_sorted_and_stable (option R) S _ None fuel s a 0 (-1) 0 (zlen a - 0) d F D1 D2)
    as (s' & a' & E & P & Or & St); try reflexivity; try lia.
  exists s', a'. split; auto.
  destruct P as (pre & seg & seg' & post & E1 & E2 & L1 & L2 & P).
  apply zlen_0_nil in L1. subst pre. cbn in E1, E2. rewrite E1, zlen_app in L2.
  assert (post = []) as -> by (apply zlen_0_nil; pose proof (zlen_nonneg seg); pose proof (zlen_nonneg post); lia).
  rewrite !app_nil_r in *. subst seg seg'.
  assert (La : zlen a' = zlen a) by (unfold zlen; rewrite (Permutation_length P); auto).
  assert (W : forall (l : list (option R)) n, n = zlen l -> zsub l 0 n = l).
  { intros l n ->. unfold zsub. cbn. apply ztake_all. lia. }
  rewrite !W in St by lia. rewrite W in Or by lia.
  split; auto. split.
  - intros i j x y Hij Hx Hy. apply D3. eapply Or; eauto.
  - intros x. specialize (St (Some x)). unfold equals_of in St.
    assert (K : forall l : list (option R),
      filter (fun y => match y with Some y => (c x y <=? 0) && (c y x <=? 0) | None => false end) l =
      filter (fun y => (d (Some x) y <=? 0) && (d y (Some x) <=? 0)) l).
    { intros l. apply filter_ext. intros [y |]; [rewrite !D4; auto |].
      destruct (Z.leb_spec (d (Some x) None) 0) as [Q | Q]; auto. apply D3 in Q. inversion Q. }
    rewrite !K. exact St.
Qed.

(** Numbers as objects, and undef. *)
Example C74_sort_case :
  sort (default_comparator unit Z (fun _ => true) asc_cmp) None 31 tt (Some [Some 2; None; Some 1]) true 0 (-1)
    = (tt, Some [None; Some 1; Some 2], Ret tt).
Proof. vm_compute. reflexivity. Qed.

(** Objects whose class does not implement the interface are refused. *)
Theorem C74_not_implemented :
  forall (S R : Type) (implements : R -> bool) (m : S -> R -> R -> S * outcome Z) clone (s : S) (x : R) (o : option R),
    implements x = false ->
    default_comparator S R implements m s (Some x) o = (s, Die e_arg) /\
    default_comparator S R implements m s o (Some x) = (s, Die e_arg) /\
    default_equality_checker S R implements m s (Some x) o = (s, Die e_arg) /\
    default_equality_checker S R implements m s o (Some x) = (s, Die e_arg) /\
    default_cloner S R implements clone s (Some x) = (s, Die e_arg).
Proof.
  intros S R implements m clone s x o H. unfold default_comparator, default_equality_checker, default_cloner, arg_ok.
  rewrite H. destruct o as [r |]; [destruct (implements r) |]; repeat split; reflexivity.
Qed.

(** ** Equality checkers *)
(** The default checker asks the method eq of two objects; undef equals undef only. *)
Theorem C74_checker :
  forall (S R : Type) (eq : S -> R -> R -> S * outcome Z) (E : R -> R -> Prop),
    (forall s x y, exists r, snd (eq s x y) = Ret r /\ answers (E x y) r) ->
    forall s a b, exists r, snd (default_equality_checker S R (fun _ => true) eq s a b) = Ret r /\ answers (both E a b) r.
Proof.
  intros S R eq E H s [x |] [y |]; cbn.
  - destruct (H s x y) as (r & Q & A). exists r. split; auto. eapply answers_iff; [| exact A].
    split; [constructor; auto | intros K; inversion K; auto].
  - exists 0. split; auto. right. split; auto. intros K; inversion K.
  - exists 0. split; auto. right. split; auto. intros K; inversion K.
  - exists 1. split; auto. left. split; auto. constructor.
Qed.

(** It is an equivalence when eq is. *)
Theorem C74_checker_equivalence :
  forall (R : Type) (E : R -> R -> Prop),
    (forall x, E x x) -> (forall x y, E x y -> E y x) -> (forall x y z, E x y -> E y z -> E x z) ->
    (forall a, both E a a) /\ (forall a b, both E a b -> both E b a) /\ (forall a b c, both E a b -> both E b c -> both E a c).
Proof.
  intros R E H1 H2 H3. repeat split.
  - intros [x |]; constructor; auto.
  - intros a b K; inversion K; constructor; auto.
  - intros a b c K1 K2; inversion K1; subst; inversion K2; subst; constructor; eauto.
Qed.

(** EqualityChecker::Address: the same object, or both undef. *)
Theorem C74_address_checker :
  forall (S R : Type) (same : R -> R -> bool), (forall x y, same x y = true <-> x = y) ->
    forall (s : S) a b, exists r, address_checker S R same s a b = (s, Ret r) /\ answers (a = b) r.
Proof.
  intros S R same H s [x |] [y |]; cbn; eexists; (split; [reflexivity |]).
  - destruct (same x y) eqn:Q.
    + left. split; [f_equal; apply H; exact Q | cbn; rewrite Q; reflexivity].
    + right. split; [| cbn; rewrite Q; reflexivity]. intros K. injection K as K. apply H in K. congruence.
  - right. split; auto. discriminate.
  - right. split; auto. discriminate.
  - left. auto.
Qed.

(** ** Array->equals *)
Section Equals.
  Variables S R : Type.
  Variable implements : R -> bool.
  Variable eq : S -> R -> R -> S * outcome Z.
  Variable same : R -> R -> bool.
  Hypothesis same_ok : forall x y, same x y = true <-> x = y.
  Local Notation equals_ a b shallow s := (array_equals S R implements eq same a b shallow s).

  Lemma address_eq_ok x y : address_eq R same x y = true <-> x = y.
  Proof.
    destruct x as [x |], y as [y |]; cbn; try (split; congruence). rewrite same_ok. split; congruence.
  Qed.

  Theorem C74_equals_undef :
    forall v shallow s, equals_ None None shallow s = (s, Ret 1) /\
      equals_ (Some v) None shallow s = (s, Ret 0) /\ equals_ None (Some v) shallow s = (s, Ret 0).
  Proof. intros. repeat split. Qed.

  (** Other objects are refused; arrays of different types are different. *)
  Theorem C74_equals_types :
    forall v1 v2 shallow s,
      (is_array R v1 = false \/ is_array R v2 = false -> exists e, equals_ (Some v1) (Some v2) shallow s = (s, Die e)) /\
      (is_array R v1 = true -> is_array R v2 = true -> type_name R v1 <> type_name R v2 ->
         equals_ (Some v1) (Some v2) shallow s = (s, Ret 0)).
  Proof.
    intros v1 v2 shallow s. unfold array_equals. split.
    - intros [H | H]; [rewrite H; eexists; reflexivity |].
      destruct (is_array R v1); cbn [negb]; [rewrite H |]; eexists; reflexivity.
    - intros -> -> N. cbn [negb]. destruct (bytes_eqb_spec (type_name R v1) (type_name R v2)); [contradiction | reflexivity].
  Qed.

  (** Strings: by their bytes, or by address. *)
  Theorem C74_equals_strings :
    forall l1 l2 s,
      (exists r, equals_ (Some (VStrings R l1)) (Some (VStrings R l2)) 0 s = (s, Ret r) /\
         answers (map (option_map fst) l1 = map (option_map fst) l2) r) /\
      (forall shallow, shallow <> 0 ->
         exists r, equals_ (Some (VStrings R l1)) (Some (VStrings R l2)) shallow s = (s, Ret r) /\
           answers (map (option_map snd) l1 = map (option_map snd) l2) r).
  Proof.
    intros l1 l2 s.
    assert (F : forall (A : Type) (a b : list A), Forall2 Logic.eq a b <-> a = b).
    { intros A a b. split.
      - intros K. induction K; congruence.
      - intros ->. induction b; constructor; auto. }
    unfold array_equals. cbn [is_array negb type_name].
    destruct (bytes_eqb_spec (bytes "string[]") (bytes "string[]")) as [_ | N]; [cbn [negb] | contradiction]. split.
    - change (0 =? 0) with true. cbn [negb].
      destruct (equals_answers (fun x y : option (list Z) => string_comparison NE x y =? 0) Logic.eq
                  (map (option_map fst) l1) (map (option_map fst) l2)) as (r & -> & A).
      + intros x y. destruct (C17_operators_agree x y) as (_ & H & _). destruct H as [[H ->] | [H ->]]; cbn.
        * split; [discriminate | contradiction].
        * split; auto. intros _.
          destruct (C17_operators_agree x y) as ([[? _] | [K _]] & _); [assumption | contradiction].
      + exists r. split; auto. eapply answers_iff; [| exact A]. apply F.
    - intros shallow N. destruct (Z.eqb_spec shallow 0); [contradiction |]. cbn [negb equals_object].
      destruct (equals_answers (address_eq R same) Logic.eq (map (option_map snd) l1) (map (option_map snd) l2)) as (r & Er & A);
        [exact address_eq_ok |].
      unfold equals_object. rewrite Er. exists r. split; auto. eapply answers_iff; [| exact A]. apply F.
  Qed.

  (** Objects: by the method eq, or by address. *)
  Theorem C74_equals_objects :
    forall (E : R -> R -> Prop) t l1 l2 s,
      (forall s x y, In (Some x) l1 -> In (Some y) l2 ->
         exists s' r, eq s x y = (s', Ret r) /\ answers (E x y) r) ->
      (forall x, In (Some x) l1 \/ In (Some x) l2 -> implements x = true) ->
      (exists s' r, equals_ (Some (VObjects R t l1)) (Some (VObjects R t l2)) 0 s = (s', Ret r) /\
         answers (Forall2 (both E) l1 l2) r) /\
      (forall shallow, shallow <> 0 ->
         exists r, equals_ (Some (VObjects R t l1)) (Some (VObjects R t l2)) shallow s = (s, Ret r) /\
           answers (Forall2 (fun x y => x = y) l1 l2) r).
  Proof.
    intros E t l1 l2 s H Im. unfold array_equals. cbn [is_array negb type_name].
    destruct (bytes_eqb_spec t t) as [_ | N]; [cbn [negb] | contradiction]. split.
    - change (0 =? 0) with true. cbn [negb].
      apply equals_object_ok with (E := both E). intros i s1 x y Hx Hy.
      apply znth_In in Hx, Hy. unfold default_equality_checker.
      assert (Ax : arg_ok R implements x = true) by (destruct x; cbn; auto).
      assert (Ay : arg_ok R implements y = true) by (destruct y; cbn; auto).
      rewrite Ax, Ay. cbn [andb negb]. destruct x as [x |], y as [y |].
      + destruct (H s1 x y Hx Hy) as (s' & r & Q & A). exists s', r. split; auto.
        destruct A as [[A ->] | [A ->]]; [left | right]; split; auto; try lia; [constructor; auto |].
        intros K. inversion K. contradiction.
      + exists s1, 0. split; auto. right. split; auto. intros K. inversion K.
      + exists s1, 0. split; auto. right. split; auto. intros K. inversion K.
      + exists s1, 1. split; auto. left. split; [constructor | lia].
    - intros shallow N. destruct (Z.eqb_spec shallow 0); [contradiction |]. cbn [negb]. unfold equals_object.
      destruct (equals_answers (address_eq R same) Logic.eq l1 l2) as (r & -> & A); [exact address_eq_ok |].
      exists r. auto.
  Qed.

  (** Numbers: by the bytes of the elements, when the arrays have fewer than 2^31 bytes. *)
  Theorem C74_equals_numbers :
    forall t b1 b2 shallow s,
      is_raw b1 = true -> is_raw b2 = true -> b_elem_size b1 = b_elem_size b2 -> 0 < b_elem_size b1 ->
      zlen (b_data b1) = b_elem_size b1 * b_length b1 -> zlen (b_data b2) = b_elem_size b2 * b_length b2 ->
      zlen (b_data b1) <= INT32_MAX ->
      exists r, equals_ (Some (VNumbers R t b1)) (Some (VNumbers R t b2)) shallow s = (s, Ret r) /\
        answers (b_data b1 = b_data b2) r.
  Proof.
    intros t b1 b2 shallow s R1 R2 Es P L1 L2 B. unfold array_equals. cbn [is_array negb type_name].
    destruct (bytes_eqb_spec t t) as [_ | N]; [cbn [negb] | contradiction].
    destruct (Z.eqb_spec (b_length b1) (b_length b2)) as [El | Nl].
    - zlen_facts. pose proof (zlen_nonneg (b_data b1)). unfold c_mul. rewrite <- L1.
      destruct (Z.leb_spec INT32_MIN (zlen (b_data b1))); [| lia].
      destruct (Z.leb_spec (zlen (b_data b1)) INT32_MAX); [| lia]. cbn [andb]. rewrite obind_ret.
      assert (L : zlen (b_data b2) = zlen (b_data b1)) by (rewrite L1, L2, Es, El; auto).
      rewrite (numbers_ok b1 b2 (zlen (b_data b1)) R1 R2 Es El L1 ltac:(lia) eq_refl L). rewrite obind_ret.
      eexists. split; [reflexivity |].
      destruct (Z.eqb_spec (memcmp (b_data b1) (b_data b2) (zlen (b_data b1))) 0) as [M | M].
      + left. split; auto. apply (proj1 (memcmp_eq (b_data b1) (b_data b2) (zlen (b_data b1)) eq_refl L)); auto.
      + right. split; auto. intros K. apply M. apply memcmp_eq; auto.
    - exists 0. split; auto. right. split; auto. intros K. apply Nl. rewrite K in L1.
      rewrite L1, <- Es in L2. apply Z.mul_reg_l in L2; auto. lia.
  Qed.
End Equals.

(** equals_object with a checker of the user that tells, by a value other than 0, whether [E] holds. *)
Theorem C74_equals_object_checker :
  forall (S R : Type) (same : R -> R -> bool) (checker : S -> option R -> option R -> S * outcome Z)
         (E : option R -> option R -> Prop) (a b : list (option R)) (s : S),
    (forall s x y, exists s' r, checker s x y = (s', Ret r) /\ ((E x y /\ r <> 0) \/ (~ E x y /\ r = 0))) ->
    exists s' r, equals_object S R same (Some a) (Some b) (Some checker) s = (s', Ret r) /\ answers (Forall2 E a b) r.
Proof. intros S R same checker E a b s H. apply equals_object_ok. intros. apply H. Qed.

(** Arrays of strings with the same bytes in other objects; with undef. *)
Example C74_equals_case :
  let l1 := [Some (bytes "ab", 1); None] in
  let l2 := [Some (bytes "ab", 2); None] in
  array_equals unit Z (fun _ => true) asc_cmp Z.eqb (Some (VStrings Z l1)) (Some (VStrings Z l2)) 0 tt = (tt, Ret 1) /\
  array_equals unit Z (fun _ => true) asc_cmp Z.eqb (Some (VStrings Z l1)) (Some (VStrings Z l2)) 1 tt = (tt, Ret 0).
Proof. vm_compute. auto. Qed.

(** Two arrays of int. *)
Example C74_numbers_case :
  let b := mk_blob KNumArray false 4 1 [1; 0; 0; 0] in
  is_raw b = true /\ zlen (b_data b) = b_elem_size b * b_length b /\ zlen (b_data b) <= INT32_MAX.
Proof. vm_compute. repeat split; discriminate. Qed.

(** For doubles this is not the equality of the elements, which equals_double uses: [0.0] and
    [-0.0] differ, and arrays with NaN are equal. *)
Theorem C74_double_refuted :
  (exists d1 d2 : list Z,
     let a1 := mk_blob KNumArray false 8 1 d1 in
     let a2 := mk_blob KNumArray false 8 1 d2 in
     zlen d1 = 8 /\ zlen d2 = 8 /\ double_eq (le_value d1) (le_value d2) = true /\
     equals double_eq (Some [le_value d1]) (Some [le_value d2]) = Ret 1 /\
     array_equals unit Z (fun _ => true) asc_cmp Z.eqb (Some (VNumbers Z (bytes "double[]") a1))
       (Some (VNumbers Z (bytes "double[]") a2)) 0 tt = (tt, Ret 0)) /\
  (exists d : list Z,
     let a := mk_blob KNumArray false 8 1 d in
     zlen d = 8 /\ double_eq (le_value d) (le_value d) = false /\
     equals double_eq (Some [le_value d]) (Some [le_value d]) = Ret 0 /\
     array_equals unit Z (fun _ => true) asc_cmp Z.eqb (Some (VNumbers Z (bytes "double[]") a))
       (Some (VNumbers Z (bytes "double[]") a)) 0 tt = (tt, Ret 1)).
Proof.
  split.
  - exists [0; 0; 0; 0; 0; 0; 0; 0], [0; 0; 0; 0; 0; 0; 0; 128]. vm_compute. auto 6.
  - exists [0; 0; 0; 0; 0; 0; 248; 127]. vm_compute. auto 6.
Qed.

(** Equal arrays of 2^31 bytes or more have no defined answer. *)
Theorem C74_large_refuted :
  forall t b s, is_raw b = true -> b_elem_size b = 8 -> INT32_MAX < 8 * b_length b ->
    array_equals unit Z (fun _ => true) asc_cmp Z.eqb (Some (VNumbers Z t b)) (Some (VNumbers Z t b)) 0 s = (s, UB).
Proof.
  intros t b s Rb Eb L. unfold array_equals. cbn [is_array negb type_name].
  destruct (bytes_eqb_spec t t) as [_ | N]; [cbn [negb] | contradiction].
  rewrite Z.eqb_refl. unfold c_mul. rewrite Eb.
  destruct (Z.leb_spec (8 * b_length b) INT32_MAX); [lia |]. rewrite andb_false_r. reflexivity.
Qed.

(** ** Points *)
(** Points of one class are equal exactly when their coordinates are. *)
Theorem C74_points :
  forall object p q, is_3d object = is_3d p -> is_3d p = is_3d q ->
    exists r, eq_method object (Some p) (Some q) = Ret r /\ answers (p = q) r.
Proof.
  intros object [x y z] [x' y' z'] Eo E. unfold eq_method. rewrite Eo. unfold is_3d in *. cbn [p_z] in *.
  destruct z as [z |], z' as [z' |]; try discriminate; cbn; eexists; (split; [reflexivity |]).
  - destruct (Z.eqb_spec x x'), (Z.eqb_spec y y'), (Z.eqb_spec z z'); cbn; subst;
      ((left; split; [reflexivity | reflexivity]) || (right; split; [intros K; inversion K; contradiction | reflexivity])).
  - destruct (Z.eqb_spec x x'), (Z.eqb_spec y y'); cbn; subst;
      ((left; split; [reflexivity | reflexivity]) || (right; split; [intros K; inversion K; contradiction | reflexivity])).
Qed.

(** new, clear, clone; the text of a point determines its class and its coordinates. *)
Theorem C74_points_made :
  (forall x y, point_new (Some x) (Some y) = Pt x y None) /\ point_new None None = Pt 0 0 None /\
  (forall x, point_new (Some x) None = Pt x 0 None) /\
  (forall x y z, point3d_new (Some x) (Some y) (Some z) = Pt x y (Some z)) /\
  point3d_new None None None = Pt 0 0 (Some 0) /\
  (forall p, clone p = p /\ p_x (clear p) = 0 /\ p_y (clear p) = 0 /\ p_z (clear p) = option_map (fun _ => 0) (p_z p)) /\
  (forall p q, to_string p = to_string q <-> p = q).
Proof.
  repeat split.
  - destruct p as [x y [z |]]; reflexivity.
  - destruct p as [x y [z |]]; reflexivity.
  - destruct p as [x y [z |]]; reflexivity.
  - destruct p as [x y [z |]]; reflexivity.
  - apply to_string_inj.
  - intros ->. reflexivity.
Qed.

Example C74_point_text :
  to_string (Pt 1 (-2) None) = bytes "(1,-2)" /\ to_string (Pt 1 (-2) (Some 30)) = bytes "(1,-2,30)".
Proof. vm_compute. auto. Qed.

(** Default checker and points of different classes: not symmetric; one order says equal although
    the points differ, the other throws. *)
Theorem C74_mixed_points_refuted :
  exists p q : point, p <> q /\
    default_equality_checker unit (Z * point) (fun _ => true) points_method tt (Some (1, p)) (Some (2, q)) = (tt, Ret 1) /\
    default_equality_checker unit (Z * point) (fun _ => true) points_method tt (Some (2, q)) (Some (1, p)) = (tt, Die e_arg).
Proof. exists (Pt 1 2 None), (Pt 1 2 (Some 3)). split; [discriminate |]. vm_compute. auto. Qed.

(** The default cloner: undef for undef, otherwise the method clone; for points an equal one. *)
Theorem C74_cloner :
  forall (S R : Type) (clone : S -> R -> S * outcome (option R)) (s : S),
    default_cloner S R (fun _ => true) clone s None = (s, Ret None) /\
    (forall x, default_cloner S R (fun _ => true) clone s (Some x) = clone s x).
Proof. intros. split; reflexivity. Qed.

Print Assumptions C74_comparator.
Print Assumptions C74_sort.
Print Assumptions C74_not_implemented.
Print Assumptions C74_checker.
Print Assumptions C74_checker_equivalence.
Print Assumptions C74_address_checker.
Print Assumptions C74_equals_undef.
Print Assumptions C74_equals_types.
Print Assumptions C74_equals_strings.
Print Assumptions C74_equals_objects.
Print Assumptions C74_equals_numbers.
Print Assumptions C74_equals_object_checker.
Print Assumptions C74_double_refuted.
Print Assumptions C74_large_refuted.
Print Assumptions C74_points.
Print Assumptions C74_points_made.
Print Assumptions C74_mixed_points_refuted.
Print Assumptions C74_cloner.
