(** * C74, copies *)
From Verif Require Import Base Array_model Array_spec FnHof_proofs FnCopy_proofs FnHof_model FnHof_spec Equal_model Equal_proofs EqualCopy_model.
From Verif Require Equal_spec Equal_props.
Local Open Scope Z_scope.

Definition cloner := default_cloner points_state (Z * point) (fun _ => true) points_clone.

(** Element by element: undef for undef, otherwise an equal point at an address from [n] on. *)
Inductive fresh_copy (n : Z) : option (Z * point) -> option (Z * point) -> Prop :=
| FreshUndef : fresh_copy n None None
| FreshPoint a a' p : n <= a' -> fresh_copy n (Some (a, p)) (Some (a', p)).

Lemma fresh_le n m x y : m <= n -> fresh_copy n x y -> fresh_copy m x y.
Proof. intros L H. destruct H; constructor; lia. Qed.

Lemma fresh_list_le n m l l' : m <= n -> Forall2 (fresh_copy n) l l' -> Forall2 (fresh_copy m) l l'.
Proof. intros L F. induction F; constructor; auto. eapply fresh_le; eauto. Qed.

Lemma clone_same p : clone p = p.
Proof. destruct p as [x y [z |]]; reflexivity. Qed.

Lemma calls_copy l : forall pre n,
  exists ps n', calls fst (only (fun _ => true) (fun _ => e_elem) cloner) (zlen pre) (zlen (pre ++ l)) (pre ++ l, n) ps (pre ++ l, n') None /\
    n <= n' /\ Forall2 (fresh_copy n) l (answers ps).
Proof.
  induction l as [| x l IH]; intros pre n.
  - rewrite app_nil_r. exists [], n. split; [constructor | split; [lia | constructor]].
  - assert (E : pre ++ x :: l = (pre ++ [x]) ++ l) by (rewrite <- app_assoc; reflexivity).
    assert (Lp : zlen (pre ++ [x]) = zlen pre + 1) by (rewrite zlen_app; reflexivity).
    assert (N : znth (pre ++ x :: l) (zlen pre) = Some x).
    { rewrite znth_app. destruct (Z.ltb_spec (zlen pre) (zlen pre)); [lia |]. rewrite Z.sub_diag. reflexivity. }
    assert (L : zlen pre < zlen (pre ++ x :: l)).
    { rewrite zlen_app, zlen_cons. pose proof (zlen_nonneg l). lia. }
    destruct x as [[a p] |].
    + destruct (IH (pre ++ [Some (a, p)]) (n + 1)) as (ps & n' & C & M & F).
      rewrite <- E, Lp in C. exists ((Some (a, p), Some (n, p)) :: ps), n'.
      split; [| split; [lia |]].
      * eapply calls_next; [exact L | exact N | | exact C]. cbn. rewrite clone_same. reflexivity.
      * constructor; [constructor; lia |].
        exact (fresh_list_le (n + 1) n l (answers ps) ltac:(lia) F).
    + destruct (IH (pre ++ [None]) n) as (ps & n' & C & M & F).
      rewrite <- E, Lp in C. exists ((None, None) :: ps), n'. split; [| split; [lia |]].
      * eapply calls_next; [exact L | exact N | reflexivity | exact C].
      * constructor; [constructor | exact F].
Qed.

(** A deep copy of an array of points keeps the array; it consists of new points with the same
    coordinates, which Array->equals finds equal. *)
Theorem C74_copy_points :
  forall (t : list Z) (a : list (option (Z * point))) (n : Z),
    zlen a <= INT32_MAX ->
    exists b n', fn_copy_objects fst (fun _ => true) points_clone (fun _ => true) 0 (a, n) = ((a, n'), Ret b) /\
      Forall2 (fresh_copy n) a b /\
      array_equals unit (Z * point) (fun _ => true) points_method (fun r q => fst r =? fst q)
        (Some (VObjects (Z * point) t a)) (Some (VObjects (Z * point) t b)) 0 tt = (tt, Ret 1).
Proof.
  intros t a n L. destruct (calls_copy a [] n) as (ps & n' & C & _ & F). cbn [app] in C.
  exists (answers ps), n'. split; [| split; auto].
  - unfold fn_copy_objects. cbn [Z.eqb negb].
    change (zlen (@nil (option (Z * point)))) with 0 in C. zlen_facts.
    apply (copy_object_clone (fst : points_state -> _) None (fun _ => true) cloner (a, n) 0 (-1) (zlen a) ps (a, n') None); auto;
      unfold in_i32; cbn [fst]; try lia.
    + intros s [r |]; cbn; auto.
    + unfold range_length. cbn. lia.
  - unfold array_equals. cbn [is_array negb type_name].
    destruct (bytes_eqb_spec t t) as [_ | N]; [cbn [negb] | contradiction]. cbn [Z.eqb negb].
    pose (E := fun x y : option (Z * point) => option_map snd x = option_map snd y).
    apply forall2_znth in F. destruct F as [Lf F].
    destruct (equals_object_ok unit (Z * point)
      (default_equality_checker unit (Z * point) (fun _ => true) points_method) E a (answers ps) tt) with (same := fun r q : Z * point => fst r =? fst q)
      as (s' & r & Er & A).
    + intros i [] x y Hx Hy. pose proof (F i x y Hx Hy) as K. destruct K as [| a0 a1 p Hn].
      * exists tt, 1. split; auto. left. split; [reflexivity | lia].
      * destruct (Equal_props.C74_points p p p eq_refl eq_refl) as (r & Q & [[_ ->] | [Q' _]]); [| contradiction].
        exists tt, 1. split; [| left; split; [reflexivity | lia]].
        unfold default_equality_checker, points_method. cbn [arg_ok andb negb snd]. rewrite Q. reflexivity.
    + rewrite Er. destruct s'. destruct A as [[_ ->] | [A _]]; auto. exfalso. apply A.
      apply forall2_znth. split; auto. intros i x y Hx Hy. destruct (F i x y Hx Hy); reflexivity.
Qed.

(** A shallow copy has the same objects. *)
Theorem C74_copy_shallow :
  forall (S R : Type) (arr : S -> list (option R)) implements clone shallow (s : S),
    shallow <> 0 -> zlen (arr s) <= INT32_MAX ->
    fn_copy_objects arr implements clone (fun _ => true) shallow s = (s, Ret (arr s)).
Proof.
  intros S R arr implements clone shallow s N L. unfold fn_copy_objects.
  destruct (Z.eqb_spec shallow 0); [contradiction |]. cbn [negb]. unfold copy_object_address. zlen_facts.
  rewrite (copy_object_plain arr None (fun _ => true) s 0 (-1) (zlen (arr s))); unfold in_i32; auto; try lia.
  - unfold zsub. cbn. rewrite ztake_all; [reflexivity | apply Z.le_refl].
  - apply Forall_forall. auto.
  - unfold range_length. cbn. lia.
Qed.

Example C74_copy_case :
  fn_copy_objects fst (fun _ => true) points_clone (fun _ => true) 0 ([Some (1, Pt 3 4 None); None], 5)
    = (([Some (1, Pt 3 4 None); None], 6), Ret [Some (5, Pt 3 4 None); None]).
Proof. vm_compute. reflexivity. Qed.

Print Assumptions C74_copy_points.
Print Assumptions C74_copy_shallow.
