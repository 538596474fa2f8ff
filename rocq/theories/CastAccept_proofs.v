(** * Which casts the compiler accepts *)

From Verif Require Import Base CLib Type_model Type_spec Type_proofs Cast_spec.

Section Accept.
  Variable p : prog.
  Hypothesis OK : program_ok p.
  Variable w : nat.
  Hypothesis REL : check_relation p w (all_ids p) = Ret tt.

  Lemma cast_accept v f d s :
    (w <= v)%nat -> object_type p d -> object_type p s -> no_interface p d -> no_interface p s ->
    ~ (t_dim d = 0 /\ numeric_class (t_id d)) -> ~ (t_dim s = 0 /\ numeric_class (t_id s)) ->
    exists b, satisfy_cast p v f d s = Ret b /\
      (b = true <-> instance p (t_id s, t_dim s) d \/ instance p (t_id d, t_dim d) s \/ converts d s \/
                    (t_dim d = 1 /\ t_id s = t_id d /\ (4 <= t_id d <= 8 \/ is_category p (t_id d) CMulnum))).
  Proof using OK REL.
    intros L Od Os N1 N2 NN1 NN2. pose proof Od as (TD & _). pose proof Os as (TS & _).
    apply (object_type_shape p OK _ TD) in Od. apply (object_type_shape p OK _ TS) in Os.
    rewrite (sh_object p OK _ TD) in Od. rewrite (sh_object p OK _ TS) in Os.
    pose proof TD as (BD & _). pose proof TS as (BS & _).
    pose proof (cat_ids p OK _ BD) as CD. pose proof (cat_ids p OK _ BS) as CS.
    unfold no_interface in N1, N2. rewrite is_category_of in N1, N2 by auto.
    pose proof (shape_spec p OK _ TD) as MD. pose proof (shape_spec p OK _ TS) as MS.
    destruct (same_or_sub_of p OK w REL (t_id d) (t_id s) v BD BS L) as (b1 & SU1 & SB1).
    destruct (same_or_sub_of p OK w REL (t_id s) (t_id d) v BS BD L) as (b2 & SU2 & SB2).
    unfold satisfy_cast, instance, converts.
    shapes_of d TD. shapes_of s TS.
    unfold shape_means in MD, MS.
    assert (HB1 : b1 = true -> category_of p (t_id d) = CClass /\ category_of p (t_id s) = CClass).
    { intros ->. destruct (is_super_class_spec p OK w REL v _ _ BD BS L) as (b' & E & X).
      rewrite SU1 in E. inversion E; subst b'.
      destruct (super_class p OK w REL _ _ (proj1 X eq_refl)) as (? & ? & _). auto. }
    assert (HB2 : b2 = true -> category_of p (t_id d) = CClass /\ category_of p (t_id s) = CClass).
    { intros ->. destruct (is_super_class_spec p OK w REL v _ _ BS BD L) as (b' & E & X).
      rewrite SU2 in E. inversion E; subst b'.
      destruct (super_class p OK w REL _ _ (proj1 X eq_refl)) as (? & ? & _). auto. }
    pose proof (is_category_of p (t_id s) CClass BS) as IC1.
    pose proof (is_category_of p (t_id s) CInterface BS) as IC2.
    pose proof (is_category_of p (t_id d) CClass BD) as IC3.
    pose proof (is_category_of p (t_id d) CInterface BD) as IC4.
    pose proof (is_category_of p (t_id d) CMulnum BD) as IC5.
    assert (SB1' : same_or_sub p (t_id s) (t_id d) <-> t_id s = t_id d \/ b1 = true)
      by (rewrite <- SB1, orb_true_iff, Z.eqb_eq; tauto).
    assert (SB2' : same_or_sub p (t_id d) (t_id s) <-> t_id s = t_id d \/ b2 = true)
      by (rewrite <- SB2, orb_true_iff, Z.eqb_eq; split; intros [? | ?]; auto).
    clear SB1 SB2 TD TS BD BS.
    remember (same_or_sub p (t_id s) (t_id d)) as SOS1. clear HeqSOS1.
    remember (same_or_sub p (t_id d) (t_id s)) as SOS2. clear HeqSOS2.
    remember (is_category p (t_id s) CClass) as P1. clear HeqP1.
    remember (is_category p (t_id s) CInterface) as P2. clear HeqP2.
    remember (is_category p (t_id d) CClass) as P3. clear HeqP3.
    remember (is_category p (t_id d) CInterface) as P4. clear HeqP4.
    remember (is_category p (t_id d) CMulnum) as P5. clear HeqP5.
    assert (EQC : t_id s = t_id d -> category_of p (t_id s) = category_of p (t_id d)) by congruence.
    rewrite SU1, SU2. unfold bt_is_interface, bt_is_class, ID_STRING, ID_ANY_OBJECT, ID_BYTE, numeric_class in *.
    clear SU1 SU2 OK REL.
    remember (category_of p (t_id d)) as cd. clear Heqcd. remember (category_of p (t_id s)) as cs. clear Heqcs.
    destruct d as [di dd df], s as [si sd sf]; cbn [t_id t_dim t_flag] in *.
    destruct (shape p (Ty di dd df)); try discriminate Od; try (exfalso; apply N1; tauto);
      cbn [t_id t_dim t_flag] in MD; decompose [and] MD; clear MD Od; subst; try (exfalso; apply NN1; lia);
    (destruct (shape p (Ty si sd sf)); try discriminate Os; try (exfalso; apply N2; tauto)); cbn [t_id t_dim t_flag] in MS;
      decompose [and] MS; clear MS Os; subst; try (exfalso; apply NN2; lia); cbn [obind];
      clear NN1 NN2.
    all: repeat match goal with
      | |- context [(?a <=? ?b) && (?c <=? ?d)] =>
         first [ replace ((a <=? b) && (c <=? d)) with false by
                   (symmetry; apply andb_false_iff; rewrite !Z.leb_gt; lia) ]
      end.
    all: zb; cbn [obind andb orb negb cat_eqb];
      try (eexists; split; [reflexivity |]; rewrite ?SB1', ?SB2', ?IC1, ?IC2, ?IC3, ?IC4, ?IC5; clear SB1' SB2' IC1 IC2 IC3 IC4 IC5;
           destruct b1; [ destruct (HB1 eq_refl); try congruence; subst; try lia | clear HB1 ];
           (destruct b2; [ destruct (HB2 eq_refl); try congruence; subst; try lia | clear HB2 ]);
           intuition (first [discriminate | lia | congruence])).
    all: repeat match goal with c : category |- _ => destruct c; try (exfalso; lia); try (exfalso; congruence) end;
      cbn [cat_eqb]; destruct b1, b2;
      try (destruct (HB1 eq_refl); exfalso; congruence); try (destruct (HB2 eq_refl); exfalso; congruence);
      eexists; (split; [reflexivity |]); rewrite ?SB1', ?SB2', ?IC1, ?IC2, ?IC3, ?IC4, ?IC5;
      clear SB1' SB2' IC1 IC2 IC3 IC4 IC5 HB1 HB2;
      intuition (first [discriminate | lia | congruence]).
  Qed.
End Accept.
