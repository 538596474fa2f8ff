(** * C27: casts; C24: the values of assignments *)

From Verif Require Import Base CLib VmConv_model Type_model Type_spec Type_proofs TypeIface_proofs Type_props
  Cast_model Cast_spec CastSelect_proofs Cast_proofs CastRun_proofs CastAccept_proofs.

Section Props.
  Variables (p : prog) (w0 f0 w f : nat).
  Variable num_conv : Z -> Z -> Z -> Z.
  Variable string_num : Z -> option (list Z) -> Z.
  Variable num_string : Z -> Z -> list Z.
  Variable fresh : Z.

  Notation run := (run_cast p w f num_conv string_num num_string fresh).

  Lemma sound_no_interface d s : program_ok p -> compiles p w0 f0 -> (w0 <= w)%nat -> no_interface p d -> sound p w f d s.
  Proof.
    intros OK CO LE N OD OS CA o DO I. eapply C24_assignment_sound_partial; eauto.
  Qed.

  (** Every cast the compiler accepts, to a type that is not built from an
      interface, gives a value of that type or throws an exception. Except for
      three defects: a mutable string from an object of any type, an array
      from a non-object of its basic type, and the string of undef. *)
  Theorem C27_cast_partial d s c x :
    program_ok p -> compiles p w0 f0 -> (w0 <= w)%nat ->
    type_ok p d -> type_ok p s -> no_interface p d ->
    compile_cast p w f d s = Ret (Some c) -> has_type p w f s x ->
    ~ any_to_mutable d s -> ~ array_from_scalar p d s -> ~ undef_bytes d s x ->
    (exists y, run c x = Ret y /\ has_type p w f d y) \/ (exists m, run c x = Die m).
  Proof.
    intros OK CO LE TD TS N CC T NM NA NU.
    pose proof (cast_justified p OK w f d s c TD TS CC NA) as J.
    destruct (run_typed p OK w f w0 f0 CO LE num_conv string_num num_string fresh d s c x J) as (A & B); auto.
    { apply sound_no_interface; auto. }
    destruct (A N). destruct (run c x); eauto; contradiction.
  Qed.

  (** To a type built from an interface: the result of a cast that returns has
      the type, when the assignment of [s] to [d] is sound
      (C24_interface_sound_partial gives conditions for that). *)
  Theorem C27_interface_cast_partial d s c x y :
    program_ok p -> compiles p w0 f0 -> (w0 <= w)%nat ->
    type_ok p d -> type_ok p s -> is_category p (t_id d) CInterface ->
    compile_cast p w f d s = Ret (Some c) -> has_type p w f s x ->
    (object_type p s -> can_assign_types p w f d s = Ret true ->
     forall o, dynamic_type p o -> isa p w f o (t_id s) (t_dim s) = Ret true ->
       isa p w f o (t_id d) (t_dim d) = Ret true) ->
    run c x = Ret y -> has_type p w f d y.
  Proof.
    intros OK CO LE TD TS I CC T SO R.
    assert (G : 17 <= t_id d).
    { destruct TD as (B & _). pose proof (cat_ids p OK _ B) as CI. apply is_category_of in I; auto. rewrite I in CI. auto. }
    assert (NA : ~ array_from_scalar p d s).
    { intros (D1 & E & N). pose proof TD as (B & _). apply is_category_of in I; auto.
      assert (SI : category_of p (t_id s) = CInterface) by (rewrite <- E; auto).
      apply N. apply object_type_shape; auto. rewrite (sh_object p OK _ TS).
      pose proof (shape_spec p OK _ TS) as M. unfold shape_means in M.
      assert (R0 : is_ref s = false).
      { destruct TS as (Bs & _ & FL & _). unfold is_ref, FLAG_REF, FLAG_MUTABLE in *.
        destruct FL as [-> | [(-> & _) | (_ & _ & [F | F])]]; auto; [lia |].
        apply is_category_of in F; auto. congruence. }
      unfold shape in *. rewrite R0 in *. rewrite SI. destruct (t_dim s =? 0); auto. destruct (t_dim s =? 1); auto. }
    pose proof (cast_justified p OK w f d s c TD TS CC NA) as J.
    destruct (run_typed p OK w f w0 f0 CO LE num_conv string_num num_string fresh d s c x J) as (A & B); auto.
    - intros OD OS CA. auto.
    - intros (F & _). destruct TD as (B & _ & FL & _). unfold FLAG_MUTABLE, FLAG_REF, ID_STRING in *.
      destruct FL as [FL | [(_ & FL & _) | (FL & _)]]; lia.
    - intros (E & _). unfold ID_STRING in E. lia.
  Qed.

  (** Between object types, apart from string and byte[], an accepted cast is
      a run-time check: it returns the same object exactly when the object is
      an instance of the target type (and not read-only, for a mutable
      string), throws an exception otherwise, and keeps undef. *)
  Theorem C27_reference_cast_is_a_check d s c x :
    program_ok p -> compiles p w0 f0 -> (w0 <= w)%nat ->
    object_type p d -> object_type p s -> no_interface p d -> ~ converts d s -> ~ any_to_mutable d s ->
    compile_cast p w f d s = Ret (Some c) -> has_type p w f s x ->
    match x with
    | VUndef => run c x = Ret VUndef
    | VObj o =>
        (instance p (o_dyn o) d /\ (t_flag d = FLAG_MUTABLE -> o_ro o = false) -> run c x = Ret x) /\
        (~ (instance p (o_dyn o) d /\ (t_flag d = FLAG_MUTABLE -> o_ro o = false)) -> exists m, run c x = Die m)
    | _ => False
    end.
  Proof.
    intros OK CO LE OD OS N NC NM CC T. pose proof OD as (TD & _). pose proof OS as (TS & _).
    assert (NA : ~ array_from_scalar p d s) by (intros (_ & _ & A); auto).
    assert (NU : ~ undef_bytes d s x).
    { intros (A1 & A2 & A3 & A4 & _). apply NC. left. auto. }
    pose proof (cast_justified p OK w f d s c TD TS CC NA) as J.
    pose proof (run_typed p OK w f w0 f0 CO LE num_conv string_num num_string fresh d s c x J
      (sound_no_interface d s OK CO LE N) T NM NU) as (_ & RT).
    destruct (has_object_type p OK w f s x OS T) as [-> | (o & -> & DO & IA & MU)].
    - destruct J as [-> ? | -> ? | -> | ? ? ? ? B1 B2 | D F B ? | D F B ? ? ?
      | ? ? ? DS FS B | ? ? ? DS FS B | I D ? IS DS ? | ? ? ? ? ? ? ?
      | ? ? ? ? ? ? ? | ? ? ? | ? ? ?]; cbn [run_cast]; auto; exfalso.
      + eapply (object_not_number p OK d OD (t_id d)); auto. apply ty_eq; auto.
      + eapply (object_not_number p OK d OD (t_id d)); auto. apply ty_eq; auto.
      + eapply (object_not_number p OK d OD (t_id d)); auto. apply ty_eq; auto.
      + eapply (object_not_number p OK s OS (t_id s)); auto. apply ty_eq; auto.
      + eapply (object_not_number p OK s OS (t_id s)); auto. apply ty_eq; auto.
      + apply NC. left. auto.
    - destruct (C25_isa_is_instance p w0 f0 w f (o_dyn o) d OK CO LE DO OD N) as (b & IB & SB).
      assert (MV : has_type p w f d (VObj o) -> run c (VObj o) = Ret (VObj o) ->
        (instance p (o_dyn o) d /\ (t_flag d = FLAG_MUTABLE -> o_ro o = false) -> run c (VObj o) = Ret (VObj o)) /\
        (~ (instance p (o_dyn o) d /\ (t_flag d = FLAG_MUTABLE -> o_ro o = false)) -> exists m, run c (VObj o) = Die m)).
      { intros (_ & _ & I & M) R. split; auto. intros X. exfalso. apply X. split; auto.
        rewrite IB in I. inversion I; subst. tauto. }
      destruct J as [-> ? | -> ? | -> | ? ? ? ? B1 B2 | D F B ? | D F B ? ? ?
      | ? ? ? DS FS B | ? ? ? DS FS B | I D ? IS DS ? | ? ? ? ? ? ? ?
      | I D F ? ? DS IS | ? ? CA | ? ? F].
      all: try (apply MV; [apply RT |]; reflexivity).
      + exfalso. apply (undef_not_object p OK), OS.
      + exfalso. eapply (object_not_number p OK d OD (t_id d)); auto. apply ty_eq; auto.
      + exfalso. eapply (object_not_number p OK d OD (t_id d)); auto. apply ty_eq; auto.
      + exfalso. eapply (object_not_number p OK d OD (t_id d)); auto. apply ty_eq; auto.
      + exfalso. eapply (object_not_number p OK s OS (t_id s)); auto. apply ty_eq; auto.
      + exfalso. eapply (object_not_number p OK s OS (t_id s)); auto. apply ty_eq; auto.
      + exfalso. apply NC. left. auto.
      + exfalso. apply NC. right. auto.
      + destruct IS as [IS | IS]; [| exfalso; apply NM; unfold any_to_mutable; auto].
        cbn [run_cast] in *. rewrite (isa_string p OK w f w0 f0 CO LE s _ OS DO IS DS IA) in *. cbn in *.
        rewrite F. destruct (o_ro o) eqn:RO.
        * split; [intros (_ & M); discriminate (M eq_refl) | eauto].
        * split; auto. intros X. exfalso. apply X. split; auto.
          unfold instance. rewrite D, I. cbn. split; auto. now left.
      + cbn [run_cast] in *. rewrite IB in *. cbn [obind] in *. unfold FLAG_MUTABLE. rewrite F.
        destruct b; split; eauto.
        * intros X. exfalso. apply X. split; [tauto | discriminate].
        * intros (X & _). apply SB in X. discriminate.
  Qed.

  (** An assignment (initialization, argument, return value) the compiler
      accepts, to a type that is not built from an interface, stores a value
      of that type; only the unboxing of an object can throw an exception. *)
  Theorem C24_assigned_value_partial narrow d s c x :
    program_ok p -> compiles p w0 f0 -> (w0 <= w)%nat ->
    type_ok p d -> type_ok p s -> no_interface p d ->
    compile_assign p w f narrow d s = Ret (Some c) -> has_type p w f s x ->
    (exists y, run c x = Ret y /\ has_type p w f d y) \/
    (3 <= t_id d <= 8 /\ object_type p s /\ exists m, run c x = Die m).
  Proof.
    intros OK CO LE TD TS N CC T.
    pose proof (assign_justified p OK w f narrow d s c TD TS CC) as J.
    assert (NS : forall r, t_id d = ID_STRING -> t_dim d = 0 ->
      (t_id s = ID_ANY_OBJECT /\ t_dim s = 0) \/ (t_id s = ID_BYTE /\ t_dim s = 1) -> r = Ret (Some c) ->
      compile_assign p w f narrow d s = r -> False).
    { intros r I D S -> E. unfold compile_assign in E. destruct (is_void s); [discriminate |].
      destruct (satisfy_assignment _ _ _ _ _ _ _) as [r | | |] eqn:SA; cbn [obind] in E; try discriminate.
      rewrite (assign_to_string p OK w f narrow d s r TD TS I D S SA) in E. discriminate. }
    assert (NM : ~ any_to_mutable d s).
    { intros (F & I & D). destruct TD as (_ & _ & FL & _). unfold FLAG_MUTABLE, FLAG_REF in *.
      destruct FL as [FL | [(_ & FI & FD) | (FL & _)]]; try lia. eapply NS; eauto. }
    assert (NU : ~ undef_bytes d s x).
    { intros (I & D & IS & DS & _). eapply NS; eauto. }
    destruct (run_typed p OK w f w0 f0 CO LE num_conv string_num num_string fresh d s c x J) as (A & B); auto.
    { apply sound_no_interface; auto. }
    destruct (A N) as (A1 & A2).
    destruct (run c x) as [y | m | |] eqn:R; [left; eauto | right | contradiction | contradiction].
    assert (K : c = Move \/ is_numeric d = true \/ is_numeric s = true).
    { unfold compile_assign in CC. destruct (is_void s); [discriminate |].
      destruct (satisfy_assignment _ _ _ _ _ _ _) as [[ok cv] | | |] eqn:SA; cbn [obind] in CC; try discriminate.
      destruct ok; cbn [negb] in CC; [| discriminate]. destruct cv; [| inversion CC; auto].
      right. eapply assign_conv_number; eauto. }
    destruct J as [-> ? | -> ? | -> | D1 D2 F1 F2 B1 B2 | D F BB OS | D F BB I DS OS
      | ? ? ? DS FS BB | ? ? ? DS FS BB | I D OD IS DS OS | I D F OD IS DS OS
      | I D F OD OS DS IS | ? ? CA | OD OS F]; cbn [run_cast] in R; try discriminate R.
    - destruct (has_number_type p OK w f s x D2 F2 B2 T) as (n & ->). rewrite Z.eqb_refl in R. discriminate.
    - split; auto. split; auto. eauto.
    - destruct (has_object_type p OK w f s x OS T) as [-> | (o & -> & _)]; [discriminate |].
      destruct (_ && _) in R; discriminate.
    - destruct (has_number_type p OK w f s x DS FS BB T) as (n & ->). destruct (_ =? _) in R; discriminate.
    - destruct (has_number_type p OK w f s x DS FS BB T) as (n & ->). destruct (_ =? _) in R; discriminate.
    - destruct (has_object_type p OK w f s x OS T) as [-> | (o & -> & _)]; [discriminate |].
      destruct (_ && _) in R; [| discriminate]. cbn in R. discriminate.
    - destruct (has_object_type p OK w f s x OS T) as [-> | (o & -> & _)]; [discriminate |].
      destruct (_ && _) in R; [| discriminate]. cbn in R. discriminate.
    - exfalso. destruct K as [K | [K | K]]; [discriminate | |];
        pose proof OD as (TD' & _); pose proof OS as (TS' & _);
        apply (object_type_shape p OK _ TD') in OD; apply (object_type_shape p OK _ TS') in OS.
      + rewrite (sh_object p OK _ TD) in OD. rewrite (sh_numeric p OK _ TD) in K. destruct (shape p d); discriminate.
      + rewrite (sh_object p OK _ TS) in OS. rewrite (sh_numeric p OK _ TS) in K. destruct (shape p s); discriminate.
    - exfalso. destruct K as [K | [K | K]]; [discriminate | |];
        pose proof OD as (TD' & _); pose proof OS as (TS' & _);
        apply (object_type_shape p OK _ TD') in OD; apply (object_type_shape p OK _ TS') in OS.
      + rewrite (sh_object p OK _ TD) in OD. rewrite (sh_numeric p OK _ TD) in K. destruct (shape p d); discriminate.
      + rewrite (sh_object p OK _ TS) in OS. rewrite (sh_numeric p OK _ TS) in K. destruct (shape p s); discriminate.
  Qed.
End Props.

(** Which casts between object types the compiler accepts (interfaces and the
    final numeric classes apart): to a super type, to a sub type, and between
    string and byte[]. It also accepts to cast to short[], ..., double[] and
    arrays of a multi-numeric type from arrays of other dimensions; these
    throw an exception for every defined value. *)
Theorem C27_accepted p w f v f' d s :
  program_ok p -> compiles p w f -> (w <= v)%nat ->
  object_type p d -> object_type p s -> no_interface p d -> no_interface p s ->
  ~ (t_dim d = 0 /\ numeric_class (t_id d)) -> ~ (t_dim s = 0 /\ numeric_class (t_id s)) ->
  exists r, compile_cast p v f' d s = Ret r /\
    (r <> None <-> instance p (t_id s, t_dim s) d \/ instance p (t_id d, t_dim d) s \/ converts d s \/
                   (t_dim d = 1 /\ t_id s = t_id d /\ (4 <= t_id d <= 8 \/ is_category p (t_id d) CMulnum))).
Proof.
  intros OK CO L Od Os N1 N2 NN1 NN2.
  destruct (cast_accept p OK w (proj1 CO) v f' d s L Od Os N1 N2 NN1 NN2) as (b & E & S).
  unfold compile_cast. rewrite E. cbn [obind]. destruct b; cbn [negb].
  - destruct (ty_equals d s); [eexists; split; [reflexivity |]; split; [tauto | discriminate] |].
    assert (T : exists c, select_cast p v f' d s = Ret c).
    { unfold select_cast, can_assign_types.
      destruct (assign_spec p OK w (proj1 CO) v (has_interface p v f') false d s L Od Os N1) as (b & -> & _).
      cbn [obind]. repeat match goal with |- context [if ?b then _ else _] => destruct b; eauto end. }
    destruct T as (c & ->). cbn [obind]. eexists. split; [reflexivity |]. split; [tauto | discriminate].
  - eexists. split; [reflexivity |]. split; [congruence |]. intros H. apply S in H. discriminate.
Qed.

(** ** Concrete cases *)

Definition conv0 (a b n : Z) : Z := n.
Definition string0 (a : Z) (s : option (list Z)) : Z := 0.
Definition print0 (a n : Z) : list Z := [].
Notation run1 := (run_cast ex1 4 1 conv0 string0 print0 0).
Definition an_A := VObj (Obj 1 (18, 0) false [] 0).
Definition a_C := VObj (Obj 2 (20, 0) false [] 0).

(** (A)$object, (C)$b, (string)$bytes, (mutable string)$string. *)
Example C27_example :
  compile_cast ex1 4 1 (Ty 18 0 0) ty_object = Ret (Some (MoveTypeCheck 18 0)) /\
  has_type ex1 4 1 ty_object an_A /\ has_type ex1 4 1 (Ty 19 0 0) a_C /\
  run1 (MoveTypeCheck 18 0) an_A = Ret an_A /\
  compile_cast ex1 4 1 (Ty 20 0 0) (Ty 19 0 0) = Ret (Some (MoveTypeCheck 20 0)) /\
  run1 (MoveTypeCheck 20 0) (VObj (Obj 3 (19, 0) false [] 0)) = Die MSG_NON_ASSIGNABLE /\
  compile_cast ex1 4 1 ty_string (Ty ID_BYTE 1 0) = Ret (Some ByteArrayToString) /\
  compile_cast ex1 4 1 (Ty ID_STRING 0 FLAG_MUTABLE) ty_string = Ret (Some MoveCheckReadOnly) /\
  run1 MoveCheckReadOnly (VObj (Obj 4 (ID_STRING, 0) true [65] 0)) = Die MSG_READ_ONLY /\
  compile_cast ex1 4 1 (Ty 17 0 0) (Ty 18 0 0) = Ret (Some Move) /\
  compile_cast ex1 4 1 (Ty 18 0 0) ty_string = Ret None /\
  compile_assign ex1 4 1 false ty_object ty_int = Ret (Some (BoxNum 13)) /\
  run1 (BoxNum 13) (VNum 5 7) = Ret (VObj (Obj 0 (13, 0) false [] 7)).
Proof.
  assert (C : forall i, 18 <= i <= 20 -> is_category ex1 i CClass).
  { intros i B. assert (i = 18 \/ i = 19 \/ i = 20) as [-> | [-> | ->]] by lia;
      eexists; (split; [vm_compute; reflexivity | reflexivity]). }
  assert (O : forall i, i = 10 \/ 18 <= i <= 20 -> object_type ex1 (Ty i 0 0)).
  { intros i B. unfold object_type, type_ok, FLAG_REF. cbn [t_id t_dim t_flag]. change (zlen ex1) with 21.
    destruct B as [-> | B]; repeat split; auto 10; lia. }
  assert (D : forall i, 18 <= i <= 20 -> dynamic_type ex1 (i, 0)).
  { intros i B. unfold dynamic_type. cbn [fst snd]. change (zlen ex1) with 21. split; [lia |]. left. auto. }
  split; [vm_compute; reflexivity |].
  split; [split; [apply O; auto | split; [apply D; cbn; lia | split; [vm_compute; reflexivity | discriminate]]] |].
  split; [split; [apply O; lia | split; [apply D; cbn; lia | split; [vm_compute; reflexivity | discriminate]]] |].
  repeat (split; [vm_compute; reflexivity |]). vm_compute; reflexivity.
Qed.

(** ** Defects *)

(** (mutable string)$object where the object is an Int: accepted, not checked
    at run time, and the result is not a string. *)
Theorem C27_any_to_mutable_refuted :
  exists c x, program_ok ex1 /\ compiles ex1 3 2 /\
    compile_cast ex1 4 1 (Ty ID_STRING 0 FLAG_MUTABLE) ty_object = Ret (Some c) /\
    has_type ex1 4 1 ty_object x /\ run1 c x = Ret x /\
    ~ has_type ex1 4 1 (Ty ID_STRING 0 FLAG_MUTABLE) x.
Proof.
  exists MoveCheckReadOnly, (VObj (Obj 1 (ID_INT_CLASS, 0) false [] 5)).
  split; [apply ex1_ok |]. split; [apply ex1_compiles |]. split; [vm_compute; reflexivity |].
  split; [| split; [reflexivity |]].
  - split; [| split; [| split; [vm_compute; reflexivity | discriminate]]].
    + unfold object_type, type_ok, FLAG_REF. cbn [t_id t_dim t_flag ty_object]. change (zlen ex1) with 21.
      repeat split; auto; unfold ID_ANY_OBJECT; lia.
    + apply (dyn_box ex1 ex1_ok). unfold ID_INT_CLASS. lia.
  - intros (_ & _ & I & _). vm_compute in I. discriminate.
Qed.

(** (int[])5 is accepted, but there is no instruction for it. *)
Theorem C27_array_from_scalar_refuted :
  compile_cast ex1 4 1 (Ty ID_INT 1 0) ty_int = Ret (Some AssertFails) /\
  has_type ex1 4 1 ty_int (VNum ID_INT 5) /\ run1 AssertFails (VNum ID_INT 5) = UB.
Proof. split; [vm_compute; reflexivity |]. split; [split; [reflexivity | unfold ID_INT; lia] | reflexivity]. Qed.

(** A is a class with the interface I. An I[] can be cast to A[], but an I[][]
    cannot be cast to A[][]. *)
Theorem C27_interface_downcast_refuted :
  isa ex1 4 1 (18, 2) 17 2 = Ret true /\
  compile_cast ex1 4 1 (Ty 18 1 0) (Ty 17 1 0) = Ret (Some (MoveTypeCheck 18 1)) /\
  compile_cast ex1 4 1 (Ty 18 2 0) (Ty 17 2 0) = Ret None.
Proof. repeat split; vm_compute; reflexivity. Qed.

(** (Int)$x is rejected although the type of $x is Int. *)
Theorem C27_same_numeric_class_refuted :
  can_assign_types ex1 4 1 (Ty ID_INT_CLASS 0 0) (Ty ID_INT_CLASS 0 0) = Ret true /\
  compile_cast ex1 4 1 (Ty ID_INT_CLASS 0 0) (Ty ID_INT_CLASS 0 0) = Ret None.
Proof. split; vm_compute; reflexivity. Qed.

Print Assumptions C27_cast_partial.
Print Assumptions C27_interface_cast_partial.
Print Assumptions C27_reference_cast_is_a_check.
Print Assumptions C24_assigned_value_partial.
Print Assumptions C27_accepted.
Print Assumptions C27_any_to_mutable_refuted.
Print Assumptions C27_array_from_scalar_refuted.
Print Assumptions C27_interface_downcast_refuted.
Print Assumptions C27_same_numeric_class_refuted.
