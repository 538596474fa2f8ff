(** * Proofs about the choice of conversions *)

From Verif Require Import Base CLib VmConv_model Type_model Type_spec Type_proofs TypeIface_proofs Type_props
  Cast_model Cast_spec CastSelect_proofs.

Section Cast.
  Variable p : prog.
  Hypothesis OK : program_ok p.
  Variables w f : nat.
  Notation justified := (justified p w f).

  (** A conversion is only needed between numbers and for boxing. *)
  Lemma assign_conv narrow d s :
    type_ok p d -> type_ok p s ->
    satisfy_assignment p w (has_interface p w f) narrow false d s = Ret (true, true) ->
    satisfy_cast p w f d s = Ret true /\ d <> s /\ ~ array_from_scalar p d s.
  Proof using OK.
    intros TD TS. pose proof (shape_spec p OK _ TD) as MD. pose proof (shape_spec p OK _ TS) as MS.
    unfold satisfy_assignment, satisfy_cast, array_from_scalar.
    unfold plain, yes_if, yes, no, conv.
    shapes_of d TD. shapes_of s TS. unfold shape_means in MD, MS. unfold UPGRADE_SHIFT.
    destruct (shape p d) eqn:SD; try discriminate;
      destruct (shape p s) eqn:SS; try discriminate;
      repeat match goal with
      | |- context [obind ?a _] => destruct a as [[|] | | |]; cbn [obind]; try discriminate
      | |- context [if ?b then _ else _] => destruct b eqn:?; try discriminate
      end; intros _;
      repeat match goal with H : (_ =? _) = _ |- _ => (apply Z.eqb_eq in H || apply Z.eqb_neq in H) end;
      try (split; [try reflexivity; f_equal; apply Z.eqb_eq; lia |]; split; [intros -> | intros (? & _)]; try lia; congruence).
  Qed.

  Lemma assign_conv_number narrow d s :
    type_ok p d -> type_ok p s ->
    satisfy_assignment p w (has_interface p w f) narrow false d s = Ret (true, true) ->
    is_numeric d = true \/ is_numeric s = true.
  Proof using OK.
    intros TD TS. unfold satisfy_assignment, plain, yes_if, yes, no, conv.
    shapes_of d TD. shapes_of s TS.
    destruct (shape p d) eqn:SD; try discriminate; auto;
      destruct (shape p s) eqn:SS; try discriminate; auto;
      repeat match goal with
      | |- context [obind ?a _] => destruct a as [[|] | | |]; cbn [obind]; try discriminate
      | |- context [if ?b then _ else _] => destruct b eqn:?; try discriminate
      end.
  Qed.

  (** Strings are only assigned from strings, numbers and undef. *)
  Lemma assign_to_string narrow d s r :
    type_ok p d -> type_ok p s -> t_id d = ID_STRING -> t_dim d = 0 ->
    (t_id s = ID_ANY_OBJECT /\ t_dim s = 0) \/ (t_id s = ID_BYTE /\ t_dim s = 1) ->
    satisfy_assignment p w (has_interface p w f) narrow false d s = Ret r -> r = (false, false).
  Proof using OK.
    intros TD TS I D S. pose proof (shape_spec p OK _ TD) as MD. pose proof (shape_spec p OK _ TS) as MS.
    assert (FR : t_flag d <> FLAG_REF /\ t_flag s <> FLAG_REF).
    { destruct TD as (BD & _ & FD & _), TS as (BS & _ & FS & _).
      pose proof (cat_ids p OK _ BD) as CD. pose proof (cat_ids p OK _ BS) as CS.
      rewrite !is_category_of in * by auto. unfold FLAG_REF, FLAG_MUTABLE, ID_STRING, ID_BYTE, ID_ANY_OBJECT in *.
      split; intros F; rewrite F in *.
      - destruct FD as [FD | [(FD & _) | (_ & _ & [FD | FD])]]; try lia. rewrite FD in CD. lia.
      - destruct FS as [FS | [(FS & _) | (_ & FS0 & [FS | FS])]]; try lia. rewrite FS in CS. lia. }
    unfold satisfy_assignment, yes_if, no. shapes_of d TD. shapes_of s TS. unfold shape_means in *.
    pose proof TD as (BD & _). pose proof (cat_ids p OK _ BD) as CD.
    pose proof TS as (BS & _). pose proof (cat_ids p OK _ BS) as CS.
    unfold ID_STRING, ID_BYTE, ID_ANY_OBJECT in *.
    assert (SD : shape p d = SStr).
    { destruct (shape p d); auto; decompose [and] MD; try lia; try (rewrite H1 in CD; lia); try (rewrite H in CD; lia). }
    rewrite SD. destruct (shape p s); try (intros [= <-]; reflexivity); exfalso; lia.
  Qed.

  Lemma assign_noconv_true narrow d s :
    satisfy_assignment p w (has_interface p w f) narrow false d s = Ret (true, false) -> is_numeric d = false ->
    can_assign_types p w f d s = Ret true.
  Proof using.
    intros H N. unfold can_assign_types, assign_noconv. unfold satisfy_assignment in *. rewrite N in *. rewrite H.
    reflexivity.
  Qed.

  Lemma undef_flag s : type_ok p s -> t_id s = 1 -> t_flag s = 0.
  Proof using OK.
    intros TS H. destruct TS as (_ & _ & FL & _). unfold ID_STRING in FL.
    destruct FL as [F | [(_ & F & _) | (_ & _ & [F | F])]]; auto; try lia.
    exfalso. pose proof F as (b & E & _). apply znth_Some in E.
    pose proof (cat_ids p OK (t_id s) E) as CI. apply is_category_of in F; auto. rewrite F in CI. lia.
  Qed.

  Lemma assign_move narrow d s :
    type_ok p d -> type_ok p s -> is_void s = false ->
    satisfy_assignment p w (has_interface p w f) narrow false d s = Ret (true, false) ->
    justified d s Move.
  Proof using OK.
    intros TD TS NV SA. pose proof (shape_spec p OK _ TD) as MD. pose proof (shape_spec p OK _ TS) as MS.
    pose proof (object_type_shape p OK d TD) as OD. pose proof (object_type_shape p OK s TS) as OS.
    rewrite (sh_object p OK _ TD) in OD. rewrite (sh_object p OK _ TS) in OS.
    pose proof (assign_noconv_true narrow d s SA) as CA. rewrite (sh_numeric p OK _ TD) in CA.
    pose proof (undef_flag s TS) as UF.
    rewrite (sh_void p OK _ TS) in NV.
    revert SA. unfold satisfy_assignment, plain, yes_if, yes, no, conv.
    shapes_of d TD. shapes_of s TS. unfold shape_means in MD, MS. unfold UPGRADE_SHIFT.
    destruct (shape p d) eqn:SD; try discriminate;
      destruct (shape p s) eqn:SS; try discriminate; intros SA;
      try (apply j_move; [apply OD; reflexivity | apply OS; reflexivity | apply CA; reflexivity]);
      try (apply j_undef_move; [apply ty_eq; cbn; unfold ID_UNDEF; try apply UF; lia | apply OD; reflexivity]);
      try (injection SA as SA; apply ty_equals_spec in SA; apply j_same; assumption).
    - apply j_same. apply ty_eq; try lia. destruct (Z.eqb_spec (t_id s) (t_id d)); auto.
      destruct (_ >? _); [discriminate |]. destruct narrow; discriminate.
    - destruct (_ =? _); discriminate.
    - destruct (_ =? _); discriminate.
  Qed.

  Lemma assign_justified narrow d s c :
    type_ok p d -> type_ok p s -> compile_assign p w f narrow d s = Ret (Some c) -> justified d s c.
  Proof using OK.
    intros TD TS. unfold compile_assign. destruct (is_void s) eqn:NV; [discriminate |].
    destruct (satisfy_assignment _ _ _ _ _ _ _) as [[ok cv] | | |] eqn:SA; cbn [obind]; try discriminate.
    destruct ok; cbn [negb]; [| discriminate]. destruct cv.
    - destruct (assign_conv narrow d s TD TS SA) as (A & B & C).
      destruct (select_cast p w f d s) as [op | | |] eqn:SEL; cbn [obind]; try discriminate.
      intros [= <-]. apply select_justified; auto.
    - intros [= <-]. eapply assign_move; eauto.
  Qed.

  Lemma cast_justified d s c :
    type_ok p d -> type_ok p s -> compile_cast p w f d s = Ret (Some c) -> ~ array_from_scalar p d s ->
    justified d s c.
  Proof using OK.
    intros TD TS. unfold compile_cast.
    destruct (satisfy_cast p w f d s) as [[|] | | |] eqn:SC; cbn [obind negb]; try discriminate.
    destruct (ty_equals d s) eqn:EQ.
    - intros [= <-] _. apply j_same. apply ty_equals_spec. auto.
    - destruct (select_cast p w f d s) as [op | | |] eqn:SEL; cbn [obind]; try discriminate.
      intros [= <-] N. apply select_justified; auto. intros ->.
      rewrite (proj2 (ty_equals_spec s s) eq_refl) in EQ. discriminate.
  Qed.
End Cast.
