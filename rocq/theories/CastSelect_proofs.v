(** * Proofs about casts *)

From Verif Require Import Base CLib VmConv_model Type_model Type_spec Type_proofs TypeIface_proofs Type_props
  Cast_model Cast_spec.

Section Cast.
  Variable p : prog.
  Hypothesis OK : program_ok p.
  Variables w f : nat.

  (** Why each instruction is chosen. *)
  Inductive justified (d s : ty) : cast_op -> Prop :=
  | j_undef : s = Ty ID_UNDEF 0 0 -> object_type p d -> justified d s MoveUndef
  | j_undef_move : s = Ty ID_UNDEF 0 0 -> object_type p d -> justified d s Move
  | j_same : d = s -> justified d s Move
  | j_num : t_dim d = 0 -> t_dim s = 0 -> t_flag d = 0 -> t_flag s = 0 -> 3 <= t_id d <= 8 -> 3 <= t_id s <= 8 ->
      justified d s (NumConv (t_id s) (t_id d))
  | j_unbox : t_dim d = 0 -> t_flag d = 0 -> 3 <= t_id d <= 8 -> object_type p s -> justified d s (Unbox (t_id d))
  | j_str_num : t_dim d = 0 -> t_flag d = 0 -> 3 <= t_id d <= 8 -> t_id s = ID_STRING -> t_dim s = 0 -> object_type p s ->
      justified d s (StringToNum (t_id d))
  | j_box : object_type p d -> t_dim d = 0 -> (t_id d = ID_ANY_OBJECT \/ t_id d = t_id s + 8) ->
      t_dim s = 0 -> t_flag s = 0 -> 3 <= t_id s <= 8 -> justified d s (BoxNum (t_id s + 8))
  | j_num_str : t_id d = ID_STRING -> t_dim d = 0 -> object_type p d ->
      t_dim s = 0 -> t_flag s = 0 -> 3 <= t_id s <= 8 -> justified d s (NumToString (t_id s))
  | j_bytes_str : t_id d = ID_STRING -> t_dim d = 0 -> object_type p d ->
      t_id s = ID_BYTE -> t_dim s = 1 -> object_type p s -> justified d s ByteArrayToString
  | j_str_bytes : t_id d = ID_BYTE -> t_dim d = 1 -> t_flag d = 0 -> object_type p d ->
      t_id s = ID_STRING -> t_dim s = 0 -> object_type p s -> justified d s StringToByteArray
  | j_ro : t_id d = ID_STRING -> t_dim d = 0 -> t_flag d = FLAG_MUTABLE -> object_type p d -> object_type p s ->
      t_dim s = 0 -> (t_id s = ID_STRING \/ t_id s = ID_ANY_OBJECT) -> justified d s MoveCheckReadOnly
  | j_move : object_type p d -> object_type p s -> can_assign_types p w f d s = Ret true -> justified d s Move
  | j_check : object_type p d -> object_type p s -> t_flag d = 0 -> justified d s (MoveTypeCheck (t_id d) (t_dim d)).

  Lemma flag_mutable t : type_ok p t -> is_mutable t = (t_flag t =? FLAG_MUTABLE).
  Proof.
    intros (_ & _ & FL & _). unfold is_mutable, FLAG_MUTABLE, FLAG_REF in *.
    destruct FL as [-> | [(-> & _) | (-> & _)]]; reflexivity.
  Qed.

  Lemma assign_any d s : type_ok p d -> type_ok p s -> shape p d = SAny -> is_object p s = true ->
    can_assign_types p w f d s = Ret true.
  Proof using OK.
    intros TD TS SD. rewrite (sh_object p OK _ TS). intros SS.
    unfold can_assign_types, assign_noconv, satisfy_assignment. shapes_of d TD. shapes_of s TS. rewrite SD.
    destruct (shape p s); try discriminate SS; reflexivity.
  Qed.
  Lemma assign_string d s : type_ok p d -> type_ok p s -> shape p d = SStr -> shape p s = SStr ->
    is_mutable d && negb (is_mutable s) = false ->
    can_assign_types p w f d s = Ret true.
  Proof using OK.
    intros TD TS SD SS M.
    unfold can_assign_types, assign_noconv, satisfy_assignment. shapes_of d TD. shapes_of s TS. rewrite SD, SS, M.
    reflexivity.
  Qed.

  Lemma ty_eq (a b : ty) : t_id a = t_id b -> t_dim a = t_dim b -> t_flag a = t_flag b -> a = b.
  Proof. destruct a, b. cbn. congruence. Qed.

  Ltac close_conds :=
    repeat match goal with
    | H : obind (can_assign_types ?a ?b ?c ?d ?e) _ = Ret _ |- _ =>
        let E := fresh "CA" in destruct (can_assign_types a b c d e) as [[|] | | |] eqn:E; cbn [obind] in H; try discriminate H
    | H : Ret _ = Ret _ |- _ => injection H as H
    | H : context [if ?a =? ?b then _ else _] |- _ => destruct (Z.eqb_spec a b); try lia
    | H : context [if ?b then _ else _] |- _ => destruct b eqn:?; try discriminate
    end.

  Lemma select_justified d s c :
    type_ok p d -> type_ok p s -> satisfy_cast p w f d s = Ret true -> d <> s ->
    ~ array_from_scalar p d s -> select_cast p w f d s = Ret c -> justified d s c.
  Proof using OK.
    intros TD TS. pose proof (shape_spec p OK _ TD) as MD. pose proof (shape_spec p OK _ TS) as MS.
    pose proof (object_type_shape p OK d TD) as OD. pose proof (object_type_shape p OK s TS) as OS.
    pose proof (assign_any d s TD TS) as AA. rewrite (sh_object p OK _ TS) in AA.
    pose proof (assign_string d s TD TS) as AST.
    rewrite (sh_object p OK _ TD) in OD. rewrite (sh_object p OK _ TS) in OS.
    unfold satisfy_cast, select_cast.
    pose proof (flag_mutable d TD) as FMD. pose proof (flag_mutable s TS) as FMS.
    rewrite FMD, FMS in AST. rewrite FMD, FMS.
    shapes_of d TD. shapes_of s TS. unfold array_from_scalar. rewrite OS.
    unfold shape_means in MD, MS.
    intros SC NE NAS SEL.
    assert (NE' : t_id d = t_id s -> t_dim d = t_dim s -> t_flag d = t_flag s -> False)
      by (intros; apply NE; apply ty_eq; auto).
    assert (SU : t_id s = 1 -> t_dim s = 0 -> t_flag s = 0 -> s = Ty ID_UNDEF 0 0)
      by (intros; apply ty_eq; auto).
    assert (FU : t_id s = 1 -> t_flag s = 0).
    { intros H. destruct TS as (_ & _ & FL & _). unfold ID_STRING in FL.
      destruct FL as [F | [(_ & F & _) | (_ & _ & [F | F])]]; auto; try lia.
      rewrite H in F. destruct F as (b & E1 & E2).
      pose proof (is_category_of p 1 CMulnum) as IC. pose proof (cat_ids p OK 1) as CI.
      destruct OK. exfalso. assert (0 <= 1 < zlen p) by lia. specialize (IC H0). specialize (CI H0).
      destruct IC as (IC & _). rewrite IC in CI by (eexists; eauto). lia. }
    clear TD TS NE.
    unfold ID_BYTE, UPGRADE_SHIFT in *.
    destruct (shape p d); try discriminate SC; try discriminate SEL;
      destruct (shape p s); try discriminate SC; try discriminate SEL; close_conds; subst c;
      repeat match goal with H : _ /\ _ |- _ => destruct H end;
      try match goal with |- justified _ _ (BoxNum (t_id d)) => replace (t_id d) with (t_id s + 8) by lia end;
      try (exfalso; apply NAS; repeat split; try lia; intros; discriminate);
      try (exfalso; apply NE'; lia);
      try (constructor; unfold ID_STRING, ID_BYTE, ID_ANY_OBJECT; auto; try (apply OD; reflexivity);
           try (apply OS; reflexivity); try lia; fail).
    all: try (exfalso; apply andb_prop in SC; destruct SC as (SC & _); apply ty_equals_spec in SC;
              apply NE'; congruence).
    all: try (replace (t_id d) with (t_id s + 8) by lia; constructor; auto; [apply OD; reflexivity | lia | lia]).
  Qed.
End Cast.
