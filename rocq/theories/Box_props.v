(** * Boxing and unboxing: C20 *)

From Verif Require Import Base Bytes Box_model.

(** A runtime as the compiler sets it up: names are unique and the number
    classes have their fixed ids (spvm_compiler.c:610-632 asserts it). *)
Definition good_runtime (rt : runtime) : Prop :=
  NoDup rt /\ zsub rt 11 6 = ["Byte"; "Short"; "Int"; "Long"; "Float"; "Double"]%string.

(** The class whose objects hold the numbers of each type. *)
Definition number_class (k : nkind) : string :=
  match k with
  | KByte => "Byte" | KShort => "Short" | KInt => "Int"
  | KLong => "Long" | KFloat => "Float" | KDouble => "Double"
  end.

Lemma good_class rt k : good_runtime rt -> znth rt (class_id k) = Some (class_name k).
Proof.
  intros (_ & E).
  assert (G : forall i, 0 <= i < 6 -> znth rt (11 + i) = znth (zsub rt 11 6) i).
  { intros i B. rewrite znth_sub by lia. destruct (Z.leb_spec 0 i); [| lia].
    destruct (Z.ltb_spec i 6); [| lia]. reflexivity. }
  rewrite E in G.
  destruct k; cbn [class_id];
    [change 11 with (11 + 0) | change 12 with (11 + 1) | change 13 with (11 + 2)
    | change 14 with (11 + 3) | change 15 with (11 + 4) | change 16 with (11 + 5)];
    rewrite G by lia; reflexivity.
Qed.

Lemma number_class_name k : number_class k = class_name k.
Proof. destruct k; reflexivity. Qed.

(** The type of an object, as a user sees it: class name and dimension. *)
Definition has_type (rt : runtime) (o : object) (n : string) (dim : Z) : Prop :=
  znth rt (o_type o) = Some n /\ o_dim o = dim.

Lemma index_of_spec n : forall rt i j, NoDup rt ->
  (index_of n rt i = Some j <-> znth rt (j - i) = Some n).
Proof.
  induction rt as [| x rt IH]; intros i j N; cbn [index_of].
  - split; [discriminate |]. intros H. apply znth_In in H. destruct H.
  - inversion N; subst. destruct (String.eqb_spec x n) as [-> | D].
    + split.
      * intros E. injection E as <-. rewrite Z.sub_diag. reflexivity.
      * intros E. rewrite znth_cons in E.
        destruct (Z.eqb_spec (j - i) 0); [f_equal; lia |].
        apply znth_In in E. contradiction.
    + rewrite IH by auto. rewrite znth_cons. replace (j - (i + 1)) with (j - i - 1) by lia.
      destruct (Z.eqb_spec (j - i) 0) as [Z0 | Z0].
      * rewrite Z0. split; [intros E; apply znth_Some in E; lia | intros E; congruence].
      * tauto.
Qed.

Lemma is_type_spec rt o n dim : NoDup rt ->
  (is_type_by_name rt o n dim = true <-> has_type rt o n dim).
Proof.
  intros N. unfold is_type_by_name, has_type, basic_type_by_name.
  destruct (index_of n rt 0) as [id |] eqn:E.
  - apply index_of_spec in E; auto. rewrite Z.sub_0_r in E.
    rewrite andb_true_iff, Z.eqb_eq, Z.eqb_eq. split; intros (A & B); split; auto; [congruence |].
    pose proof (proj2 (index_of_spec n rt 0 (o_type o) N)) as X. rewrite Z.sub_0_r in X.
    pose proof (proj2 (index_of_spec n rt 0 id N)) as Y. rewrite Z.sub_0_r in Y.
    specialize (X A). specialize (Y E). congruence.
  - split; [discriminate |]. intros (A & _).
    pose proof (proj2 (index_of_spec n rt 0 (o_type o) N)) as X. rewrite Z.sub_0_r in X.
    specialize (X A). congruence.
Qed.

Lemma class_name_inj k k' : class_name k = class_name k' -> k = k'.
Proof. destruct k, k'; intros; try reflexivity; discriminate. Qed.

(** Boxing succeeds with an object of the corresponding class; unboxing it
    gives the number back. *)
Theorem C20_round_trip : forall rt k v, good_runtime rt -> kvalue k v ->
  exists o, box rt k v = Ret o /\ has_type rt o (number_class k) 0 /\
    unbox rt k (Some o) = Ret v.
Proof.
  intros rt k v GR V. pose proof GR as (N & _). pose proof (good_class rt k GR) as C. rewrite number_class_name. unfold box, new_number_object, basic_type_by_id. rewrite C. cbn [obind o_data].
  pose proof (zlen_encode k v) as L. pose proof (ksize_pos k).
  rewrite store_at_ok by (rewrite ?zlen_rep; lia). cbn [obind o_type o_dim].
  eexists; split; [reflexivity |].
  assert (T : has_type rt (mk_object (class_id k) 0 (zblit (zrep (ksize k + 1) 0) 0 (encode k v))) (class_name k) 0).
  { split; [apply C | reflexivity]. }
  split; auto. unfold unbox. rewrite (proj2 (is_type_spec _ _ _ _ N) T). cbn [o_data].
  rewrite load_at_ok by (rewrite ?zlen_blit, ?zlen_rep by (rewrite ?zlen_rep; lia); lia). cbn [obind].
  rewrite <- L. rewrite zsub_zblit_same by (rewrite ?zlen_rep; lia).
  rewrite decode_encode by auto. reflexivity.
Qed.

(** Unboxing anything else throws: undef, or an object whose class and
    dimension are not exactly those of the number class. *)
Theorem C20_other : forall rt k, good_runtime rt ->
  unbox rt k None = Die UNBOX_UNDEF /\
  forall o, ~ has_type rt o (number_class k) 0 -> unbox rt k (Some o) = Die UNBOX_TYPE.
Proof.
  intros rt k (N & C). split; [reflexivity |]. intros o H. rewrite number_class_name in H. unfold unbox.
  destruct (is_type_by_name rt o (class_name k) 0) eqn:E; [| reflexivity].
  apply is_type_spec in E; auto. contradiction.
Qed.

(** In particular a number boxed in one class cannot be unboxed as another. *)
Theorem C20_no_mix : forall rt k k' v o, good_runtime rt -> kvalue k v ->
  box rt k v = Ret o -> k' <> k -> unbox rt k' (Some o) = Die UNBOX_TYPE.
Proof.
  intros rt k k' v o G V B D. destruct (C20_round_trip rt k v G V) as (o' & B' & (T & _) & _).
  rewrite B in B'. injection B' as <-. apply C20_other; auto.
  intros (T' & _). apply D. apply class_name_inj. rewrite !number_class_name in *. congruence.
Qed.

Example C20_ex :
  let rt := ["unknown"; "undef"; "void"; "byte"; "short"; "int"; "long"; "float"; "double"; "string"; "object";
    "Byte"; "Short"; "Int"; "Long"; "Float"; "Double"; "Bool"]%string in
  good_runtime rt /\
  exists o, box rt KShort (-2) = Ret o /\ unbox rt KShort (Some o) = Ret (-2) /\
    unbox rt KInt (Some o) = Die UNBOX_TYPE.
Proof.
  split.
  - split.
    + repeat constructor; cbn; intuition discriminate.
    + reflexivity.
  - eexists; repeat split.
Qed.

Print Assumptions C20_round_trip.
Print Assumptions C20_other.
Print Assumptions C20_no_mix.
