(** * Proofs about the passing of arguments *)

From Verif Require Import Base Type_model Type_spec Type_proofs TypeIface_proofs Dispatch_model Dispatch_spec
  Dispatch_proofs.

(** The type checks never throw. *)
Section NoDie.
  Variable p : prog.
  Definition nodie {A} (o : outcome A) : Prop := forall msg, o <> Die msg.

  Lemma nodie_bind {A B} (o : outcome A) (k : A -> outcome B) :
    nodie o -> (forall a, nodie (k a)) -> nodie (obind o k).
  Proof using. clear. intros H K msg. destruct o; cbn [obind]; try discriminate; [apply K |]. intros _. eapply H; eauto. Qed.

  Lemma super_walk_nodie w n : forall o, nodie (super_walk p w n o).
  Proof using.
    induction w as [| w IH]; intros o msg; cbn [super_walk]; [discriminate |].
    destruct o as [x |]; [| discriminate]. destruct (name_eqb n x); [discriminate |].
    destruct (find_basic_type p x); [apply IH | discriminate].
  Qed.
  Lemma is_super_class_nodie w a b : nodie (is_super_class p w a b).
  Proof using.
    intros msg. unfold is_super_class. destruct (negb _); [discriminate |]. destruct (negb _); [discriminate |].
    apply super_walk_nodie.
  Qed.
  Lemma search_nodie w n : forall o, nodie (search_method p w o n).
  Proof using.
    induction w as [| w IH]; intros o msg; cbn [search_method]; [discriminate |].
    destruct o as [x |]; [| discriminate]. destruct (own_method p x n); [discriminate | apply IH].
  Qed.
  Lemma plain_nodie o : nodie o -> nodie (plain o).
  Proof using. clear. intros H. apply nodie_bind; auto. intros a msg. discriminate. Qed.

  Lemma assign_nodie w hi nar im d s : (forall a b, nodie (hi a b)) -> nodie (satisfy_assignment p w hi nar im d s).
  Proof using.
    intros H msg. unfold satisfy_assignment, conv, no, yes, yes_if.
    repeat match goal with
    | |- (if ?b then _ else _) <> _ => destruct b
    | |- plain _ <> _ => apply plain_nodie
    end; try discriminate; auto using is_super_class_nodie.
    apply nodie_bind; [apply is_super_class_nodie |]. intros a msg'.
    repeat match goal with
    | |- (if ?b then _ else _) <> _ => destruct b
    | |- plain _ <> _ => apply plain_nodie
    end; try discriminate; auto.
  Qed.

  Lemma noconv_nodie w hi im d s : (forall a b, nodie (hi a b)) -> nodie (assign_noconv p w hi im d s).
  Proof using.
    intros H. unfold assign_noconv. apply nodie_bind; [apply assign_nodie; auto |]. intros [a b] msg. discriminate.
  Qed.

  Lemma args_match_nodie w hi : (forall a b, nodie (hi a b)) -> forall ds ss, nodie (args_match p w hi ds ss).
  Proof using.
    intros H. induction ds as [| d ds IH]; intros [| s ss] msg; cbn [args_match]; try discriminate.
    apply nodie_bind; [apply noconv_nodie; auto |]. intros [] msg'; [apply IH | discriminate].
  Qed.

  Lemma has_interface_nodie w f : forall a b, nodie (has_interface p w f a b).
  Proof using.
    induction f as [| f IH]; intros a b msg; cbn [has_interface]; [discriminate |].
    unfold has_interface_step, has_interface_common.
    destruct (negb _); [discriminate |]. destruct (negb _); [discriminate |]. destruct (negb _); [discriminate |].
    revert msg. induction (methods_of p b) as [| m l IHl]; intros msg; cbn [methods_match]; [discriminate |].
    destruct (m_is_class_method m); [apply IHl |].
    apply nodie_bind; [apply search_nodie |]. intros [[e m'] |] msg'.
    - apply nodie_bind; [| intros [] msg''; [apply IHl | discriminate]].
      intros msg''. unfold satisfy_method.
      destruct (m_is_class_method m'); [discriminate |]. destruct (m_is_class_method m); [discriminate |].
      destruct (negb _); [discriminate |].
      apply nodie_bind; [apply args_match_nodie; auto |].
      intros []; [apply noconv_nodie; auto | intros ?; discriminate].
    - destruct (m_is_required m); [discriminate | apply IHl].
  Qed.

  Lemma isa_nodie w f o i d msg : isa p w f o i d <> Die msg.
  Proof using. apply noconv_nodie. apply has_interface_nodie. Qed.
End NoDie.

Section Widths.
  Variable p : prog.
  Hypothesis OK : program_ok p.
  Variable fl : Z -> Z.

  Lemma assign_width v hi d s : param_type p d -> param_type p s ->
    assign_noconv p v hi true d s = Ret true ->
    type_width p fl d = type_width p fl s /\ is_object p d = is_object p s.
  Proof using OK.
    intros (TD & D0) (TS & S0) A.
    unfold type_width. rewrite (sh_mulnum p OK _ TD), (sh_mulnum p OK _ TS), (sh_object p OK _ TD), (sh_object p OK _ TS).
    pose proof (shape_spec p OK _ TD) as MD. pose proof (shape_spec p OK _ TS) as MS.
    unfold assign_noconv, satisfy_assignment in A. revert A. shapes_of d TD. shapes_of s TS.
    unfold shape_means, ID_UNDEF, ID_VOID in *. unfold conv, no, yes, yes_if.
    destruct (shape p d) eqn:SD; try (exfalso; clear - MD D0; tauto);
      destruct (shape p s) eqn:SS; try (exfalso; clear - MS S0; tauto); cbn [obind andb negb]; intros A;
      try (split; reflexivity); try discriminate A.
    all: try (destruct (t_id s =? t_id d + UPGRADE_SHIFT); discriminate A).
    all: try (destruct (t_id d =? t_id s + UPGRADE_SHIFT); discriminate A).
    all: try (destruct (ty_equals d s) eqn:Q; [| discriminate A]; apply ty_equals_spec in Q; subst; auto).
  Qed.

  Lemma widths_app a b : widths p fl (a ++ b) = widths p fl a + widths p fl b.
  Proof using. clear. induction a; cbn [app widths]; lia. Qed.

  Hypothesis FL : forall c, is_category p c CMulnum -> 1 <= fl c.

  Lemma width_pos t : 1 <= type_width p fl t.
  Proof using FL.
    unfold type_width. destruct (is_mulnum p t) eqn:M; [| lia]. apply FL.
    unfold is_mulnum, bt_is_mulnum, category_of in M. unfold is_category.
    destruct (znth p (t_id t)) as [b |].
    - exists b. split; auto. destruct (bt_category b); auto; cbn in M; rewrite ?andb_false_r in M; discriminate.
    - cbn in M. rewrite andb_false_r in M. discriminate.
  Qed.

  Lemma widths_nonneg l : 0 <= widths p fl l.
  Proof using FL. induction l as [| t l IH]; cbn [widths]; [lia |]. pose proof (width_pos t). lia. Qed.

  Lemma index_cons t l i : 0 < i -> stack_index p fl (t :: l) i = type_width p fl t + stack_index p fl l (i - 1).
  Proof using. clear.
    intros H. unfold stack_index, ztake. replace (Z.to_nat i) with (S (Z.to_nat (i - 1))) by lia. reflexivity.
  Qed.
  Lemma index_0 l : stack_index p fl l 0 = 0.
  Proof using. clear. reflexivity. Qed.

  Lemma index_next l i t : znth l i = Some t -> stack_index p fl l (i + 1) = stack_index p fl l i + type_width p fl t.
  Proof using.
    clear. revert i. induction l as [| x l IH]; intros i E.
    - rewrite znth_nil in E. discriminate.
    - pose proof (znth_Some _ _ _ E) as B. destruct (Z.eq_dec i 0) as [-> |].
      + cbn in E. inversion E; subst x. rewrite (index_cons t l (0 + 1)) by lia. rewrite !index_0. lia.
      + rewrite (index_cons x l (i + 1)), (index_cons x l i) by lia.
        rewrite znth_cons in E. destruct (i =? 0) eqn:Q; [apply Z.eqb_eq in Q; lia |].
        replace (i + 1 - 1) with (i - 1 + 1) by lia. rewrite (IH (i - 1) E). lia.
  Qed.

  Lemma index_mono l i j : 0 <= i <= j -> stack_index p fl l i <= stack_index p fl l j.
  Proof using FL.
    intros B. unfold stack_index.
    assert (E : ztake j l = ztake i l ++ zdrop i (ztake j l)).
    { rewrite <- (ztake_zdrop i (ztake j l)) at 1. f_equal.
      unfold ztake. rewrite firstn_firstn. f_equal. lia. }
    rewrite E, widths_app. pose proof (widths_nonneg (zdrop i (ztake j l))). lia.
  Qed.

  (** *** The caller *)
  Lemma set_stack_out st k vals j : ~ (k <= j < k + zlen vals) -> set_stack st k vals j = st j.
  Proof using.
    clear. intros H. unfold set_stack. destruct (znth vals (j - k)) eqn:E; auto.
    apply znth_Some in E. lia.
  Qed.

  Lemma push_low decls : forall at_ vals st k, k < at_ ->
    fst (push_args p fl decls at_ vals st) k = st k.
  Proof using FL.
    induction decls as [| d decls IH]; intros at_ vals st k H; cbn [push_args]; auto.
    destruct vals as [| v vals]; auto. pose proof (width_pos d).
    rewrite IH by lia. apply set_stack_out. lia.
  Qed.

  Lemma push_width decls : forall at_ vals st, zlen vals <= zlen decls ->
    snd (push_args p fl decls at_ vals st) = at_ + stack_index p fl decls (zlen vals).
  Proof using.
    clear. induction decls as [| d decls IH]; intros at_ vals st H; cbn [push_args].
    - destruct vals as [| v vals].
      + change (zlen (@nil (list slot))) with 0. rewrite index_0. cbn. lia.
      + rewrite zlen_cons in H. pose proof (zlen_nonneg vals). change (zlen (@nil ty)) with 0 in H. lia.
    - destruct vals as [| v vals].
      + change (zlen (@nil (list slot))) with 0. rewrite index_0. cbn. lia.
      + rewrite !zlen_cons in *. pose proof (zlen_nonneg vals). rewrite IH by lia.
        rewrite index_cons by lia. replace (1 + zlen vals - 1) with (zlen vals) by lia. lia.
  Qed.

  Lemma push_read decls : forall at_ vals st i v d j x,
    (forall k d v, znth decls k = Some d -> znth vals k = Some v -> zlen v = type_width p fl d) ->
    znth decls i = Some d -> znth vals i = Some v -> znth v j = Some x ->
    fst (push_args p fl decls at_ vals st) (at_ + stack_index p fl decls i + j) = x.
  Proof using FL.
    induction decls as [| d0 decls IH]; intros at_ vals st i v d j x W E1 E2 E3.
    { rewrite znth_nil in E1. discriminate. }
    destruct vals as [| v0 vals]; [rewrite znth_nil in E2; discriminate |]. cbn [push_args].
    pose proof (znth_Some _ _ _ E3) as B3.
    rewrite znth_cons in E1. rewrite znth_cons in E2. destruct (Z.eqb_spec i 0).
    - subst i. inversion E1; inversion E2; subst d0 v0. rewrite index_0.
      pose proof (W 0 d v eq_refl eq_refl) as Lv.
      rewrite push_low by lia. unfold set_stack. replace (at_ + 0 + j - at_) with j by lia. rewrite E3. auto.
    - pose proof (znth_Some _ _ _ E1) as B1.
      rewrite index_cons by lia.
      replace (at_ + (type_width p fl d0 + stack_index p fl decls (i - 1)) + j)
        with (at_ + type_width p fl d0 + stack_index p fl decls (i - 1) + j) by lia.
      apply (IH _ _ _ _ v d); auto. intros k d' v' Q1 Q2.
      pose proof (znth_Some _ _ _ Q1) as B.
      apply (W (k + 1)); rewrite znth_cons; (destruct (Z.eqb_spec (k + 1) 0); [lia |]);
        replace (k + 1 - 1) with k by lia; auto.
  Qed.

  (** *** The callee *)
  Variable dv : Z -> list Z -> Z -> slot.

  Lemma defaults_low aw c m args : forall st i index k, k < index \/ k < aw ->
    set_defaults p fl dv st aw c m args i index k = st k.
  Proof using FL.
    induction args as [| t args IH]; intros st i index k H; cbn [set_defaults]; auto.
    pose proof (width_pos t). rewrite IH by lia.
    destruct (m_required_args_length m <=? i); cbn [andb]; auto.
    rewrite Z.geb_leb. destruct (Z.leb_spec aw index); auto.
    apply set_stack_out. change (zlen [dv c (m_name m) i]) with 1. lia.
  Qed.

  Lemma defaults_read aw c m args : forall st i0 index i t,
    znth args i = Some t -> m_required_args_length m <= i0 + i -> aw <= index + stack_index p fl args i ->
    set_defaults p fl dv st aw c m args i0 index (index + stack_index p fl args i) = dv c (m_name m) (i0 + i).
  Proof using FL.
    induction args as [| x args IH]; intros st i0 index i t E R A.
    { rewrite znth_nil in E. discriminate. }
    cbn [set_defaults]. rewrite znth_cons in E. destruct (Z.eqb_spec i 0) as [-> | N].
    - rewrite index_0 in *. rewrite !Z.add_0_r in *. pose proof (width_pos x).
      rewrite defaults_low by lia.
      destruct (Z.leb_spec (m_required_args_length m) i0); [| lia]. cbn [andb]. rewrite Z.geb_leb.
      destruct (Z.leb_spec aw index); [| lia]. unfold set_stack. rewrite Z.sub_diag. reflexivity.
    - pose proof (znth_Some _ _ _ E) as B. rewrite index_cons in * by lia.
      rewrite Z.add_assoc in *. rewrite (IH _ (i0 + 1) _ (i - 1) t); auto; [| lia]. f_equal. lia.
  Qed.

  Lemma check_args_spec w f st aw args : forall index,
    check_args p w f fl st aw args index = Ret tt ->
    forall i t, znth args i = Some t -> is_object p t = true -> index + stack_index p fl args i < aw ->
      match st (index + stack_index p fl args i) with
      | SObj None => True
      | SObj (Some (_, o)) => isa p w f o (t_id t) (t_dim t) = Ret true
      | SVal _ => False
      end.
  Proof using FL.
    induction args as [| x args IH]; intros index C i t E O H.
    { rewrite znth_nil in E. discriminate. }
    cbn [check_args] in C. pose proof (index_mono (x :: args) 0 i ltac:(pose proof (znth_Some _ _ _ E); lia)) as Q.
    rewrite index_0 in Q.
    destruct (Z.ltb_spec index aw); [| lia]. cbn [negb] in C.
    rewrite znth_cons in E. destruct (Z.eqb_spec i 0) as [-> | N].
    - inversion E; subst x. rewrite index_0, Z.add_0_r in *. rewrite O in C.
      destruct (st index) as [[[a o] |] | v]; try discriminate; auto.
      destruct (isa p w f o (t_id t) (t_dim t)) as [[] | | |]; try discriminate. auto.
    - pose proof (znth_Some _ _ _ E) as B. rewrite index_cons in * by lia. rewrite Z.add_assoc in *.
      apply IH with (t := t); auto.
      destruct (is_object p x); auto.
      destruct (st index) as [[[a o] |] | v]; try discriminate; auto.
      destruct (isa p w f o (t_id x) (t_dim x)) as [[] | | |]; try discriminate. auto.
  Qed.

  (** The check itself never reads a number as an object, and fails only on an
      object that is not an instance. *)
  Lemma check_args_outcome w f st aw args : forall index,
    (forall i t, znth args i = Some t -> is_object p t = true -> index + stack_index p fl args i < aw ->
       exists o, st (index + stack_index p fl args i) = SObj o) ->
    check_args p w f fl st aw args index = Ret tt \/
    (exists i t a o, znth args i = Some t /\ is_object p t = true /\ index + stack_index p fl args i < aw /\
       st (index + stack_index p fl args i) = SObj (Some (a, o)) /\
       ((check_args p w f fl st aw args index = Die MSG_ARG /\ isa p w f o (t_id t) (t_dim t) = Ret false) \/
        (forall b, isa p w f o (t_id t) (t_dim t) <> Ret b))).
  Proof using FL.
    induction args as [| x args IH]; intros index H; cbn [check_args]; auto.
    destruct (Z.ltb_spec index aw); cbn [negb]; auto.
    assert (T : check_args p w f fl st aw args (index + type_width p fl x) = Ret tt \/
       (exists i t a o, znth (x :: args) i = Some t /\ is_object p t = true /\
         index + stack_index p fl (x :: args) i < aw /\
         st (index + stack_index p fl (x :: args) i) = SObj (Some (a, o)) /\
         ((check_args p w f fl st aw args (index + type_width p fl x) = Die MSG_ARG /\
           isa p w f o (t_id t) (t_dim t) = Ret false) \/
          (forall b, isa p w f o (t_id t) (t_dim t) <> Ret b)))).
    { destruct (IH (index + type_width p fl x)) as [T | (i & t & a & o & E & O & L & S & T)]; auto.
      - intros i t E O L. pose proof (znth_Some _ _ _ E) as B.
        destruct (H (i + 1) t) as (o & S).
        + rewrite znth_cons. destruct (Z.eqb_spec (i + 1) 0); [lia |]. replace (i + 1 - 1) with i by lia. auto.
        + auto.
        + rewrite index_cons by lia. replace (i + 1 - 1) with i by lia. lia.
        + exists o. rewrite index_cons in S by lia. replace (i + 1 - 1) with i in S by lia.
          rewrite Z.add_assoc in S. auto.
      - right. exists (i + 1), t, a, o. pose proof (znth_Some _ _ _ E) as B.
        rewrite index_cons by lia. rewrite znth_cons. destruct (Z.eqb_spec (i + 1) 0); [lia |].
        replace (i + 1 - 1) with i by lia. rewrite Z.add_assoc. auto. }
    destruct (is_object p x) eqn:O; auto.
    destruct (H 0 x eq_refl O) as (o & S); [rewrite index_0; lia |]. rewrite index_0, Z.add_0_r in S. rewrite S.
    destruct o as [[a o] |]; auto.
    destruct (isa p w f o (t_id x) (t_dim x)) as [[] | | |] eqn:I; cbn [obind]; auto; right;
      exists 0, x, a, o; rewrite index_0, Z.add_0_r; (split; [reflexivity |]); (split; [auto |]);
      (split; [auto |]); (split; [auto |]); rewrite I.
    - left. auto.
    - right. discriminate.
    - right. discriminate.
    - right. discriminate.
  Qed.

  (** *** Caller and callee agree on the slots *)
  Lemma args_match_index v hi : forall ds ss, Forall (param_type p) ds -> Forall (param_type p) ss ->
    args_match p v hi ds ss = Ret true ->
    forall i, 0 <= i <= zlen ds -> i <= zlen ss ->
      stack_index p fl ds i = stack_index p fl ss i /\
      forall d s, znth ds i = Some d -> znth ss i = Some s ->
        type_width p fl d = type_width p fl s /\ is_object p d = is_object p s.
  Proof using OK.
    induction ds as [| d ds IH]; intros ss FD FS M i B1 B2.
    - change (zlen (@nil ty)) with 0 in B1. replace i with 0 by lia. rewrite !index_0. split; auto.
      intros d s E. rewrite znth_nil in E. discriminate.
    - destruct ss as [| s ss].
      + change (zlen (@nil ty)) with 0 in B2. replace i with 0 by lia. rewrite !index_0. split; auto.
        intros d' s E E'. rewrite znth_nil in E'. discriminate.
      + inversion FD; inversion FS; subst. cbn [args_match] in M.
        destruct (assign_noconv p v hi true d s) as [[] | | |] eqn:A; try discriminate. cbn [obind] in M.
        destruct (assign_width v hi d s) as (W & O); auto.
        destruct (Z.eq_dec i 0) as [-> |].
        * rewrite !index_0. split; auto. intros d' s' E E'. cbn in E, E'. inversion E; inversion E'; subst; auto.
        * rewrite !zlen_cons in *. rewrite !index_cons by lia.
          destruct (IH ss) with (i := i - 1) as (X & Y); auto; try lia.
          split; [lia |]. intros d' s'. rewrite !znth_cons.
          destruct (Z.eqb_spec i 0); [lia |]. auto.
  Qed.

  Lemma compatible_index w m m' : method_ok p m -> method_ok p m' -> compatible p w m m' ->
    forall i, 0 <= i <= zlen (m_args m) -> i <= zlen (m_args m') ->
      stack_index p fl (m_args m) i = stack_index p fl (m_args m') i /\
      forall d s, znth (m_args m) i = Some d -> znth (m_args m') i = Some s ->
        type_width p fl d = type_width p fl s /\ is_object p d = is_object p s.
  Proof using OK.
    intros K K' [-> | (hi & S)] i B1 B2.
    { split; auto. intros d s E E'. rewrite E in E'. inversion E'; subst; auto. }
    unfold satisfy_method in S.
    destruct (m_is_class_method m'); [discriminate |]. destruct (m_is_class_method m); [discriminate |].
    destruct (negb _); [discriminate |].
    destruct (args_match p _ hi (tl (m_args m)) (tl (m_args m'))) as [[] | | |] eqn:M; try discriminate. clear S.
    destruct K as [FT (t & rest & E & D0 & F0 & C) _ _], K' as [FT' (t' & rest' & E' & D0' & F0' & C') _ _].
    rewrite E, E' in *. cbn [tl] in M. inversion FT; inversion FT'; subst.
    assert (W : forall t, param_type p t -> t_dim t = 0 -> t_flag t = 0 ->
       (is_category p (t_id t) CClass \/ is_category p (t_id t) CInterface) ->
       type_width p fl t = 1 /\ is_object p t = true).
    { clear - OK. intros t (T & _) D F C. split.
      - unfold type_width, is_mulnum, bt_is_mulnum. rewrite !is_category_of in C by apply T.
        destruct C as [-> | ->]; cbn [cat_eqb]; rewrite andb_false_r; auto.
      - apply (object_type_shape p OK t T). split; auto. split; [rewrite F; unfold FLAG_REF; lia | tauto]. }
    destruct (W t) as (W1 & O1); auto. destruct (W t') as (W2 & O2); auto.
    destruct (Z.eq_dec i 0) as [-> |].
    - rewrite !index_0. split; auto. intros d s Q Q'. cbn in Q, Q'. inversion Q; inversion Q'; subst.
      split; congruence.
    - rewrite !zlen_cons in *. rewrite !index_cons by lia.
      destruct (args_match_index (S w) hi rest rest') with (i := i - 1) as (X & Y); auto; try lia.
      split; [lia |]. intros d s. rewrite !znth_cons. destruct (Z.eqb_spec i 0); [lia |]. auto.
  Qed.

  (** *** A call of a compatible method *)
  Section Enter.
    (** The bounds of the compiler's and of the run-time checks. *)
    Variable w rw f : nat.
    Variable m m' : meth.
    Variable c : Z.
    Hypothesis K : method_ok p m.
    Hypothesis K' : method_ok p m'.
    Hypothesis CM : compatible p w m m'.
    Variable vals : list (list slot).
    Variable old : Z -> slot.
    Hypothesis LEN : zlen vals <= zlen (m_args m).
    Hypothesis VAL : forall i t v, znth (m_args m) i = Some t -> znth vals i = Some v -> argument_value p fl t v.
    Hypothesis REQ : m_required_args_length m' <= zlen vals.
    Variable st : Z -> slot.
    Variable aw : Z.
    Hypothesis PUSH : push_args p fl (m_args m) 0 vals old = (st, aw).

    Lemma aw_index : aw = stack_index p fl (m_args m) (zlen vals).
    Proof using LEN PUSH.
      pose proof (push_width (m_args m) 0 vals old LEN) as H. rewrite PUSH in H. exact H.
    Qed.

    Lemma index_below i : 0 <= i < zlen (m_args m') ->
      (stack_index p fl (m_args m') i < aw <-> i < zlen vals).
    Proof using OK FL K K' CM LEN PUSH.
      intros B. rewrite aw_index. pose proof (zlen_nonneg vals). destruct (Z.lt_ge_cases i (zlen vals)) as [L | G].
      - split; auto. intros _.
        destruct (compatible_index w m m' K K' CM i ltac:(lia) ltac:(lia)) as (E & _). rewrite <- E.
        destruct (znth_lt (m_args m) i ltac:(lia)) as (t & Et).
        pose proof (index_next _ _ _ Et) as N. pose proof (width_pos t).
        pose proof (index_mono (m_args m) (i + 1) (zlen vals) ltac:(lia)). lia.
      - split; [| lia]. intros L. exfalso.
        destruct (compatible_index w m m' K K' CM (zlen vals) ltac:(lia) ltac:(lia)) as (E & _).
        pose proof (index_mono (m_args m') (zlen vals) i ltac:(lia)). lia.
    Qed.

    (** The slots of the arguments, as the callee reads them. *)
    Lemma passed_slots i t v j x : znth (m_args m') i = Some t -> znth vals i = Some v -> znth v j = Some x ->
      st (stack_index p fl (m_args m') i + j) = x.
    Proof using OK FL K K' CM LEN VAL PUSH.
      intros E V X. pose proof (znth_Some _ _ _ E). pose proof (znth_Some _ _ _ V).
      destruct (compatible_index w m m' K K' CM i ltac:(lia) ltac:(lia)) as (Q & _). rewrite <- Q.
      destruct (znth_lt (m_args m) i ltac:(lia)) as (t0 & E0).
      pose proof (push_read (m_args m) 0 vals old i v t0 j x) as H'. rewrite PUSH in H'. cbn [fst] in H'.
      apply H'; auto. intros k d u D U. apply (VAL k d u D U).
    Qed.

    Lemma passed_length i t v : znth (m_args m') i = Some t -> znth vals i = Some v ->
      zlen v = type_width p fl t /\ (is_object p t = true -> exists o, v = [SObj o]).
    Proof using OK K K' CM LEN VAL.
      intros E V. pose proof (znth_Some _ _ _ E). pose proof (znth_Some _ _ _ V).
      destruct (znth_lt (m_args m) i ltac:(lia)) as (t0 & E0).
      destruct (compatible_index w m m' K K' CM i ltac:(lia) ltac:(lia)) as (_ & Q).
      destruct (Q t0 t E0 E) as (Q1 & Q2). destruct (VAL i t0 v E0 V) as (A1 & A2).
      split; [congruence |]. intros O. apply A1.
      apply (object_type_shape p OK); [| congruence].
      apply znth_In in E0. exact (proj1 (proj1 (Forall_forall _ _) (mo_types p m K) t0 E0)).
    Qed.

    Lemma args_are_objects i t : znth (m_args m') i = Some t -> is_object p t = true ->
      0 + stack_index p fl (m_args m') i < aw -> exists o, st (0 + stack_index p fl (m_args m') i) = SObj o.
    Proof using OK FL K K' CM LEN VAL PUSH.
      intros E O L. rewrite Z.add_0_l in *. pose proof (znth_Some _ _ _ E) as B.
      apply (index_below i B) in L.
      destruct (znth_lt vals i ltac:(lia)) as (v & V).
      destruct (passed_length i t v E V) as (_ & H). destruct (H O) as (o & ->). exists o.
      rewrite <- (Z.add_0_r (stack_index _ _ _ _)). apply (passed_slots i t [SObj o] 0); auto.
    Qed.

    Let st' := set_defaults p fl dv st aw c m' (m_args m') 0 0.

    Lemma param_passed i v : 0 <= i < zlen (m_args m') -> znth vals i = Some v ->
      parameter p fl st' m' i = v.
    Proof using OK FL K K' CM LEN VAL PUSH.
      intros B V. destruct (znth_lt (m_args m') i B) as (t & E).
      destruct (passed_length i t v E V) as (Lv & _).
      unfold parameter. rewrite E.
      apply znth_ext. intros j J. rewrite znth_map.
      pose proof (width_pos t).
      destruct (Z.lt_ge_cases j (zlen v)) as [L | G].
      - destruct (znth_lt v j ltac:(lia)) as (x & X). rewrite X.
        assert (S : znth (seq 0 (Z.to_nat (type_width p fl t))) j = Some (Z.to_nat j)).
        { unfold znth. destruct (Z.ltb_spec j 0); [lia |].
          rewrite nth_error_nth' with (d := O) by (rewrite seq_length; lia).
          rewrite seq_nth by lia. reflexivity. }
        rewrite S. cbn [option_map]. f_equal. rewrite Z2Nat.id by lia.
        unfold st'. rewrite defaults_low.
        + apply (passed_slots i t v); auto.
        + right. rewrite aw_index.
          destruct (compatible_index w m m' K K' CM i) as (Q & Q'); try lia.
          { pose proof (znth_Some _ _ _ V). lia. }
          rewrite <- Q. pose proof (znth_Some _ _ _ V).
          destruct (znth_lt (m_args m) i ltac:(lia)) as (t0 & E0).
          pose proof (index_next _ _ _ E0). destruct (Q' t0 t E0 E) as (W & _).
          pose proof (index_mono (m_args m) (i + 1) (zlen vals) ltac:(lia)). lia.
      - rewrite (znth_ge v) by lia. rewrite znth_ge; auto.
        unfold zlen. rewrite seq_length. lia.
    Qed.

    Lemma param_default i : zlen vals <= i < zlen (m_args m') ->
      parameter p fl st' m' i = [dv c (m_name m') i].
    Proof using OK FL K K' CM LEN REQ PUSH.
      intros B. pose proof (zlen_nonneg vals). destruct (znth_lt (m_args m') i ltac:(lia)) as (t & E).
      assert (W : type_width p fl t = 1).
      { pose proof (mo_optional p m' K' i t ltac:(lia) E) as H'. unfold type_width.
        destruct (is_mulnum p t) eqn:M; auto. exfalso.
        assert (T : type_ok p t).
        { apply znth_In in E. exact (proj1 (proj1 (Forall_forall _ _) (mo_types p m' K') t E)). }
        rewrite (sh_mulnum p OK t T) in M. pose proof (shape_spec p OK t T) as S. unfold shape_means in S.
        rewrite is_category_of in H' by apply T.
        destruct (shape p t); try discriminate M. unfold FLAG_REF in *. destruct S as (S1 & S2 & S3).
        destruct H' as [H' | [H' | H']]; [auto | lia | lia]. }
      unfold parameter. rewrite E, W. change (seq 0 (Z.to_nat 1)) with [O]. cbn [map]. f_equal.
      change (Z.of_nat 0) with 0. rewrite Z.add_0_r. unfold st'.
      rewrite <- (Z.add_0_l (stack_index p fl (m_args m') i)).
      rewrite (defaults_read aw c m' (m_args m') st 0 0 i t E).
      - f_equal; lia.
      - lia.
      - destruct (Z.lt_ge_cases (stack_index p fl (m_args m') i) aw) as [L | G]; [| lia].
        apply (index_below i ltac:(lia)) in L. lia.
    Qed.

    (** What the call does. *)
    Lemma enter depth : m_is_class_method m' = false ->
      match call_method p rw f fl dv depth (c, m') st aw with
      | Ret (c', m1, s1) =>
          c' = c /\ m1 = m' /\ depth < 1000 /\
          (forall i u, 0 <= i < zlen (m_args m') -> znth vals i = Some u -> parameter p fl s1 m' i = u) /\
          (forall i, zlen vals <= i < zlen (m_args m') -> parameter p fl s1 m' i = [dv c (m_name m') i]) /\
          (forall i t a o, znth (m_args m') i = Some t -> object_type p t ->
             znth vals i = Some [SObj (Some (a, o))] -> isa p rw f o (t_id t) (t_dim t) = Ret true)
      | Die msg =>
          (msg = MSG_DEPTH /\ 1000 <= depth) \/
          (msg = MSG_ARG /\ exists i t a o, znth (m_args m') i = Some t /\ object_type p t /\
             znth vals i = Some [SObj (Some (a, o))] /\ isa p rw f o (t_id t) (t_dim t) <> Ret true)
      | _ => exists i t a o, znth (m_args m') i = Some t /\ object_type p t /\
             znth vals i = Some [SObj (Some (a, o))] /\ forall b, isa p rw f o (t_id t) (t_dim t) <> Ret b
      end.
    Proof using OK FL K K' CM LEN VAL REQ PUSH.
      intros CL. unfold call_method. rewrite Z.gtb_ltb.
      destruct (Z.ltb_spec 1000 (depth + 1)); [left; split; auto; lia |].
      rewrite CL.
      assert (TO : forall i t, znth (m_args m') i = Some t -> type_ok p t).
      { intros i t E. apply znth_In in E. exact (proj1 (proj1 (Forall_forall _ _) (mo_types p m' K') t E)). }
      assert (RD : forall i t a o, znth (m_args m') i = Some t -> object_type p t ->
        stack_index p fl (m_args m') i < aw -> st (stack_index p fl (m_args m') i) = SObj (Some (a, o)) ->
        znth vals i = Some [SObj (Some (a, o))]).
      { intros i t a o E O L S. pose proof (znth_Some _ _ _ E) as B. apply (index_below i B) in L.
        destruct (znth_lt vals i ltac:(lia)) as (u & V).
        destruct (passed_length i t u E V) as (_ & Hv).
        apply (object_type_shape p OK t (TO i t E)) in O. destruct (Hv O) as (o' & ->).
        pose proof (passed_slots i t [SObj o'] 0 (SObj o') E V eq_refl) as Q. rewrite Z.add_0_r in Q. congruence. }
      destruct (check_args_outcome rw f st aw (m_args m') 0 args_are_objects)
        as [C | (i & t & a & o & E & O & L & S & T)].
      - rewrite C. cbn [obind].
        split; [reflexivity |]. split; [reflexivity |]. split; [lia |].
        split; [exact param_passed |]. split; [exact param_default |].
        intros i t a o E O V. pose proof (znth_Some _ _ _ E) as B. pose proof (znth_Some _ _ _ V) as BV.
        apply (object_type_shape p OK t (TO i t E)) in O.
        pose proof (check_args_spec rw f st aw (m_args m') 0 C i t E O) as H'. rewrite Z.add_0_l in H'.
        rewrite <- (Z.add_0_r (stack_index p fl (m_args m') i)) in H' at 2.
        rewrite (passed_slots i t _ 0 _ E V eq_refl) in H'. apply H'.
        apply index_below; lia.
      - rewrite Z.add_0_l in *. apply (object_type_shape p OK t (TO i t E)) in O.
        destruct T as [(-> & I) | I].
        + cbn [obind]. right. split; auto. exists i, t, a, o.
          split; [auto |]. split; [auto |]. split; [eapply RD; eauto | congruence].
        + assert (G : exists i t a o, znth (m_args m') i = Some t /\ object_type p t /\
             znth vals i = Some [SObj (Some (a, o))] /\ forall b, isa p rw f o (t_id t) (t_dim t) <> Ret b).
          { exists i, t, a, o. split; [auto |]. split; [auto |]. split; [eapply RD; eauto | auto]. }
          destruct (check_args p rw f fl st aw (m_args m') 0) as [[] | msg | |] eqn:C; cbn [obind]; auto.
          * exfalso. apply (object_type_shape p OK t (TO i t E)) in O.
            pose proof (check_args_spec rw f st aw (m_args m') 0 C i t E O) as H'. rewrite Z.add_0_l in H'.
            specialize (H' L). rewrite S in H'. apply (I true); auto.
          * right. assert (M : msg = MSG_ARG).
            { clear - C. revert C. generalize 0. induction (m_args m') as [| x args IH]; intros k C; cbn [check_args] in C.
              - discriminate.
              - destruct (negb _); [discriminate |]. destruct (is_object p x); eauto.
                destruct (st k) as [[[a o] |] |]; try discriminate; eauto.
                destruct (isa p rw f o (t_id x) (t_dim x)) as [[] | | |] eqn:I; cbn [obind] in C; try discriminate; eauto.
                + inversion C; auto.
                + exfalso. revert I. apply isa_nodie. }
            split; auto. destruct G as (i' & t' & a' & o' & G1 & G2 & G3 & G4).
            exists i', t', a', o'. split; [auto |]. split; [auto |]. split; [auto |]. apply G4.
    Qed.
  End Enter.
End Widths.
