From Verif Require Import Base CLib Type_model Type_spec Type_proofs.

(** ** The search for a method *)
Section Search.
  Variable p : prog.
  Hypothesis OK : program_ok p.
  Hypothesis MOK : methods_ok p.

  Lemma own_method_Some i name m :
    own_method p i name = Some m -> exists b, znth p i = Some b /\ In m (bt_methods b) /\ m_name m = name.
  Proof using.
    clear OK MOK. unfold own_method, methods_of. destruct (znth p i) as [b |] eqn:E; [| discriminate].
    intros F. apply find_some in F. destruct F as (I & N). apply name_eqb_spec in N. eauto.
  Qed.
  Lemma own_method_None i name b :
    own_method p i name = None -> znth p i = Some b -> forall m, In m (bt_methods b) -> m_name m <> name.
  Proof using.
    clear OK MOK. unfold own_method, methods_of. intros F E m I N. rewrite E in F.
    pose proof (find_none _ _ F m I) as H. cbn in H. apply name_eqb_false in H. auto.
  Qed.

  Lemma nodup_name (l : list meth) m m' : NoDup (map m_name l) -> In m l -> In m' l ->
    m_name m = m_name m' -> m = m'.
  Proof using.
    clear. induction l as [| x l IH]; intros N I I' E; [destruct I |].
    cbn in N. inversion N as [| y z NI N']; subst. destruct I as [<- | I], I' as [<- | I']; auto.
    - exfalso. apply NI. rewrite E. now apply in_map.
    - exfalso. apply NI. rewrite <- E. now apply in_map.
  Qed.

  Lemma nearest_fun name c e m : nearest p name c e m ->
    forall e' m', nearest p name c e' m' -> e = e' /\ m = m'.
  Proof using OK MOK.
    induction 1 as [c b m E I N | c d e m b E NI X H IH]; intros e' m' H'.
    - inversion H' as [c' b' m0 E' I' N' | c' d' e0 m0 b' E' NI' X' H0]; subst.
      + rewrite E in E'. inversion E'; subst. split; auto.
        eapply nodup_name; eauto.
      + rewrite E in E'. inversion E'; subst. exfalso. eapply NI'; eauto.
    - inversion H' as [c' b' m0 E' I' N' | c' d' e0 m0 b' E' NI' X' H0]; subst.
      + rewrite E in E'. inversion E'; subst. exfalso. eapply NI; eauto.
      + rewrite (extends_fun p OK _ _ _ X X') in *. auto.
  Qed.

  Lemma nearest_name name c e m : nearest p name c e m -> m_name m = name.
  Proof using. clear. induction 1; auto. Qed.

  Lemma nearest_in name c e m : nearest p name c e m -> exists b, znth p e = Some b /\ In m (bt_methods b).
  Proof using. clear. induction 1; eauto. Qed.

  Lemma nearest_super name c e m : nearest p name c e m -> c = e \/ super p c e.
  Proof using.
    clear. induction 1 as [| c d e m b E NI X H [-> | IH]]; auto.
    - right. constructor; auto.
    - right. econstructor 2; eauto.
  Qed.

  Variable w : nat.
  Hypothesis REL : check_relation p w (all_ids p) = Ret tt.

  Lemma search_parent : forall v nm i name, recursion_walk p v nm (parent_of p i) = Ret tt ->
    exists r, search_method p v (parent_of p i) name = Ret r /\
      forall e m, r = Some (e, m) <-> exists d, extends p i d /\ nearest p name d e m.
  Proof using OK MOK.
    clear REL. induction v as [| v IH]; intros nm i name R; [discriminate |].
    cbn [recursion_walk search_method] in *.
    destruct (parent_of p i) as [j |] eqn:P.
    - apply parent_extends in P; auto.
      destruct (name_eqb (name_of p j) nm); [discriminate |].
      destruct (own_method p j name) as [m |] eqn:F.
      + exists (Some (j, m)). split; auto. intros e m'.
        destruct (own_method_Some _ _ _ F) as (b & E & I & N).
        assert (H : nearest p name j j m) by (econstructor; eauto). split.
        * intros Q; inversion Q; subst. eauto.
        * intros (d & X & H'). rewrite (extends_fun p OK _ _ _ P X) in *.
          destruct (nearest_fun _ _ _ _ H _ _ H') as (-> & ->). auto.
      + destruct (IH nm j name R) as (r & S & Sr). exists r. split; auto. intros e m. rewrite Sr.
        pose proof P as (b & b' & E & E' & PN).
        split.
        * intros (d & X & H). exists j. split; auto. econstructor 2; eauto.
          eapply own_method_None; eauto.
        * intros (d & X & H). rewrite <- (extends_fun p OK _ _ _ P X) in *.
          inversion H as [c' b0 m0 E0 I N | c' d' e0 m0 b0 E0 NI X' H']; subst; eauto.
          exfalso. eapply own_method_None; eauto.
    - exists None. split; auto. intros e m. split; [discriminate |].
      intros (d & X & _). apply parent_extends in X; auto. congruence.
  Qed.

  (** From a class (or an interface) on, the search finds the nearest method. *)
  Lemma search_spec v i name : 0 <= i < zlen p -> (S w <= v)%nat ->
    exists r, search_method p v (Some i) name = Ret r /\
      forall e m, r = Some (e, m) <-> nearest p name i e m.
  Proof using OK MOK REL.
    intros B L. destruct v as [| v]; [lia |]. cbn [search_method].
    destruct (znth_lt p i B) as (b & E).
    destruct (own_method p i name) as [m |] eqn:F.
    - exists (Some (i, m)). split; auto. intros e m'.
      destruct (own_method_Some _ _ _ F) as (b0 & E0 & I & N).
      assert (H : nearest p name i i m) by (econstructor; eauto). split.
      + intros Q; inversion Q; subst. auto.
      + intros H'. destruct (nearest_fun _ _ _ _ H _ _ H') as (-> & ->). auto.
    - assert (R : recursion_walk p v (name_of p i) (parent_of p i) = Ret tt).
      { pose proof (rel_walk p w REL i B) as R. clear - R L.
        assert (L' : (w <= v)%nat) by lia. clear L. generalize dependent (parent_of p i).
        revert v L'. induction w as [| n IH]; intros v L o R; [discriminate |].
        destruct v as [| v]; [lia |]. cbn [recursion_walk] in *.
        destruct o as [j |]; auto. destruct (name_eqb (name_of p j) (name_of p i)); [discriminate |].
        apply IH; auto. lia. }
      destruct (search_parent v _ i name R) as (r & S & Sr). exists r. split; auto.
      intros e m. rewrite Sr. split.
      + intros (d & X & H). econstructor 2; eauto. eapply own_method_None; eauto.
      + intros H. inversion H as [c' b0 m0 E0 I N | c' d' e0 m0 b0 E0 NI X' H']; subst; eauto.
        exfalso. eapply own_method_None; eauto.
  Qed.
End Search.

(** ** Transitivity *)
Section Trans.
  Variable p : prog.
  Hypothesis OK : program_ok p.
  Variable w : nat.
  Hypothesis REL : check_relation p w (all_ids p) = Ret tt.

  Lemma same_or_sub_trans a b c : same_or_sub p a b -> same_or_sub p b c -> same_or_sub p a c.
  Proof using.
    clear. intros [-> | (A & B & S)] [-> | (B' & C & S')]; try (now left); right; repeat split; auto.
    eapply super_trans; eauto.
  Qed.

  Lemma cat_any : is_category p 10 CClass -> False.
  Proof using OK.
    intros H. pose proof (po_length _ OK). apply is_category_of in H; [| lia].
    pose proof (cat_ids p OK 10 ltac:(lia)) as C. rewrite H in C. lia.
  Qed.

  Lemma instance_trans o t d : instance p o t -> instance p (t_id t, t_dim t) d -> instance p o d.
  Proof using OK.
    destruct o as [i n]. unfold instance, ID_ANY_OBJECT, ID_STRING.
    pose proof cat_any as CA.
    intros A B.
    destruct (Z.eqb_spec (t_dim d) 0).
    - destruct (Z.eqb_spec (t_id d) 10); auto.
      assert (T10 : same_or_sub p (t_id t) (t_id d) -> t_id t <> 10).
      { intros X Y. rewrite Y in X. destruct X as [X | (X & _)]; auto. }
      assert (Q : t_dim t = 0) by (destruct ((11 <=? t_id d) && (t_id d <=? 16)); tauto).
      rewrite Q in A. cbn in A.
      destruct ((11 <=? t_id d) && (t_id d <=? 16)) eqn:R.
      + destruct B as (_ & B). rewrite B in A. destruct (Z.eqb_spec (t_id d) 10); [lia |]. rewrite R in A. auto.
      + destruct B as (_ & B). specialize (T10 B). destruct (Z.eqb_spec (t_id t) 10); [lia |].
        destruct ((11 <=? t_id t) && (t_id t <=? 16)).
        * destruct A as (-> & ->). auto.
        * destruct A as (-> & A). split; auto. eapply same_or_sub_trans; eauto.
    - destruct (Z.eqb_spec (t_dim d) 1); cbn [andb] in *.
      + destruct (Z.eqb_spec (t_id d) 10).
        * destruct (Z.eqb_spec (t_dim t) 0); [lia |].
          destruct (Z.eqb_spec (t_dim t) 1); cbn [andb] in A.
          -- destruct (Z.eqb_spec (t_id t) 10); auto. destruct A as (-> & A).
             right. split; auto. destruct A as [-> | (X & _)]; [| auto].
             destruct B as [B | (_ & B)]; [lia | auto].
          -- left. lia.
        * destruct B as (Q & B). rewrite Q, e in A. cbn in A.
          destruct (Z.eqb_spec (t_id t) 10) as [E10 |].
          -- exfalso. rewrite E10 in B. destruct B as [B | (X & _)]; auto; lia.
          -- destruct A as (-> & A). split; [lia |]. eapply same_or_sub_trans; eauto.
      + destruct B as (Q & B). rewrite Q in A.
        destruct (Z.eqb_spec (t_dim d) 0); [lia |]. destruct (Z.eqb_spec (t_dim d) 1); [lia |].
        cbn [andb] in A. destruct A as (-> & A). split; auto. eapply same_or_sub_trans; eauto.
  Qed.

  (** Types of arguments and return values that are not arrays of an interface. *)
  Definition sig_type (t : ty) : Prop :=
    type_ok p t /\ t_id t <> 0 /\ t_id t <> ID_UNDEF /\
    (is_category p (t_id t) CInterface -> t_dim t = 0).

  (** What assignability between argument types means ([interface_match]). *)
  Definition sig_assign (d s : ty) : Prop :=
    match shape p d with
    | SUnk | SUndef => False
    | SNum | SMul | SRef | SIface => d = s
    | SVoid => shape p s = SVoid
    | _ => object_type p s /\ instance p (t_id s, t_dim s) d /\ (is_mutable d = true -> is_mutable s = true)
    end.

  Lemma sig_assign_spec v hi d s : (w <= v)%nat -> sig_type d -> sig_type s ->
    exists b, assign_noconv p v hi true d s = Ret b /\ (b = true <-> sig_assign d s).
  Proof using OK REL.
    intros L (TD & U0 & U1 & NI) (TS & V0 & V1 & NS).
    unfold ID_UNDEF in *.
    pose proof (shape_spec p OK _ TD) as MD. pose proof (shape_spec p OK _ TS) as MS.
    assert (OD : object_type p d -> no_interface p d -> 
       exists b, assign_noconv p v hi true d s = Ret b /\
         (b = true <-> object_type p s /\ instance p (t_id s, t_dim s) d /\ (is_mutable d = true -> is_mutable s = true))).
    { intros Od N. destruct (is_object p s) eqn:Q.
      - apply (object_type_shape p OK _ TS) in Q.
        destruct (assign_spec p OK w REL v hi true d s L Od Q N) as (b & E & S). exists b. split; auto. tauto.
      - exists false. split.
        + apply (object_type_shape p OK _ TD) in Od.
          rewrite (sh_object p OK _ TD) in Od. rewrite (sh_object p OK _ TS) in Q.
          unfold assign_noconv, satisfy_assignment. shapes_of d TD. shapes_of s TS.
          unfold no_interface in N. rewrite is_category_of in N by apply TD.
          unfold shape_means in *. unfold conv, no, yes, yes_if.
          destruct (shape p d); try discriminate Od; try (exfalso; apply N; tauto);
          destruct (shape p s); try discriminate Q; cbn [obind andb negb]; auto; try lia;
          destruct (t_id d =? t_id s + UPGRADE_SHIFT); auto.
        + split; [discriminate |]. intros (Os & _). apply (object_type_shape p OK _ TS) in Os. congruence. }
    assert (NIF : category_of p (t_id d) <> CInterface -> no_interface p d).
    { intros H K. apply H. apply is_category_of in K; auto. apply TD. }
    assert (ODE : is_object p d = true -> object_type p d) by (apply object_type_shape; auto).
    rewrite (sh_object p OK _ TD) in ODE.
    pose proof (cat_ids p OK _ (proj1 TD)) as CI.
    unfold sig_assign, shape_means in *.
    destruct (shape p d) eqn:SD.
    all: try (apply OD; [apply ODE; reflexivity | apply NIF; intros K; rewrite K in CI; lia]).
    all: try (apply OD; [apply ODE; reflexivity | apply NIF; destruct MD as (_ & K & _); congruence]).
    all: try (apply OD; [apply ODE; reflexivity | apply NIF; destruct MD as (_ & _ & K & _); congruence]).
    all: try (apply OD; [apply ODE; reflexivity | apply NIF; intros K;
                apply (is_category_of p _ _ (proj1 TD)) in K; specialize (NI K); lia]).
    all: try (exfalso; destruct MD as (MD & K & _); apply (is_category_of p _ _ (proj1 TD)) in K; specialize (NI K); lia).
    all: try lia.
    all: unfold assign_noconv, satisfy_assignment; shapes_of d TD; shapes_of s TS; rewrite SD;
      unfold conv, no, yes, yes_if; clear OD ODE NIF.
    all: destruct (shape p s) eqn:SS; cbn [obind andb negb]; try lia.
    all: try (exists false; split; [reflexivity |]; split; [discriminate | first [discriminate | intros <-; congruence]]).
    all: try (exists (ty_equals d s && true); split; [reflexivity |]; rewrite andb_true_r; apply ty_equals_spec).
    - exists true. tauto.
    - destruct d as [di dd df], s as [si sd sf]; cbn [t_id t_dim t_flag] in *.
      destruct (Z.eqb_spec si di).
      + exists true. split; auto. split; auto. intros _. clear - MD MS e. f_equal; lia.
      + exists false. split.
        * destruct (di >? si); auto.
        * split; [discriminate |]. intros Q; inversion Q. lia.
    - exists false. split.
      + destruct (t_id s =? t_id d + UPGRADE_SHIFT); auto.
      + split; [discriminate | intros <-; congruence].
  Qed.

  Lemma sig_assign_trans d s u : sig_assign d s -> sig_assign s u -> sig_type d -> sig_type s -> sig_type u ->
    sig_assign d u.
  Proof using OK.
    intros A B D S U. unfold sig_assign in *.
    destruct (shape p d) eqn:SD; subst; try tauto.
    all: try (rewrite A in B; assumption).
    all: try (rewrite SD in B; assumption).
    all: destruct A as (OS & I & M).
    all: pose proof (proj1 (object_type_shape p OK s (proj1 S)) OS) as Q; rewrite (sh_object p OK _ (proj1 S)) in Q.
    all: destruct (shape p s) eqn:SS; try discriminate Q; try (subst u; exact (conj OS (conj I M))).
    all: destruct B as (OU & I' & M'); (split; [assumption |]); (split; [eapply instance_trans; eauto | auto]).
  Qed.

  (** *** Methods *)
  Definition sig_ok (m : meth) : Prop := Forall sig_type (m_args m) /\ sig_type (m_return m).

  Fixpoint prefix_assign (ds ss : list ty) : Prop :=
    match ds, ss with
    | d :: ds', s :: ss' => sig_assign d s /\ prefix_assign ds' ss'
    | _, _ => True
    end.

  Lemma args_match_spec v hi ds : (w <= v)%nat -> Forall sig_type ds -> forall ss, Forall sig_type ss ->
    exists b, args_match p v hi ds ss = Ret b /\ (b = true <-> prefix_assign ds ss).
  Proof using OK REL.
    intros L FD. induction FD as [| d ds D FD IH]; intros ss FS; cbn [args_match prefix_assign].
    - exists true. tauto.
    - destruct FS as [| s ss S FS].
      + exists true. tauto.
      + destruct (sig_assign_spec v hi d s L D S) as (b & -> & B). cbn [obind].
        destruct (IH ss FS) as (b' & E & B'). destruct b.
        * exists b'. split; auto. tauto.
        * exists false. split; auto. split; [discriminate |]. intros (X & _). apply B in X. discriminate.
  Qed.

  Lemma prefix_assign_trans ds : forall ss us,
    prefix_assign ds ss -> prefix_assign ss us -> length ds = length ss -> length ss = length us ->
    Forall sig_type ds -> Forall sig_type ss -> Forall sig_type us -> prefix_assign ds us.
  Proof using OK.
    induction ds as [| d ds IH]; intros [| s ss] [| u us] A B L1 L2 F1 F2 F3; cbn in *; try tauto; try discriminate.
    inversion F1; inversion F2; inversion F3; subst. destruct A, B.
    split; [eapply sig_assign_trans; eauto | eapply IH; eauto].
  Qed.

  Definition sat (m1 m2 : meth) : Prop :=
    m_is_class_method m2 = false /\ m_is_class_method m1 = false /\
    m_required_args_length m2 <= zlen (m_args m1) /\
    prefix_assign (tl (m_args m1)) (tl (m_args m2)) /\ sig_assign (m_return m1) (m_return m2).

  Lemma Forall_tl {A} (P : A -> Prop) l : Forall P l -> Forall P (tl l).
  Proof using. clear. destruct 1; cbn; auto. Qed.

  Lemma satisfy_method_spec v hi m1 m2 : (w <= v)%nat -> sig_ok m1 -> sig_ok m2 ->
    exists b, satisfy_method p v hi m1 m2 = Ret b /\ (b = true <-> sat m1 m2).
  Proof using OK REL.
    intros L (F1 & R1) (F2 & R2). unfold satisfy_method, sat.
    destruct (m_is_class_method m2); [exists false; split; auto; intuition discriminate |].
    destruct (m_is_class_method m1); [exists false; split; auto; intuition discriminate |].
    rewrite Z.geb_leb.
    destruct (Z.leb_spec (m_required_args_length m2) (zlen (m_args m1))); cbn [negb];
      [| exists false; split; auto; split; [discriminate | lia]].
    destruct (args_match_spec v hi (tl (m_args m1)) L (Forall_tl _ _ F1) (tl (m_args m2)) (Forall_tl _ _ F2))
      as (b & -> & B). cbn [obind].
    destruct (sig_assign_spec v hi _ _ L R1 R2) as (b' & -> & B').
    destruct b.
    - exists b'. split; auto. tauto.
    - exists false. split; auto. split; [discriminate |]. intros H'. assert (false = true) by tauto. auto.
  Qed.

  (** The same number of arguments, and of required ones. *)
  Definition same_args (m m' : meth) : Prop :=
    zlen (m_args m) = zlen (m_args m') /\ m_required_args_length m = m_required_args_length m'.

  Lemma zlen_length {A} (a b : list A) : zlen a = zlen b -> length a = length b.
  Proof using. clear. unfold zlen. lia. Qed.

  Lemma sat_trans m1 m2 m3 : sig_ok m1 -> sig_ok m2 -> sig_ok m3 -> same_args m1 m2 -> same_args m1 m3 ->
    sat m1 m2 -> sat m2 m3 -> sat m1 m3.
  Proof using OK.
    intros (F1 & R1) (F2 & R2) (F3 & R3) (L2 & Q2) (L3 & Q3) (A1 & A2 & A3 & A4 & A5) (B1 & B2 & B3 & B4 & B5).
    assert (T1 : length (tl (m_args m1)) = length (tl (m_args m2))).
    { apply zlen_length in L2. destruct (m_args m1), (m_args m2); cbn in *; lia. }
    assert (T2 : length (tl (m_args m2)) = length (tl (m_args m3))).
    { apply zlen_length in L2. apply zlen_length in L3.
      destruct (m_args m1), (m_args m2), (m_args m3); cbn in *; lia. }
    repeat split; auto; try lia.
    - eapply prefix_assign_trans; eauto using Forall_tl.
    - eapply sig_assign_trans; eauto.
  Qed.
End Trans.

(** ** Interfaces *)
Section Iface.
  Variable p : prog.
  Hypothesis OK : program_ok p.
  Hypothesis MOK : methods_ok p.
  Variable w : nat.
  Hypothesis REL : check_relation p w (all_ids p) = Ret tt.

  Lemma methods_match_true v hi src : forall l, methods_match p v hi src l = Ret true ->
    forall m, In m l -> m_is_class_method m = false ->
    exists r, search_method p v (Some src) (m_name m) = Ret r /\
      match r with
      | None => m_is_required m = false
      | Some (_, m') => satisfy_method p v hi m m' = Ret true
      end.
  Proof using.
    clear. induction l as [| x l IH]; intros E m I C; [destruct I |].
    cbn [methods_match] in E. destruct I as [<- | I].
    - rewrite C in E. destruct (search_method p v (Some src) (m_name x)) as [r | | |]; try discriminate.
      exists r. split; auto. cbn [obind] in E. destruct r as [(e, m') |].
      + destruct (satisfy_method p v hi x m') as [[] | | |]; try discriminate. auto.
      + destruct (m_is_required x); [discriminate | auto].
    - apply IH; auto. destruct (m_is_class_method x); auto.
      destruct (search_method p v (Some src) (m_name x)) as [r | | |]; try discriminate.
      cbn [obind] in E. destruct r as [(e, m') |].
      + destruct (satisfy_method p v hi x m') as [[] | | |]; try discriminate. auto.
      + destruct (m_is_required x); [discriminate | auto].
  Qed.

  Lemma methods_match_intro v hi src : forall l,
    (forall m, In m l -> m_is_class_method m = false ->
       exists e m', search_method p v (Some src) (m_name m) = Ret (Some (e, m')) /\
                    satisfy_method p v hi m m' = Ret true) ->
    methods_match p v hi src l = Ret true.
  Proof using.
    clear. induction l as [| x l IH]; intros H; cbn [methods_match]; auto.
    assert (T : methods_match p v hi src l = Ret true) by (apply IH; intros; apply H; auto; now right).
    destruct (m_is_class_method x) eqn:C; auto.
    destruct (H x ltac:(now left) C) as (e & m' & -> & S). cbn [obind]. rewrite S. cbn [obind]. auto.
  Qed.

  Lemma override_walk_super v f : forall wl i, override_walk p v f wl i (parent_of p i) = Ret tt ->
    forall j, super p i j -> has_interface_common p v (has_interface p v f) i j = Ret true.
  Proof using OK.
    assert (G : forall wl i c, override_walk p v f wl i (parent_of p c) = Ret tt ->
      forall j, super p c j -> has_interface_common p v (has_interface p v f) i j = Ret true).
    { induction wl as [| wl IH]; intros i c E j S; [discriminate |]. cbn [override_walk] in E.
      inversion S as [c' d X | c' d e X S']; subst.
      - rewrite (proj2 (parent_extends p OK c j) X) in E.
        destruct (has_interface_common p v (has_interface p v f) i j) as [[] | | |]; try discriminate. auto.
      - rewrite (proj2 (parent_extends p OK c d) X) in E.
        destruct (has_interface_common p v (has_interface p v f) i d) as [[] | | |]; try discriminate.
        eapply IH; eauto. }
    eauto.
  Qed.

  (** [I]'s instance methods are all required, and [c]'s methods of the same
      names take as many arguments. *)
  Definition iface_ok (I : Z) : Prop :=
    forall m, In m (methods_of p I) -> m_is_class_method m = false -> m_is_required m = true /\ sig_ok p m.
  Definition agrees (I c : Z) : Prop :=
    forall m e m', In m (methods_of p I) -> m_is_class_method m = false ->
      nearest p (m_name m) c e m' -> same_args m m' /\ sig_ok p m'.

  Variable f0 : nat.
  Hypothesis OVR : check_override p (S w) f0 (all_ids p) = Ret tt.

  Lemma override_ok i j : super p i j ->
    has_interface_common p (S w) (has_interface p (S w) f0) i j = Ret true.
  Proof using OK REL OVR.
    intros H. eapply override_walk_super; eauto.
    destruct (super_class p OK w REL _ _ H) as (_ & _ & B & _).
    exact (check_all_In _ _ i OVR (in_ids p i B)).
  Qed.

  Lemma has_interface_elim v hi src I : has_interface_step p v hi src I = Ret true ->
    bt_is_interface p I = true /\ (bt_is_class p src || bt_is_interface p src = true) /\
    methods_match p v hi src (methods_of p I) = Ret true.
  Proof using.
    clear. unfold has_interface_step, has_interface_common.
    destruct (bt_is_interface p I); cbn [negb]; [| discriminate].
    destruct (bt_is_class p src || bt_is_interface p src); cbn [negb]; [| discriminate].
    rewrite orb_true_r. cbn [negb]. auto.
  Qed.

  Lemma class_range i : bt_is_class p i || bt_is_interface p i = true -> 0 <= i < zlen p.
  Proof using.
    clear. unfold bt_is_class, bt_is_interface, category_of. destruct (znth p i) eqn:E.
    - intros _. apply znth_Some in E. auto.
    - discriminate.
  Qed.

  (** A class that satisfies a class (or an interface) satisfying [I] satisfies [I]. *)
  Lemma has_interface_compose hi1 hi2 hi3 v1 v2 v3 src mid I :
    (S w <= v1)%nat -> (S w <= v2)%nat -> (S w <= v3)%nat ->
    iface_ok I -> agrees I src -> agrees I mid ->
    methods_match p v1 hi1 mid (methods_of p I) = Ret true ->
    0 <= src < zlen p -> 0 <= mid < zlen p ->
    (forall e m, nearest p (m_name m) mid e m -> m_is_class_method m = false ->
       exists r, search_method p v2 (Some src) (m_name m) = Ret r /\
       match r with
       | None => False
       | Some (_, m') => satisfy_method p v2 hi2 m m' = Ret true
       end) ->
    methods_match p v3 hi3 src (methods_of p I) = Ret true.
  Proof using OK MOK REL.
    intros L1 L2 L3 IO AS AM E BS BM H. apply methods_match_intro. intros m IN C.
    destruct (IO m IN C) as (RQ & SO).
    destruct (methods_match_true _ _ _ _ E m IN C) as (r & SE & R).
    destruct (search_spec p OK MOK w REL v1 mid (m_name m) BM L1) as (r' & SE' & N).
    rewrite SE in SE'. inversion SE'; subst r'. destruct r as [(e, m') |]; [| congruence].
    pose proof (proj1 (N e m') eq_refl) as NE.
    destruct (AM m e m' IN C NE) as (SA & SO').
    destruct (satisfy_method_spec p OK w REL v1 hi1 m m' ltac:(lia) SO SO') as (b & Eb & Sb).
    rewrite R in Eb. inversion Eb; subst b. pose proof (proj1 Sb eq_refl) as S1.
    pose proof (nearest_name p _ _ _ _ NE) as NN.
    destruct (H e m') as (r2 & SE2 & R2); [rewrite NN; auto | apply S1 |].
    destruct r2 as [(e2, m2) |]; [| tauto]. rewrite NN in SE2.
    destruct (search_spec p OK MOK w REL v2 src (m_name m) BS L2) as (r3 & SE3 & N3).
    rewrite SE2 in SE3. inversion SE3; subst r3.
    pose proof (proj1 (N3 e2 m2) eq_refl) as NE2.
    destruct (AS m e2 m2 IN C NE2) as (SA2 & SO2).
    destruct (satisfy_method_spec p OK w REL v2 hi2 m' m2 ltac:(lia) SO' SO2) as (b2 & Eb2 & Sb2).
    rewrite R2 in Eb2. inversion Eb2; subst b2. pose proof (proj1 Sb2 eq_refl) as S2.
    exists e2, m2. split.
    - destruct (search_spec p OK MOK w REL v3 src (m_name m) BS L3) as (r4 & SE4 & N4).
      rewrite SE4. f_equal. apply N4. auto.
    - destruct (satisfy_method_spec p OK w REL v3 hi3 m m2 ltac:(lia) SO SO2) as (b4 & -> & S4).
      f_equal. apply S4. eapply sat_trans with (m2 := m'); eauto.
  Qed.

  (** Sub classes. *)
  Lemma has_interface_sub f src mid I : iface_ok I -> agrees I src -> agrees I mid ->
    super p src mid -> has_interface p (S w) (S f) mid I = Ret true ->
    has_interface p (S w) (S f) src I = Ret true.
  Proof using OK MOK REL OVR.
    intros IO AS AM SU E. cbn [has_interface] in *.
    destruct (has_interface_elim _ _ _ _ E) as (II & CM & MM).
    destruct (super_class p OK w REL _ _ SU) as (C1 & C2 & B1 & B2).
    unfold has_interface_step, has_interface_common. rewrite II, orb_true_r. cbn [negb].
    unfold bt_is_class at 1. rewrite C1. cbn [cat_eqb orb negb].
    eapply (has_interface_compose (has_interface p (S w) f) (has_interface p (S w) f0) (has_interface p (S w) f)
              (S w) (S w) (S w) src mid I); eauto.
    intros e m N C. pose proof (nearest_super p _ _ _ _ N) as NS.
    assert (SE : super p src e) by (destruct NS as [-> | NS]; auto; eapply super_trans; eauto).
    pose proof (override_ok src e SE) as O.
    unfold has_interface_common in O.
    destruct (super_class p OK w REL _ _ SE) as (C3 & C4 & _).
    unfold bt_is_class in O. rewrite C3, C4 in O. cbn [cat_eqb orb negb] in O.
    destruct (nearest_in p _ _ _ _ N) as (b & Ee & IN).
    assert (IN' : In m (methods_of p e)) by (unfold methods_of; rewrite Ee; auto).
    destruct (methods_match_true _ _ _ _ O m IN' C) as (r & SR & R). exists r. split; auto.
    destruct (search_spec p OK MOK w REL (S w) src (m_name m) B1 ltac:(lia)) as (r' & SR' & NR).
    rewrite SR in SR'. inversion SR'; subst r'.
    destruct r as [(e', m') |]; auto.
    assert (EX : forall a c z x, super p a c -> nearest p z c x m -> exists x' m', nearest p z a x' m').
    { clear - OK. intros a c z x H N.
      induction H as [c d X | c d e X S IH].
      - pose proof X as (b & b' & E & E' & _).
        destruct (own_method p c z) as [m1 |] eqn:F.
        + destruct (own_method_Some _ _ _ _ F) as (b0 & E0 & I & Nm). exists c, m1. econstructor; eauto.
        + exists x, m. econstructor 2; eauto. eapply own_method_None; eauto.
      - destruct (IH N) as (x' & m' & N').
        pose proof X as (b & b' & E & E' & _).
        destruct (own_method p c z) as [m1 |] eqn:F.
        + destruct (own_method_Some _ _ _ _ F) as (b0 & E0 & I & Nm). exists c, m1. econstructor; eauto.
        + exists x', m'. econstructor 2; eauto. eapply own_method_None; eauto. }
    destruct (EX src mid (m_name m) e SU N) as (x' & m' & N').
    apply NR in N'. discriminate.
  Qed.

  (** An interface that has [I]. *)
  Lemma has_interface_iface f src J I : iface_ok I -> iface_ok J -> agrees I src -> agrees I J ->
    has_interface p (S w) (S f) J I = Ret true ->
    has_interface p (S w) (S f) src J = Ret true ->
    has_interface p (S w) (S f) src I = Ret true.
  Proof using OK MOK REL.
    intros IO JO AS AJ E1 E2. cbn [has_interface] in *.
    destruct (has_interface_elim _ _ _ _ E1) as (II & CM & MM).
    destruct (has_interface_elim _ _ _ _ E2) as (IJ & CS & MS).
    unfold has_interface_step, has_interface_common. rewrite II, orb_true_r, CS. cbn [negb].
    eapply (has_interface_compose (has_interface p (S w) f) (has_interface p (S w) f) (has_interface p (S w) f)
              (S w) (S w) (S w) src J I); eauto using class_range.
    intros e m N C.
    assert (IN : In m (methods_of p J)).
    { inversion N as [c b m0 E I0 Nm | c d e0 m0 b E NI X H]; subst.
      - unfold methods_of. rewrite E. auto.
      - exfalso. destruct (extends_class p OK w REL _ _ X) as (K & _).
        unfold bt_is_interface in IJ. rewrite K in IJ. discriminate. }
    destruct (methods_match_true _ _ _ _ MS m IN C) as (r & SR & R). exists r. split; auto.
    destruct r as [(e', m') |]; auto. destruct (JO m IN C). congruence.
  Qed.

  (** Assignability to an interface type (or an array of it). *)
  Lemma assign_interface v hi d s : object_type p d -> object_type p s -> is_category p (t_id d) CInterface ->
    assign_noconv p v hi false d s = Ret true <->
    t_dim s = t_dim d /\ (t_id s = t_id d \/
      (bt_is_class p (t_id s) || bt_is_interface p (t_id s) = true) /\ hi (t_id s) (t_id d) = Ret true).
  Proof using OK.
    intros Od Os C. pose proof Od as (TD & _). pose proof Os as (TS & _).
    apply (object_type_shape p OK _ TD) in Od. apply (object_type_shape p OK _ TS) in Os.
    rewrite (sh_object p OK _ TD) in Od. rewrite (sh_object p OK _ TS) in Os.
    apply is_category_of in C; [| apply TD].
    pose proof (cat_ids p OK _ (proj1 TD)) as CD. pose proof (cat_ids p OK _ (proj1 TS)) as CS.
    rewrite C in CD.
    pose proof (shape_spec p OK _ TD) as MD. pose proof (shape_spec p OK _ TS) as MS.
    unfold assign_noconv, satisfy_assignment. shapes_of d TD. shapes_of s TS.
    assert (NS : is_super_class p v (t_id d) (t_id s) = Ret false).
    { unfold is_super_class, bt_is_class. rewrite C. reflexivity. }
    rewrite NS. unfold bt_is_interface, bt_is_class. rewrite C.
    assert (EQ : t_dim s = t_dim d -> t_id s = t_id d -> category_of p (t_id s) = CInterface) by congruence.
    unfold shape_means in *. unfold yes, no, plain.
    assert (TE : ty_equals d s = (t_id s =? t_id d) && (t_dim s =? t_dim d) && (t_flag s =? t_flag d)).
    { unfold ty_equals. now rewrite (Z.eqb_sym (t_id d)), (Z.eqb_sym (t_dim d)), (Z.eqb_sym (t_flag d)). }
    rewrite TE. clear TE NS.
    destruct (shape p d); try discriminate Od; decompose [and] MD; clear MD; try congruence; try lia;
    (destruct (shape p s); try discriminate Os); decompose [and] MS; clear MS; cbn [obind cat_eqb orb negb];
    repeat match goal with
    | H : t_dim _ = _ |- _ => rewrite H in *; clear H
    | H : t_flag _ = 0 |- _ => rewrite H in *; clear H
    | H : category_of p (t_id s) = _ |- _ => rewrite H in *; clear H
    end.
    all: clear OK MOK REL OVR TD TS; remember (hi (t_id s) (t_id d)) as o eqn:Ho; clear Ho;
      remember (category_of p (t_id s)) as cs eqn:Hcs; clear Hcs;
      try (destruct cs; try lia; try discriminate);
      destruct (Z.eqb_spec (t_id s) (t_id d)) as [E | E]; try lia;
      try (specialize (EQ eq_refl E); discriminate EQ);
      try (destruct (Z.eqb_spec (t_dim s) (t_dim d)) as [E' | E'];
           try (specialize (EQ E' E); discriminate EQ));
      destruct o as [[] | | |]; cbn [cat_eqb orb andb negb obind Z.eqb];
      (split; [intros Q | intros (Q1 & Q2)]); try discriminate; try lia;
      try (destruct Q2 as [Q2 | (Q2 & Q3)]); try discriminate; try lia; auto.
  Qed.
End Iface.
