From Verif Require Import Base CLib Type_model Type_spec.

(** ** Names *)

Lemma name_eqb_spec a b : name_eqb a b = true <-> a = b.
Proof. unfold name_eqb. destruct (list_eq_dec Z.eq_dec a b); split; congruence. Qed.
Lemma name_eqb_refl a : name_eqb a a = true.
Proof. now apply name_eqb_spec. Qed.
Lemma name_eqb_false a b : name_eqb a b = false <-> a <> b.
Proof. unfold name_eqb. destruct (list_eq_dec Z.eq_dec a b); split; congruence. Qed.

Lemma find_from_Some l : forall i n j,
  find_from l i n = Some j -> exists b, znth l (j - i) = Some b /\ bt_name b = n /\ i <= j < i + zlen l.
Proof.
  induction l as [| b l IH]; intros i n j E; cbn [find_from] in E; [discriminate |].
  destruct (name_eqb (bt_name b) n) eqn:Q.
  - apply name_eqb_spec in Q. inversion E; subst j. exists b.
    rewrite Z.sub_diag. rewrite zlen_cons. pose proof (zlen_nonneg l). split; [reflexivity |]. split; auto. lia.
  - destruct (IH _ _ _ E) as (b' & N & Hn & R). exists b'. rewrite zlen_cons. split; [| split; auto; lia].
    rewrite znth_cons. destruct (Z.eqb_spec (j - i) 0); [lia |].
    replace (j - i - 1) with (j - (i + 1)) by lia. auto.
Qed.

Lemma find_from_NoDup l : forall i j b,
  NoDup (map bt_name l) -> znth l j = Some b -> find_from l i (bt_name b) = Some (i + j).
Proof.
  induction l as [| c l IH]; intros i j b N E.
  - rewrite znth_nil in E. discriminate.
  - cbn [map] in N. inversion N as [| x y NI N' Eq]; subst.
    pose proof (znth_Some _ _ _ E) as B. rewrite zlen_cons in B.
    cbn [find_from]. rewrite znth_cons in E. destruct (Z.eqb_spec j 0) as [-> | J].
    + inversion E; subst. rewrite name_eqb_refl. f_equal; lia.
    + destruct (name_eqb (bt_name c) (bt_name b)) eqn:Q.
      * apply name_eqb_spec in Q. exfalso. apply NI. rewrite Q. apply in_map.
        eapply znth_In; eauto.
      * rewrite (IH (i + 1) (j - 1) b); auto. f_equal; lia.
Qed.

Lemma ids_from_In l : forall i j, i <= j < i + zlen l -> In j (ids_from l i).
Proof.
  induction l as [| b l IH]; intros i j B.
  - rewrite zlen_nil in B. lia.
  - rewrite zlen_cons in B. cbn [ids_from]. destruct (Z.eq_dec i j); [now left | right].
    apply IH. lia.
Qed.

Lemma check_all_In chk ids i : check_all chk ids = Ret tt -> In i ids -> chk i = Ret tt.
Proof.
  induction ids as [| j ids IH]; intros E I; [destruct I |].
  cbn [check_all] in E. destruct (chk j) as [[] | | |] eqn:Q; try discriminate.
  cbn in E. destruct I as [<- | I]; auto.
Qed.

Section Prog.
  Variable p : prog.
  Hypothesis OK : program_ok p.

  Lemma find_name i b : znth p i = Some b -> find_basic_type p (bt_name b) = Some i.
  Proof.
    intros E. unfold find_basic_type. rewrite (find_from_NoDup p 0 i b); auto. apply po_names; auto.
  Qed.

  Lemma find_Some n i : find_basic_type p n = Some i -> exists b, znth p i = Some b /\ bt_name b = n.
  Proof.
    clear OK. intros E. destruct (find_from_Some _ _ _ _ E) as (b & N & Hn & _).
    rewrite Z.sub_0_r in N. eauto.
  Qed.

  Lemma parent_extends i j : parent_of p i = Some j <-> extends p i j.
  Proof.
    unfold parent_of, parent_name_of, extends. split.
    - destruct (znth p i) as [b |] eqn:E; [| discriminate].
      destruct (bt_parent_name b) as [n |] eqn:P; [| discriminate]. intros F.
      destruct (find_Some _ _ F) as (b' & E' & <-). eauto 6.
    - intros (b & b' & E & E' & P). rewrite E, P. apply find_name; auto.
  Qed.

  Lemma extends_fun i j k : extends p i j -> extends p i k -> j = k.
  Proof. rewrite <- !parent_extends. congruence. Qed.

  (** ** Categories *)

  Lemma core_cat i : 0 <= i < 11 -> znth core_categories i = Some (category_of p i).
  Proof.
    intros B. pose proof (po_length _ OK). unfold category_of.
    destruct (znth_lt p i) as (b & E); [lia |]. rewrite E.
    pose proof (po_core _ OK) as C. rewrite <- C.
    rewrite znth_map, znth_take. destruct (Z.ltb_spec i 11); [| lia]. rewrite E. reflexivity.
  Qed.

  Lemma cat_in i : 0 <= i < zlen p -> exists b, znth p i = Some b /\ category_of p i = bt_category b.
  Proof. clear OK. intros B. destruct (znth_lt p i B) as (b & E). unfold category_of. rewrite E. eauto. Qed.

  Lemma is_category_of i c : 0 <= i < zlen p -> (is_category p i c <-> category_of p i = c).
  Proof.
    clear OK. intros B. destruct (cat_in i B) as (b & E & C). unfold is_category. rewrite C. split.
    - intros (b' & E' & <-). congruence.
    - intros <-. eauto.
  Qed.

  (** The ids of each category. *)
  Lemma cat_ids i : 0 <= i < zlen p ->
    match category_of p i with
    | CUnknown => i = 0 | CUndef => i = 1 | CVoid => i = 2
    | CNumeric => 3 <= i <= 8 | CString => i = 9 | CAnyObject => i = 10
    | CClass => 11 <= i | CInterface | CMulnum => 17 <= i
    end.
  Proof.
    intros B. destruct (Z_lt_le_dec i 11) as [L | L].
    - pose proof (core_cat i ltac:(lia)) as C.
      assert (i = 0 \/ i = 1 \/ i = 2 \/ i = 3 \/ i = 4 \/ i = 5 \/ i = 6 \/ i = 7 \/ i = 8 \/ i = 9 \/ i = 10)
        as D by lia.
      repeat destruct D as [D | D]; subst i; unfold znth in C; cbn in C; inversion C as [C']; cbn; lia.
    - destruct (cat_in i B) as (b & E & C). rewrite C.
      destruct (po_user _ OK i b L E) as [Q | [Q | Q]]; rewrite Q; auto.
      + destruct (Z_le_dec i 16); [| lia]. rewrite (po_numeric_objects _ OK i b) in Q by (auto; lia). discriminate.
      + destruct (Z_le_dec i 16); [| lia]. rewrite (po_numeric_objects _ OK i b) in Q by (auto; lia). discriminate.
  Qed.

  (** ** Parent chains of checked programs *)
  Section Checked.
    Variable w : nat.
    Hypothesis REL : check_relation p w (all_ids p) = Ret tt.

    Lemma in_ids i : 0 <= i < zlen p -> In i (all_ids p).
    Proof. clear. intros B. unfold all_ids. apply ids_from_In. lia. Qed.

    Lemma rel_parent i : 0 <= i < zlen p -> check_parent p i = Ret tt.
    Proof.
      clear OK. intros B. unfold check_relation in REL.
      destruct (check_all (check_parent p) (all_ids p)) as [[] | | |] eqn:Q; try discriminate.
      eapply check_all_In; eauto using in_ids.
    Qed.

    Lemma rel_walk i : 0 <= i < zlen p -> recursion_walk p w (name_of p i) (parent_of p i) = Ret tt.
    Proof.
      clear OK. intros B. unfold check_relation in REL.
      destruct (check_all (check_parent p) (all_ids p)) as [[] | | |] eqn:Q; try discriminate.
      exact (check_all_In _ _ i REL (in_ids i B)).
    Qed.

    (** A declared parent exists, is a class, and its child is a class. *)
    Lemma rel_extends i n : 0 <= i < zlen p -> parent_name_of p i = Some n ->
      exists j b, find_basic_type p n = Some j /\ znth p j = Some b /\ bt_name b = n /\
        category_of p j = CClass /\ category_of p i = CClass /\ 0 <= j < zlen p /\ extends p i j.
    Proof.
      clear OK. intros B P. pose proof (rel_parent i B) as C. unfold check_parent in C. rewrite P in C.
      destruct (find_basic_type p n) as [j |] eqn:F; [| discriminate].
      destruct (find_Some _ _ F) as (b & E & N).
      exists j, b. pose proof (znth_Some _ _ _ E).
      unfold bt_is_class in C.
      destruct (category_of p j) eqn:Cj; cbn in C; try discriminate.
      destruct (category_of p i) eqn:Ci; cbn in C; try discriminate.
      repeat split; auto; try lia.
      unfold extends. unfold parent_name_of in P. destruct (znth p i) as [bi |]; [| discriminate].
      exists bi, b. rewrite N. auto.
    Qed.

    Lemma extends_class i j : extends p i j ->
      category_of p i = CClass /\ category_of p j = CClass /\ 0 <= i < zlen p /\ 0 <= j < zlen p.
    Proof.
      intros E. pose proof E as (b & b' & Ei & Ej & P).
      pose proof (znth_Some _ _ _ Ei). pose proof (znth_Some _ _ _ Ej).
      destruct (rel_extends i (bt_name b')) as (k & c & F & _ & _ & Ck & Ci & _); auto.
      { unfold parent_name_of. rewrite Ei. auto. }
      rewrite (find_name _ _ Ej) in F. inversion F; subst. auto.
    Qed.

    Lemma super_class i j : super p i j ->
      category_of p i = CClass /\ category_of p j = CClass /\ 0 <= i < zlen p /\ 0 <= j < zlen p.
    Proof.
      induction 1 as [c d E | c d e E S IH]; [eapply extends_class; eauto |].
      destruct (extends_class _ _ E) as (? & ? & ? & ?). tauto.
    Qed.

    Lemma super_trans i j k : super p i j -> super p j k -> super p i k.
    Proof.
      clear. induction 1 as [c d E | c d e E S IH]; intros S'; econstructor 2; eauto.
    Qed.

    (** The walk by names decides [super]. *)
    Lemma super_walk_spec : forall v i d bd nm,
      0 <= i < zlen p -> znth p d = Some bd ->
      recursion_walk p v nm (parent_of p i) = Ret tt ->
      forall v', (v <= v')%nat ->
      exists b, super_walk p v' (bt_name bd) (parent_name_of p i) = Ret b /\ (b = true <-> super p i d).
    Proof.
      induction v as [| v IH]; intros i d bd nm B E R v' L; [discriminate |].
      destruct v' as [| v']; [lia |]. cbn [super_walk].
      destruct (parent_name_of p i) as [n |] eqn:P.
      - destruct (rel_extends i n B P) as (j & bj & F & Ej & Nj & Cj & Ci & Bj & X).
        destruct (name_eqb (bt_name bd) n) eqn:Q.
        + exists true. split; auto. split; auto. intros _. apply super_direct.
          apply name_eqb_spec in Q. rewrite <- Q, (find_name _ _ E) in F. inversion F; subst. auto.
        + rewrite F. apply name_eqb_false in Q.
          assert (PO : parent_of p i = Some j) by (apply parent_extends; auto).
          rewrite PO in R. cbn [recursion_walk] in R.
          destruct (name_eqb (name_of p j) nm) eqn:Q'; [discriminate |].
          destruct (IH j d bd nm Bj E R v' ltac:(lia)) as (b & W & S). exists b. split; auto.
          rewrite S. split; intros H.
          * econstructor 2; eauto.
          * inversion H as [c d' X' | c d' e X' S']; subst.
            { rewrite (extends_fun _ _ _ X X') in *. congruence. }
            { rewrite (extends_fun _ _ _ X X') in *. auto. }
      - exists false. split; auto. split; [discriminate |]. intros H. exfalso.
        inversion H as [c d' (b & b' & E1 & _ & P1) | c d' e (b & b' & E1 & _ & P1) S']; subst;
          unfold parent_name_of in P; rewrite E1 in P; congruence.
    Qed.

    Lemma is_super_class_spec v d s :
      0 <= d < zlen p -> 0 <= s < zlen p -> (w <= v)%nat ->
      exists b, is_super_class p v d s = Ret b /\ (b = true <-> super p s d).
    Proof.
      intros Bd Bs L. unfold is_super_class, bt_is_class.
      destruct (cat_eqb (category_of p d) CClass) eqn:Cd; cbn [negb].
      2:{ exists false. split; auto. split; [discriminate |]. intros H.
          destruct (super_class _ _ H) as (_ & C & _). rewrite C in Cd. discriminate. }
      destruct (cat_eqb (category_of p s) CClass) eqn:Cs; cbn [negb].
      2:{ exists false. split; auto. split; [discriminate |]. intros H.
          destruct (super_class _ _ H) as (C & _). rewrite C in Cs. discriminate. }
      destruct (znth_lt p d Bd) as (bd & Ed).
      unfold name_of. rewrite Ed.
      eapply super_walk_spec; eauto. apply rel_walk; auto.
    Qed.

    (** No class is its own super class. *)
    Lemma walk_no_self : forall v i j nm,
      recursion_walk p v nm (parent_of p i) = Ret tt -> super p i j -> name_of p j <> nm.
    Proof.
      clear REL. induction v as [| v IH]; intros i j nm R H; [discriminate |].
      cbn [recursion_walk] in R.
      inversion H as [c d X | c d e X S]; subst.
      - rewrite (proj2 (parent_extends i j) X) in R.
        destruct (name_eqb (name_of p j) nm) eqn:Q; [discriminate |]. now apply name_eqb_false.
      - rewrite (proj2 (parent_extends i d) X) in R.
        destruct (name_eqb (name_of p d) nm) eqn:Q; [discriminate |]. eauto.
    Qed.

    Lemma super_irrefl i : ~ super p i i.
    Proof.
      intros H. destruct (super_class _ _ H) as (_ & _ & B & _).
      eapply walk_no_self; eauto using rel_walk.
    Qed.
  End Checked.
End Prog.

(** ** Shapes: what the predicates of spvm_type.c say, in one place *)

Inductive tshape : Type :=
| SUnk | SUndef | SVoid | SNum | SMul | SStr | SNumObj | SClass | SIface | SAny | SRef
| SNumA | SMulA | SStrA | SClassA | SIfaceA | SAnyA | SDeep.

Section Shape.
  Variable p : prog.
  Hypothesis OK : program_ok p.

  Definition shape (t : ty) : tshape :=
    if is_ref t then SRef
    else if t_dim t =? 0 then
      match category_of p (t_id t) with
      | CUnknown => SUnk | CUndef => SUndef | CVoid => SVoid | CNumeric => SNum | CMulnum => SMul
      | CString => SStr | CClass => if bt_is_numeric_object (t_id t) then SNumObj else SClass
      | CInterface => SIface | CAnyObject => SAny
      end
    else if t_dim t =? 1 then
      match category_of p (t_id t) with
      | CNumeric => SNumA | CMulnum => SMulA | CString => SStrA | CClass => SClassA
      | CInterface => SIfaceA | CAnyObject => SAnyA | _ => SUnk
      end
    else SDeep.

  Ltac shp t :=
    intros TO; destruct TO as (B & D & FL & HI);
    pose proof (cat_ids p OK (t_id t) B) as CI;
    unfold is_numeric, is_mulnum, is_string, is_class, is_interface, is_any_object, is_undef, is_void,
      is_array, is_byte_array, is_numeric_array, is_mulnum_array, is_string_array, is_class_array,
      is_interface_array, is_any_object_array, is_muldim_array, is_numeric_object, shape,
      bt_is_numeric, bt_is_numeric_object, bt_is_string, bt_is_mulnum, bt_is_class, bt_is_interface,
      ID_BYTE, ID_DOUBLE, ID_BYTE_CLASS, ID_DOUBLE_CLASS, ID_STRING, ID_ANY_OBJECT, ID_UNDEF, ID_VOID in *;
    destruct (is_ref t); cbn [negb]; rewrite ?andb_false_r, ?andb_true_r; [reflexivity |];
    clear FL;
    destruct (Z.eqb_spec (t_dim t) 0); cbn [andb];
    [| destruct (Z.eqb_spec (t_dim t) 1); cbn [andb]];
    rewrite ?Z.gtb_ltb; try (destruct (Z.ltb_spec 0 (t_dim t)); try lia);
    try (destruct (Z.ltb_spec 1 (t_dim t)); try lia); cbn [andb]; rewrite ?andb_false_r;
    destruct (category_of p (t_id t)); cbn [cat_eqb]; try reflexivity; try lia;
    repeat match goal with
    | |- context [?a <=? ?b] => destruct (Z.leb_spec a b); cbn [andb]; try lia
    | |- context [?a =? ?b] => destruct (Z.eqb_spec a b); cbn [andb]; try lia
    end; try reflexivity; try lia.

  Lemma sh_numeric t : type_ok p t -> is_numeric t = match shape t with SNum => true | _ => false end.
  Proof. shp t. Qed.
  Lemma sh_mulnum t : type_ok p t -> is_mulnum p t = match shape t with SMul => true | _ => false end.
  Proof. shp t. Qed.
  Lemma sh_ref t : type_ok p t -> is_ref t = match shape t with SRef => true | _ => false end.
  Proof.
    intros _. unfold shape. destruct (is_ref t); auto. destruct (t_dim t =? 0).
    - destruct (category_of p (t_id t)); auto. destruct (bt_is_numeric_object (t_id t)); auto.
    - destruct (t_dim t =? 1); auto. destruct (category_of p (t_id t)); auto.
  Qed.
  Lemma sh_string t : type_ok p t -> is_string t = match shape t with SStr => true | _ => false end.
  Proof. shp t. Qed.
  Lemma sh_numeric_object t : type_ok p t ->
    is_numeric_object t = match shape t with SNumObj => true | _ => false end.
  Proof. shp t. Qed.
  Lemma sh_class t : type_ok p t ->
    is_class p t = match shape t with SNumObj | SClass => true | _ => false end.
  Proof. shp t. Qed.
  Lemma sh_interface t : type_ok p t ->
    is_interface p t = match shape t with SIface => true | _ => false end.
  Proof. shp t. Qed.
  Lemma sh_any_object t : type_ok p t ->
    is_any_object t = match shape t with SAny => true | _ => false end.
  Proof. shp t. Qed.
  Lemma sh_undef t : type_ok p t -> is_undef t = match shape t with SUndef => true | _ => false end.
  Proof. shp t. Qed.
  Lemma sh_void t : type_ok p t -> is_void t = match shape t with SVoid => true | _ => false end.
  Proof. shp t. Qed.
  Lemma sh_array t : type_ok p t ->
    is_array t = match shape t with
                 | SNumA | SMulA | SStrA | SClassA | SIfaceA | SAnyA | SDeep => true | _ => false end.
  Proof. shp t. Qed.
  Lemma sh_numeric_array t : type_ok p t ->
    is_numeric_array t = match shape t with SNumA => true | _ => false end.
  Proof. shp t. Qed.
  Lemma sh_byte_array t : type_ok p t ->
    is_byte_array t = match shape t with SNumA => t_id t =? ID_BYTE | _ => false end.
  Proof. shp t. Qed.
  Lemma sh_mulnum_array t : type_ok p t ->
    is_mulnum_array p t = match shape t with SMulA => true | _ => false end.
  Proof. shp t. Qed.
  Lemma sh_string_array t : type_ok p t ->
    is_string_array t = match shape t with SStrA => true | _ => false end.
  Proof. shp t. Qed.
  Lemma sh_class_array t : type_ok p t ->
    is_class_array p t = match shape t with SClassA => true | _ => false end.
  Proof. shp t. Qed.
  Lemma sh_interface_array t : type_ok p t ->
    is_interface_array p t = match shape t with SIfaceA => true | _ => false end.
  Proof. shp t. Qed.
  Lemma sh_any_object_array t : type_ok p t ->
    is_any_object_array t = match shape t with SAnyA => true | _ => false end.
  Proof. shp t. Qed.
  Lemma sh_muldim_array t : type_ok p t ->
    is_muldim_array t = match shape t with SDeep => true | _ => false end.
  Proof. shp t. Qed.

  Lemma sh_object t : type_ok p t ->
    is_object p t = match shape t with
                    | SNumA | SMulA | SStrA | SClassA | SIfaceA | SAnyA | SDeep
                    | SStr | SNumObj | SClass | SIface | SAny => true | _ => false end.
  Proof.
    intros TO. unfold is_object, is_basic_object.
    rewrite sh_array, sh_string, sh_class, sh_interface, sh_any_object by auto.
    destruct (shape t); reflexivity.
  Qed.

  (** What a shape says about a type. *)
  Definition shape_means (t : ty) : Prop :=
    match shape t with
    | SUnk => t_id t = 0 /\ t_dim t = 0
    | SUndef => t_dim t = 0 /\ t_id t = 1
    | SVoid => t_dim t = 0 /\ t_id t = 2
    | SNum => t_dim t = 0 /\ 3 <= t_id t <= 8 /\ t_flag t = 0
    | SMul => t_dim t = 0 /\ category_of p (t_id t) = CMulnum /\ t_flag t = 0
    | SStr => t_dim t = 0 /\ t_id t = 9 /\ (t_flag t = 0 \/ t_flag t = FLAG_MUTABLE)
    | SNumObj => t_dim t = 0 /\ 11 <= t_id t <= 16 /\ category_of p (t_id t) = CClass /\ t_flag t = 0
    | SClass => t_dim t = 0 /\ 17 <= t_id t /\ category_of p (t_id t) = CClass /\ t_flag t = 0
    | SIface => t_dim t = 0 /\ category_of p (t_id t) = CInterface /\ t_flag t = 0
    | SAny => t_dim t = 0 /\ t_id t = 10 /\ t_flag t = 0
    | SRef => t_dim t = 0 /\ t_flag t = FLAG_REF
    | SNumA => t_dim t = 1 /\ 3 <= t_id t <= 8 /\ t_flag t = 0
    | SMulA => t_dim t = 1 /\ category_of p (t_id t) = CMulnum /\ t_flag t = 0
    | SStrA => t_dim t = 1 /\ t_id t = 9 /\ t_flag t = 0
    | SClassA => t_dim t = 1 /\ category_of p (t_id t) = CClass /\ t_flag t = 0
    | SIfaceA => t_dim t = 1 /\ category_of p (t_id t) = CInterface /\ t_flag t = 0
    | SAnyA => t_dim t = 1 /\ t_id t = 10 /\ t_flag t = 0
    | SDeep => 1 < t_dim t /\ 3 <= t_id t /\ t_flag t = 0
    end.

  Lemma shape_spec t : type_ok p t -> shape_means t.
  Proof.
    intros (B & D & FL & HI). pose proof (cat_ids p OK (t_id t) B) as CI.
    unfold shape_means, shape.
    assert (FL' : is_ref t = true /\ t_flag t = FLAG_REF /\ t_dim t = 0 \/
                  is_ref t = false /\ (t_flag t = 0 \/ t_id t = 9 /\ t_dim t = 0 /\ t_flag t = FLAG_MUTABLE)).
    { unfold is_ref, FLAG_MUTABLE, FLAG_REF, ID_STRING in *.
      destruct FL as [-> | [(-> & ? & ?) | (-> & ? & ?)]]; cbn; auto 6. }
    clear FL. destruct FL' as [(-> & F & Z) | (-> & F)]; auto.
    unfold bt_is_numeric_object, ID_BYTE_CLASS, ID_DOUBLE_CLASS.
    destruct (Z.eqb_spec (t_dim t) 0); [| destruct (Z.eqb_spec (t_dim t) 1)];
      destruct (category_of p (t_id t)) eqn:CE; try lia; repeat split; auto; try lia;
      destruct (Z.leb_spec 11 (t_id t)); cbn [andb]; try (destruct (Z.leb_spec (t_id t) 16)); cbn [andb];
      repeat split; auto; lia.
  Qed.

  Lemma object_type_shape t : type_ok p t ->
    (object_type p t <-> is_object p t = true).
  Proof.
    intros TO. unfold object_type. pose proof (shape_spec t TO) as M. pose proof TO as (B & _ & FL & _).
    rewrite !is_category_of by auto.
    rewrite sh_object by auto. unfold shape_means in M.
    unfold FLAG_REF, FLAG_MUTABLE, ID_STRING, ID_ANY_OBJECT in *.
    pose proof (cat_ids p OK (t_id t) B) as CI.
    destruct (shape t) eqn:S; try tauto.
    all: split; [intros (_ & F & H); try reflexivity; exfalso | intros H; try discriminate H].
    all: try lia.
    all: try (destruct M as (M1 & M2 & M3); rewrite M2 in *;
              destruct H as [H | [H | [H | [H | H]]]]; first [lia | discriminate]).
    all: try (destruct H as [H | [H | [H | [H | H]]]]; try lia; rewrite H in CI; lia).
    all: try (split; auto; split; [lia | tauto]).
    all: try (split; auto; split; [lia |]; left; lia).
  Qed.
End Shape.

Section Assignable.
  Variable p : prog.
  Hypothesis OK : program_ok p.

  Lemma type_ok_elem t : type_ok p t -> 0 < t_dim t ->
    type_ok p {| t_id := t_id t; t_dim := t_dim t - 1; t_flag := t_flag t |}.
  Proof.
    intros (B & D & FL & HI) P. unfold type_ok. cbn. repeat split; try lia.
  Qed.

  Lemma sh_object_array t : type_ok p t ->
    is_object_array p t = match shape p t with
      | SStrA | SClassA | SIfaceA | SAnyA | SDeep => true | _ => false end.
  Proof using OK.
    intros TO. pose proof (shape_spec p OK t TO) as M.
    unfold is_object_array. rewrite (sh_array p OK t TO).
    assert (P : 0 < t_dim t \/ ~ 0 < t_dim t) by lia. destruct P as [P | P].
    - pose proof (type_ok_elem t TO P) as TE.
      rewrite (sh_object p OK _ TE). pose proof (shape_spec p OK _ TE) as ME.
      pose proof TO as (B & _). pose proof (cat_ids p OK (t_id t) B) as CI.
      unfold shape_means in *. cbn [t_id t_dim t_flag] in *.
      destruct (shape p t); try lia; cbn [andb]; auto;
        destruct (shape p _); auto; try lia;
        repeat match goal with H : _ /\ _ |- _ => destruct H end;
        unfold FLAG_REF in *; try lia; try congruence;
        match goal with H : category_of _ _ = _ |- _ => rewrite H in CI end; lia.
    - unfold shape_means in M. destruct (shape p t); auto; lia.
  Qed.

  Lemma ty_equals_spec a b : ty_equals a b = true <-> a = b.
  Proof.
    clear. destruct a, b. unfold ty_equals. cbn. rewrite !andb_true_iff, !Z.eqb_eq. split.
    - intros ((-> & ->) & ->). reflexivity.
    - intros E. inversion E. auto.
  Qed.
End Assignable.

Ltac shapes_of t H :=
  rewrite ?(sh_numeric _ ltac:(eassumption) t H), ?(sh_mulnum _ ltac:(eassumption) t H),
    ?(sh_ref _ t H), ?(sh_string _ ltac:(eassumption) t H),
    ?(sh_numeric_object _ ltac:(eassumption) t H), ?(sh_class _ ltac:(eassumption) t H),
    ?(sh_interface _ ltac:(eassumption) t H), ?(sh_any_object _ ltac:(eassumption) t H),
    ?(sh_undef _ ltac:(eassumption) t H), ?(sh_void _ ltac:(eassumption) t H),
    ?(sh_numeric_array _ ltac:(eassumption) t H), ?(sh_byte_array _ ltac:(eassumption) t H),
    ?(sh_mulnum_array _ ltac:(eassumption) t H), ?(sh_string_array _ ltac:(eassumption) t H),
    ?(sh_class_array _ ltac:(eassumption) t H), ?(sh_interface_array _ ltac:(eassumption) t H),
    ?(sh_any_object_array _ ltac:(eassumption) t H), ?(sh_muldim_array _ ltac:(eassumption) t H),
    ?(sh_object_array _ ltac:(eassumption) t H), ?(sh_object _ ltac:(eassumption) t H).

Ltac zb :=
  repeat match goal with
  | |- context [?a =? ?b] =>
      first [ replace (a =? b) with true by (symmetry; apply Z.eqb_eq; lia)
            | replace (a =? b) with false by (symmetry; apply Z.eqb_neq; lia) ]
  | |- context [?a <=? ?b] =>
      first [ replace (a <=? b) with true by (symmetry; apply Z.leb_le; lia)
            | replace (a <=? b) with false by (symmetry; apply Z.leb_gt; lia) ]
  | |- context [?a =? ?b] => destruct (Z.eqb_spec a b)
  end.

Section Assignable2.
  Variable p : prog.
  Hypothesis OK : program_ok p.
  Variable w : nat.
  Hypothesis REL : check_relation p w (all_ids p) = Ret tt.

  Lemma same_or_sub_of d s v : 0 <= d < zlen p -> 0 <= s < zlen p -> (w <= v)%nat ->
    exists b, is_super_class p v d s = Ret b /\ ((s =? d) || b = true <-> same_or_sub p s d).
  Proof using OK REL.
    intros Bd Bs L. destruct (is_super_class_spec p OK w REL v d s Bd Bs L) as (b & E & S).
    exists b. split; auto. unfold same_or_sub. rewrite orb_true_iff, Z.eqb_eq, S.
    rewrite !is_category_of by auto. split; [| tauto].
    intros [-> | H]; [now left | right]. destruct (super_class p OK w REL _ _ H) as (? & ? & _). auto.
  Qed.

  Lemma assign_spec v hi im d s :
    (w <= v)%nat -> object_type p d -> object_type p s -> no_interface p d ->
    exists b, assign_noconv p v hi im d s = Ret b /\
      (b = true <-> instance p (t_id s, t_dim s) d /\ (is_mutable d = true -> is_mutable s = true)).
  Proof using OK REL.
    intros L Od Os N. pose proof Od as (TD & _). pose proof Os as (TS & _).
    apply (object_type_shape p OK _ TD) in Od. apply (object_type_shape p OK _ TS) in Os.
    rewrite (sh_object p OK _ TD) in Od. rewrite (sh_object p OK _ TS) in Os.
    pose proof TD as (BD & _). pose proof TS as (BS & _).
    pose proof (cat_ids p OK _ BD) as CD. pose proof (cat_ids p OK _ BS) as CS.
    unfold no_interface in N. rewrite is_category_of in N by auto.
    pose proof (shape_spec p OK _ TD) as MD. pose proof (shape_spec p OK _ TS) as MS.
    destruct (same_or_sub_of (t_id d) (t_id s) v BD BS L) as (b & SU & SB).
    assert (MUT : (t_dim d <> 0 \/ t_id d <> 9) -> is_mutable d = false).
    { intros H. destruct TD as (_ & _ & FL & _). unfold is_mutable, FLAG_MUTABLE, FLAG_REF, ID_STRING in *.
      destruct FL as [-> | [(-> & ? & ?) | (-> & ? & ?)]]; cbn; auto; lia. }
    unfold assign_noconv, satisfy_assignment, instance.
    shapes_of d TD. shapes_of s TS.
    unfold shape_means in MD, MS.
    assert (HB : b = true -> category_of p (t_id d) = CClass /\ category_of p (t_id s) = CClass).
    { intros ->. destruct (is_super_class_spec p OK w REL v _ _ BD BS L) as (b' & E & X).
      rewrite SU in E. inversion E; subst b'.
      destruct (super_class p OK w REL _ _ (proj1 X eq_refl)) as (? & ? & _). auto. }
    pose proof (is_category_of p (t_id s) CClass BS) as IC1.
    pose proof (is_category_of p (t_id s) CInterface BS) as IC2.
    assert (SB' : same_or_sub p (t_id s) (t_id d) <-> t_id s = t_id d \/ b = true)
      by (rewrite <- SB, orb_true_iff, Z.eqb_eq; tauto).
    assert (EQC : t_id s = t_id d -> category_of p (t_id s) = category_of p (t_id d)) by congruence.
    clear TD TS SB BD BS OK REL.
    remember (same_or_sub p (t_id s) (t_id d)) as SOS. clear HeqSOS.
    remember (is_category p (t_id s) CClass) as ISC. clear HeqISC.
    remember (is_category p (t_id s) CInterface) as ISI. clear HeqISI.
    remember (is_super_class p v (t_id d) (t_id s)) as isup. clear Heqisup. subst isup.
    unfold yes, no, yes_if, plain, ty_equals, bt_is_interface, bt_is_class, ID_STRING, ID_ANY_OBJECT.
    remember (category_of p (t_id d)) as cd. clear Heqcd. remember (category_of p (t_id s)) as cs. clear Heqcs.
    destruct d as [di dd df], s as [si sd sf]; cbn [t_id t_dim t_flag] in *.
    destruct (shape p (Ty di dd df)); try discriminate Od; try (exfalso; apply N; tauto);
      cbn [t_id t_dim t_flag] in MD; decompose [and] MD; clear MD Od; subst;
    (destruct (shape p (Ty si sd sf)); try discriminate Os); cbn [t_id t_dim t_flag] in MS;
      decompose [and] MS; clear MS Os; subst; cbn [obind];
      try (rewrite MUT by lia; clear MUT);
      zb; cbn [obind andb orb negb cat_eqb];
      try (eexists; split; [reflexivity |]; rewrite ?SB', ?IC1, ?IC2; clear SB' IC1 IC2;
           destruct b; [ destruct (HB eq_refl); try congruence; subst; try lia | clear HB ];
           cbn [orb andb negb]; intuition (first [discriminate | lia | congruence])).
    all: destruct b; [| destruct (cat_eqb cd CInterface) eqn:Q; [destruct cd; try discriminate Q; congruence |]];
      cbn [obind andb negb]; eexists; (split; [reflexivity |]); rewrite ?SB', ?IC1, ?IC2;
      intuition (first [discriminate | lia | congruence | subst; lia]).
  Qed.
End Assignable2.
