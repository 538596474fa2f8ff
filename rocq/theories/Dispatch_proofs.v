(** * Proofs about dispatch and argument passing *)

From Coq Require Import Permutation.
From Verif Require Import Base Type_model Type_spec Type_proofs TypeIface_proofs Dispatch_model Dispatch_spec.

(** ** strcmp *)
Lemma strcmp_refl a : strcmp a a = 0.
Proof. induction a as [| x a IH]; cbn; auto. rewrite Z.ltb_irrefl. auto. Qed.

Lemma strcmp_eq a : forall b, strcmp a b = 0 <-> a = b.
Proof.
  induction a as [| x a IH]; intros [| y b]; cbn; split; intros H; try discriminate; auto.
  - destruct (Z.ltb_spec x y); [discriminate |]. destruct (Z.ltb_spec y x); [discriminate |].
    f_equal; [lia |]. apply IH; auto.
  - inversion H; subst. rewrite Z.ltb_irrefl. apply IH; auto.
Qed.

Lemma strcmp_opp a : forall b, strcmp b a = - strcmp a b.
Proof.
  induction a as [| x a IH]; intros [| y b]; cbn; auto.
  destruct (Z.ltb_spec x y), (Z.ltb_spec y x); try lia; auto.
Qed.

Lemma strcmp_range a : forall b, -1 <= strcmp a b <= 1.
Proof.
  induction a as [| x a IH]; intros [| y b]; cbn; try lia.
  destruct (Z.ltb_spec x y), (Z.ltb_spec y x); try lia; auto.
Qed.

Lemma strcmp_trans a : forall b c, strcmp a b <= 0 -> strcmp b c <= 0 -> strcmp a c <= 0.
Proof.
  induction a as [| x a IH]; intros [| y b] [| z c]; cbn; try lia.
  destruct (Z.ltb_spec x y), (Z.ltb_spec y x), (Z.ltb_spec y z), (Z.ltb_spec z y),
    (Z.ltb_spec x z), (Z.ltb_spec z x); try lia.
  apply IH.
Qed.

(** ** The binary search *)
Section Lookup.
  Variable l : list meth.
  Hypothesis SORT : forall i j a b, 0 <= i < j -> znth l i = Some a -> znth l j = Some b ->
    strcmp (m_name a) (m_name b) <= 0.
  Variable name : list Z.

  Lemma method_loop_spec : forall g min max, 0 <= min -> min <= max + 1 -> max < zlen l -> max - min + 1 < Z.of_nat g ->
    (forall i m, znth l i = Some m -> m_name m = name -> min <= i <= max) ->
    exists r, method_loop g l name min max = Ret r /\
      (forall m, r = Some m -> In m l /\ m_name m = name) /\
      (r = None -> forall m, In m l -> m_name m <> name).
  Proof using SORT.
    induction g as [| g IH]; intros min max Lo Mid Hi G Inv; [lia |]. cbn [method_loop].
    destruct (Z.ltb_spec max min).
    - exists None. split; auto. split; [discriminate |]. intros _ m I E.
      apply In_znth in I as (i & _ & I). specialize (Inv i m I E). lia.
    - set (half := min + (max - min) ÷ 2).
      assert (B : min <= half <= max).
      { unfold half. rewrite Z.quot_div_nonneg by lia.
        pose proof (Z.div_pos (max - min) 2 ltac:(lia) ltac:(lia)).
        pose proof (Z.div_le_upper_bound (max - min) 2 (max - min) ltac:(lia) ltac:(lia)). lia. }
      destruct (znth_lt l half ltac:(lia)) as (m & E). rewrite E.
      pose proof (strcmp_range name (m_name m)).
      destruct (Z.gtb_spec (strcmp name (m_name m)) 0); [| destruct (Z.ltb_spec (strcmp name (m_name m)) 0)].
      + apply IH; try lia. intros i m' E' N. specialize (Inv i m' E' N).
        destruct (Z.lt_trichotomy i half) as [Q | [Q | Q]].
        * pose proof (SORT i half m' m ltac:(pose proof (znth_Some _ _ _ E'); lia) E' E) as S.
          rewrite N in S. lia.
        * subst i. rewrite E in E'. inversion E'; subst m'. rewrite N, strcmp_refl in *. lia.
        * lia.
      + apply IH; try lia. intros i m' E' N. specialize (Inv i m' E' N).
        destruct (Z.lt_trichotomy i half) as [Q | [Q | Q]].
        * lia.
        * subst i. rewrite E in E'. inversion E'; subst m'. rewrite N, strcmp_refl in *. lia.
        * pose proof (SORT half i m m' ltac:(lia) E E') as S. rewrite N, strcmp_opp in S. lia.
      + exists (Some m). split; auto. split; [| discriminate]. intros m' Q; inversion Q; subst m'.
        split; [eapply znth_In; eauto |]. symmetry. apply strcmp_eq. lia.
  Qed.

  Lemma get_method_by_name_spec g : zlen l < Z.of_nat g ->
    exists r, get_method_by_name g l name = Ret r /\
      (forall m, r = Some m -> In m l /\ m_name m = name) /\
      (r = None -> forall m, In m l -> m_name m <> name).
  Proof using SORT.
    intros G. unfold get_method_by_name. destruct (Z.gtb_spec (zlen l) 0).
    - apply method_loop_spec; try lia. intros i m E _. apply znth_Some in E. lia.
    - exists None. split; auto. split; [discriminate |]. intros _ m I.
      destruct l as [| x l']; [destruct I |]. rewrite zlen_cons in *. pose proof (zlen_nonneg l'). lia.
  Qed.
End Lookup.

(** ** Dispatch *)
Section Dispatch.
  Variable p : prog.
  Hypothesis OK : program_ok p.
  Hypothesis MOK : methods_ok p.
  Variable table : Z -> list meth.
  Hypothesis TAB : sorted_tables p table.

  Lemma table_spec c name :
    get_method_by_name (S (length (table c))) (table c) name = Ret (own_method p c name).
  Proof using MOK TAB.
    destruct (TAB c) as (P & S).
    destruct (get_method_by_name_spec (table c) S name (Datatypes.S (length (table c)))) as (r & -> & R1 & R2).
    { unfold zlen. lia. }
    f_equal. unfold own_method.
    destruct (find (fun m => name_eqb (m_name m) name) (methods_of p c)) as [m |] eqn:F.
    - apply find_some in F as (I & N). apply name_eqb_spec in N. destruct r as [m' |].
      + destruct (R1 m' eq_refl) as (I' & N'). f_equal.
        apply (Permutation_in _ P) in I'. unfold methods_of in *.
        destruct (znth p c) as [b |] eqn:E; [| destruct I].
        apply (nodup_name (bt_methods b)); auto. eapply MOK; eauto. congruence.
      + exfalso. apply (R2 eq_refl m); auto. apply Permutation_in with (methods_of p c); auto.
        apply Permutation_sym; auto.
    - destruct r as [m' |]; auto. exfalso. destruct (R1 m' eq_refl) as (I' & N').
      apply (Permutation_in _ P) in I'. apply (find_none _ _ F) in I'.
      apply name_eqb_false in I'. auto.
  Qed.

  Lemma walk_search v : forall i name,
    instance_method_walk p table v i name =
      let! found := search_method p v i name in
      match found with
      | Some (e, m) => if m_is_class_method m then Ret None else Ret (Some (e, m))
      | None => Ret None
      end.
  Proof using MOK TAB.
    induction v as [| v IH]; intros i name; cbn [instance_method_walk search_method]; auto.
    destruct i as [i |]; auto. rewrite table_spec. cbn [obind].
    destruct (own_method p i name) as [m |]; cbn [obind]; auto.
  Qed.

  Variable w f0 : nat.
  Hypothesis REL : check_relation p w (all_ids p) = Ret tt.

  Lemma walk_spec i name : 0 <= i < zlen p ->
    exists r, instance_method_walk p table (S w) (Some i) name = Ret r /\
      (forall e m, r = Some (e, m) <-> nearest p name i e m /\ m_is_class_method m = false).
  Proof using OK MOK TAB REL.
    intros B. rewrite walk_search.
    destruct (search_spec p OK MOK w REL (S w) i name B ltac:(lia)) as (r & -> & R). cbn [obind].
    destruct r as [[e m] |].
    - destruct (m_is_class_method m) eqn:C.
      + exists None. split; auto. intros e' m'. split; [discriminate |]. intros (N & C').
        apply R in N. inversion N; subst. congruence.
      + eexists. split; [reflexivity |]. intros e' m'. rewrite <- R. split.
        * intros Q. inversion Q; subst. auto.
        * intros (Q & _). auto.
    - eexists. split; [reflexivity |]. intros e' m'. rewrite <- R. split; [discriminate | intros (Q & _); auto].
  Qed.

  (** A method of a super class is found from every sub class. *)
  Lemma nearest_sub name c d e m : sub_class p c d -> nearest p name d e m ->
    exists e' m', nearest p name c e' m'.
  Proof using OK.
    intros [-> | S] N; [eauto |]. induction S as [c d X | c d d' X S IH].
    - pose proof X as (b & b' & E & E' & PN).
      destruct (own_method p c name) as [m' |] eqn:F.
      + destruct (own_method_Some _ _ _ _ F) as (b0 & E0 & I & N0). exists c, m'. econstructor; eauto.
      + exists e, m. econstructor 2; eauto. eapply own_method_None; eauto.
    - destruct (IH N) as (e1 & m1 & N1). pose proof X as (b & b' & E & E' & PN).
      destruct (own_method p c name) as [m' |] eqn:F.
      + destruct (own_method_Some _ _ _ _ F) as (b0 & E0 & I & N0). exists c, m'. econstructor; eauto.
      + exists e1, m1. econstructor 2; eauto. eapply own_method_None; eauto.
  Qed.

  Lemma sub_super_trans c d e : sub_class p c d -> sub_class p d e -> sub_class p c e.
  Proof using.
    clear. intros [-> | A] [-> | B]; auto; try (now left); right; auto. eapply super_trans; eauto.
  Qed.

  Hypothesis OVR : check_override p (S w) f0 (all_ids p) = Ret tt.

  (** The method found from a sub class is the same or was checked against it. *)
  Definition compatible (m m' : meth) : Prop :=
    m = m' \/ exists hi, satisfy_method p (S w) hi m m' = Ret true.

  Lemma compatible_instance m m' : compatible m m' -> m_is_class_method m = false ->
    m_is_class_method m' = false.
  Proof using.
    clear. intros [-> | (hi & H)] C; auto. unfold satisfy_method in H.
    destruct (m_is_class_method m'); auto. discriminate.
  Qed.

  Lemma match_found hi c l m : methods_match p (S w) hi c l = Ret true -> In m l ->
    m_is_class_method m = false ->
    exists r, search_method p (S w) (Some c) (m_name m) = Ret r /\
      match r with
      | Some (_, m') => satisfy_method p (S w) hi m m' = Ret true
      | None => m_is_required m = false
      end.
  Proof using.
    clear. induction l as [| x l IH]; intros M I C; [destruct I |]. cbn [methods_match] in M.
    destruct I as [-> | I].
    - rewrite C in M. destruct (search_method p (S w) (Some c) (m_name m)) as [r | | |]; try discriminate.
      cbn [obind] in M. exists r. split; auto. destruct r as [[e m'] |].
      + destruct (satisfy_method p (S w) hi m m') as [[] | | |]; try discriminate. auto.
      + destruct (m_is_required m); auto. discriminate.
    - apply IH; auto. destruct (m_is_class_method x); auto.
      destruct (search_method p (S w) (Some c) (m_name x)) as [r | | |]; try discriminate.
      cbn [obind] in M. destruct r as [[e m'] |].
      + destruct (satisfy_method p (S w) hi x m') as [[] | | |]; try discriminate. auto.
      + destruct (m_is_required x); auto. discriminate.
  Qed.

  Lemma dispatch_compatible name c d e m e' m' : 0 <= c < zlen p ->
    sub_class p c d -> nearest p name d e m -> nearest p name c e' m' ->
    m_is_class_method m = false -> compatible m m'.
  Proof using OK MOK REL OVR.
    intros B S N N' C.
    assert (S' : sub_class p c e).
    { apply sub_super_trans with d; auto. eapply nearest_super; eauto. }
    destruct (nearest_in _ _ _ _ _ N) as (b & E & I). pose proof (nearest_name _ _ _ _ _ N) as Nm.
    destruct S' as [-> | S'].
    - left. assert (H : nearest p name e e m) by (econstructor; eauto).
      destruct (nearest_fun p OK MOK _ _ _ _ H _ _ N') as (_ & ->). auto.
    - right. exists (has_interface p (Datatypes.S w) f0).
      pose proof (override_ok p OK w REL f0 OVR _ _ S') as H. unfold has_interface_common in H.
      destruct (negb (bt_is_class p c || bt_is_interface p c)); [discriminate |].
      destruct (negb (bt_is_class p e || bt_is_interface p e)); [discriminate |].
      unfold methods_of in H. rewrite E in H.
      destruct (match_found _ _ _ _ H I C) as (r & F & R). rewrite Nm in F.
      destruct (search_spec p OK MOK w REL (Datatypes.S w) c name B ltac:(lia)) as (r' & F' & R').
      rewrite F in F'. inversion F'; subst r'. apply R' in N'. subst r. auto.
  Qed.
End Dispatch.
