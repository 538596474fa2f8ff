(** * Proofs about access control *)

From Verif Require Import Base Type_model Type_spec Type_proofs Access_model Access_spec.

Lemma lookup_In {A} (l : list (list Z * A)) n a : lookup l n = Some a -> In (n, a) l.
Proof.
  induction l as [| [n' a'] l IH]; cbn [lookup]; [discriminate |].
  destruct (name_eqb n' n) eqn:Q; intros E; [| right; auto].
  apply name_eqb_spec in Q. inversion E; subst. now left.
Qed.

Lemma lookup_None {A} (l : list (list Z * A)) n : lookup l n = None -> forall a, ~ In (n, a) l.
Proof.
  induction l as [| [n' a'] l IH]; cbn [lookup]; intros E a; [intros [] |].
  destruct (name_eqb n' n) eqn:Q; [discriminate |]. intros [H | H]; [| eapply IH; eauto].
  inversion H; subst. apply name_eqb_false in Q. auto.
Qed.

Lemma lookup_NoDup {A} (l : list (list Z * A)) n a :
  NoDup (map fst l) -> In (n, a) l -> lookup l n = Some a.
Proof.
  induction l as [| [n' a'] l IH]; cbn [lookup map fst]; intros D H; [destruct H |].
  inversion D as [| x y N D']; subst.
  destruct H as [H | H].
  - inversion H; subst. destruct (name_eqb n n) eqn:Q; auto. apply name_eqb_false in Q. congruence.
  - destruct (name_eqb n' n) eqn:Q; [| auto].
    apply name_eqb_spec in Q. subst. exfalso. apply N. change n with (fst (n, a)). now apply in_map.
Qed.

Lemma lookup_app {A} (l r : list (list Z * A)) n :
  lookup (l ++ r) n = match lookup l n with Some a => Some a | None => lookup r n end.
Proof.
  induction l as [| [n' a'] l IH]; cbn [lookup app]; auto. destruct (name_eqb n' n); auto.
Qed.

Section Prog.
  Variable p : prog.
  Variable ai : Z -> ainfo.
  Hypothesis OK : program_ok p.
  Hypothesis AOK : access_ok p ai.
  Variable w : nat.
  Hypothesis REL : check_relation p w (all_ids p) = Ret tt.

  Lemma name_eq i j : 0 <= i < zlen p -> 0 <= j < zlen p ->
    name_eqb (name_of p i) (name_of p j) = true <-> i = j.
  Proof using OK.
    intros Bi Bj. destruct (znth_lt p i Bi) as (bi & Ei). destruct (znth_lt p j Bj) as (bj & Ej).
    unfold name_of. rewrite Ei, Ej. split.
    - intros Q. apply name_eqb_spec in Q. pose proof (find_name p OK i bi Ei) as F.
      rewrite Q, (find_name p OK j bj Ej) in F. congruence.
    - intros ->. rewrite Ei in Ej. inversion Ej; subst. apply name_eqb_spec. reflexivity.
  Qed.

  Lemma acting_bound c : 0 <= c < zlen p -> 0 <= acting ai c < zlen p.
  Proof using AOK.
    intros B. unfold acting. destruct (ai_anon (ai c)) eqn:A; auto. apply (ao_outmost _ _ AOK c B A).
  Qed.

  Lemma allowed_spec c owner : 0 <= c < zlen p ->
    existsb (name_eqb (name_of p c)) (ai_allows (ai owner)) = true <-> allows p ai owner c.
  Proof using.
    intros B. destruct (znth_lt p c B) as (b & E). unfold allows, name_of. rewrite E.
    rewrite existsb_exists. split.
    - intros (x & I & Q). apply name_eqb_spec in Q. subst x. eauto.
    - intros (b' & E' & I). inversion E'; subst. exists (bt_name b'). split; auto. apply name_eqb_spec. auto.
  Qed.

  (** The test, in terms of the class that acts. *)
  Lemma can_access_spec v c owner flag ipf :
    0 <= c < zlen p -> 0 <= owner < zlen p -> (w <= v)%nat ->
    exists b, can_access p ai v c owner flag ipf = Ret b /\
      (b = true <->
       match flag with
       | Private => ipf = false /\ acting ai c = owner
       | Protected => acting ai c = owner \/ super p (acting ai c) owner
       | Public => True
       end).
  Proof using OK AOK REL.
    intros Bc Bo L. pose proof (acting_bound c Bc) as Ba. unfold can_access. fold (acting ai c).
    destruct flag.
    - destruct ipf.
      { exists false. split; auto. split; [discriminate | intros (? & _); discriminate]. }
      destruct (name_eqb (name_of p (acting ai c)) (name_of p owner)) eqn:Q.
      + exists true. split; auto. split; auto. intros _. split; auto. now apply name_eq.
      + exists false. split; auto. split; [discriminate |]. intros (_ & E).
        apply name_eq in E; auto. congruence.
    - destruct (name_eqb (name_of p (acting ai c)) (name_of p owner)) eqn:Q.
      + exists true. split; auto. split; auto. intros _. left. now apply name_eq.
      + destruct (is_super_class_spec p OK w REL v owner (acting ai c) Bo Ba L) as (b & E & S).
        exists b. split; auto. rewrite S. split; auto. intros [H | H]; auto.
        apply name_eq in H; auto. congruence.
    - exists true. split; auto. split; auto.
  Qed.

  Lemma is_allowed_spec c owner ipf : 0 <= c < zlen p -> 0 <= owner < zlen p ->
    is_allowed p ai c owner ipf = true <-> (ipf = false /\ c = owner) \/ allows p ai owner c.
  Proof using OK.
    intros Bc Bo. unfold is_allowed. pose proof (name_eq c owner Bc Bo) as N.
    pose proof (allowed_spec c owner Bc) as A.
    destruct ipf; cbn [negb andb].
    - rewrite A. split; [now right |]. intros [(? & _) |]; [discriminate | auto].
    - destruct (name_eqb (name_of p c) (name_of p owner)) eqn:Q.
      + split; auto. intros _. left. split; auto. now apply N.
      + rewrite A. split; [now right |]. intros [(_ & E) | H]; auto. apply N in E. discriminate.
  Qed.

  Lemma accepts_spec v c owner flag ipf :
    0 <= c < zlen p -> 0 <= owner < zlen p -> (w <= v)%nat ->
    exists b, accepts p ai v c owner flag ipf = Ret b /\
      (b = true <->
       match flag with
       | Private => ipf = false /\ acting ai c = owner
       | Protected => acting ai c = owner \/ super p (acting ai c) owner
       | Public => True
       end \/ (ipf = false /\ c = owner) \/ allows p ai owner c).
  Proof using OK AOK REL.
    intros Bc Bo L. destruct (can_access_spec v c owner flag ipf Bc Bo L) as (b & E & S).
    pose proof (is_allowed_spec c owner ipf Bc Bo) as A.
    unfold accepts. rewrite E. cbn [obind]. destruct b.
    - exists true. split; auto. split; auto. intros _. left. now apply S.
    - exists (is_allowed p ai c owner ipf). split; auto. rewrite A. split; [now right |].
      intros [H | H]; auto. apply S in H. discriminate.
  Qed.

  (** Members that are looked up in the class that declares them. *)
  Lemma accepts_member v c owner flag :
    0 <= c < zlen p -> 0 <= owner < zlen p -> (w <= v)%nat -> ai_anon (ai c) = false ->
    exists b, accepts p ai v c owner flag false = Ret b /\ (b = true <-> permitted p ai c owner flag).
  Proof using OK AOK REL.
    intros Bc Bo L A. destruct (accepts_spec v c owner flag false Bc Bo L) as (b & E & S).
    exists b. split; auto. rewrite S. unfold acting, permitted. rewrite A.
    destruct flag; intuition congruence.
  Qed.

  Lemma accepts_member_anon v c owner flag :
    0 <= c < zlen p -> 0 <= owner < zlen p -> (w <= v)%nat -> ai_anon (ai c) = true ->
    exists b, accepts p ai v c owner flag false = Ret b /\
      (b = true <-> c = owner \/ allows p ai owner c \/
                    acting ai c = owner \/
                    match flag with Private => False | Protected => super p (acting ai c) owner | Public => True end).
  Proof using OK AOK REL.
    intros Bc Bo L A. destruct (accepts_spec v c owner flag false Bc Bo L) as (b & E & S).
    exists b. split; auto. rewrite S. destruct flag; intuition congruence.
  Qed.

  (** ** The fields of a class *)

  Lemma super_inv i d : super p i d <-> exists j, parent_of p i = Some j /\ (j = d \/ super p j d).
  Proof using OK.
    split.
    - intros S. inversion S as [x y E | x y z E S']; subst; apply (parent_extends p OK) in E; eauto.
    - intros (j & E & H). apply (parent_extends p OK) in E.
      destruct H as [-> | H]; [now apply super_direct | eapply super_step; eauto].
  Qed.

  Lemma no_parent i d : parent_of p i = None -> ~ super p i d.
  Proof using OK. intros E S. apply super_inv in S. destruct S as (j & E' & _). congruence. Qed.

  Lemma search_unmerged_spec n nm : forall v i v', recursion_walk p v nm (parent_of p i) = Ret tt -> (v <= v')%nat ->
    exists r, search_unmerged p ai v' (parent_of p i) n = Ret r /\
      match r with
      | Some a => exists d, super p i d /\ In (n, a) (ai_fields (ai d))
      | None => forall d a, super p i d -> ~ In (n, a) (ai_fields (ai d))
      end.
  Proof using OK.
    induction v as [| v IH]; intros i v' R L; [discriminate |].
    destruct v' as [| v']; [lia |]. cbn [recursion_walk] in R. cbn [search_unmerged].
    destruct (parent_of p i) as [j |] eqn:P.
    - destruct (name_eqb (name_of p j) nm); [discriminate |].
      destruct (lookup (ai_fields (ai j)) n) as [a |] eqn:Q.
      + exists (Some a). split; auto. exists j. split; [apply super_inv; eauto | now apply lookup_In].
      + destruct (IH j v' R ltac:(lia)) as (r & E & S). exists r. split; auto.
        destruct r as [a |].
        * destruct S as (d & S & I). exists d. split; auto. apply super_inv. eauto.
        * intros d a S'. apply super_inv in S'. destruct S' as (j' & P' & H). rewrite P in P'. inversion P'; subst j'.
          destruct H as [<- | H]; [eapply lookup_None; eauto | eauto].
    - exists None. split; auto. intros d a S. destruct (no_parent i d P S).
  Qed.

  Lemma merge_own_spec v v' nm i : recursion_walk p v nm (parent_of p i) = Ret tt -> (v <= v')%nat ->
    forall own, exists r, merge_own p ai v' (parent_of p i) own = Ret r /\ incl r own /\
      forall n a, In (n, a) r -> forall d a', super p i d -> ~ In (n, a') (ai_fields (ai d)).
  Proof using OK.
    intros R L. induction own as [| [n a] own (r & E & I & S)]; cbn [merge_own].
    - exists []. split; auto. split; [apply incl_refl | intros ? ? []].
    - destruct (search_unmerged_spec n nm v i v' R L) as (f & Ef & Sf). rewrite Ef. cbn [obind].
      destruct f as [a' |].
      + exists []. split; auto. split; [intros ? [] | intros ? ? []].
      + rewrite E. cbn [obind]. eexists. split; [reflexivity |]. split.
        * intros x [<- | H]; [now left | right; auto].
        * intros m b [H | H]; eauto. inversion H; subst. auto.
  Qed.

  Lemma merged_spec nm : forall v i v', recursion_walk p v nm (parent_of p i) = Ret tt -> (v <= v')%nat ->
    exists fs, merged p ai v' i = Ret fs /\
      forall n a, In (n, a) fs -> exists d, field_from p ai i n d a.
  Proof using OK.
    induction v as [| v IH]; intros i v' R L; [discriminate |].
    destruct v' as [| v']; [lia |]. cbn [merged].
    destruct (merge_own_spec (S v) (S v') nm i R L (ai_fields (ai i))) as (own & Eo & Io & So).
    assert (OWN : forall n a, In (n, a) own -> exists d, field_from p ai i n d a).
    { intros n a H. exists i. split; [now left |]. split; [now apply Io |]. intros e f S' D. exact (So n a H e f S' D). }
    destruct (parent_of p i) as [j |] eqn:P.
    - cbn [recursion_walk] in R. destruct (name_eqb (name_of p j) nm); [discriminate |].
      destruct (IH j v' R ltac:(lia)) as (fs & E & S). rewrite E. cbn [obind]. rewrite Eo. cbn [obind].
      eexists. split; [reflexivity |]. intros n a H. apply in_app_or in H. destruct H as [H | H]; auto.
      destruct (S n a H) as (d & U & D & T). exists d. split; auto. right. apply super_inv. exists j. split; auto.
    - cbn [obind]. rewrite Eo. cbn [obind]. eexists. split; [reflexivity |]. auto.
  Qed.

  (** More fuel gives the same table. *)
  Lemma search_unmerged_mono n : forall v v' o r, search_unmerged p ai v o n = Ret r -> (v <= v')%nat ->
    search_unmerged p ai v' o n = Ret r.
  Proof using.
    induction v as [| v IH]; intros v' o r E L; [discriminate |].
    destruct v' as [| v']; [lia |]. cbn [search_unmerged] in *.
    destruct o as [i |]; auto. destruct (lookup (ai_fields (ai i)) n); auto. apply IH; auto. lia.
  Qed.

  Lemma merge_own_mono v v' o : (v <= v')%nat -> forall own r,
    merge_own p ai v o own = Ret r -> merge_own p ai v' o own = Ret r.
  Proof using.
    intros L. induction own as [| [n a] own IH]; cbn [merge_own]; intros r E; auto.
    destruct (search_unmerged p ai v o n) as [f | | |] eqn:Q; try discriminate.
    rewrite (search_unmerged_mono n v v' o f Q L). cbn [obind] in *. destruct f; auto.
    destruct (merge_own p ai v o own) as [x | | |] eqn:Q'; try discriminate.
    rewrite (IH x eq_refl). exact E.
  Qed.

  Lemma merged_mono : forall v v' i r, merged p ai v i = Ret r -> (v <= v')%nat -> merged p ai v' i = Ret r.
  Proof using.
    induction v as [| v IH]; intros v' i r E L; [discriminate |].
    destruct v' as [| v']; [lia |]. cbn [merged] in *.
    destruct (match parent_of p i with Some j => merged p ai v j | None => Ret [] end) as [x | | |] eqn:Q; try discriminate.
    assert (Q' : match parent_of p i with Some j => merged p ai v' j | None => Ret [] end = Ret x).
    { destruct (parent_of p i); auto. apply IH; auto. lia. }
    rewrite Q'. cbn [obind] in *.
    destruct (merge_own p ai (S v) (parent_of p i) (ai_fields (ai i))) as [o | | |] eqn:Q2; try discriminate.
    rewrite (merge_own_mono (S v) (S v') _ L _ _ Q2). exact E.
  Qed.

  (** What the class does not have, its super classes do not have. *)
  Lemma merged_super v i fs n : merged p ai v i = Ret fs -> lookup fs n = None ->
    forall j v' fs', parent_of p i = Some j -> merged p ai v' j = Ret fs' -> lookup fs' n = None.
  Proof using.
    intros E N j v' fs' P E'. destruct v as [| v]; [discriminate |]. cbn [merged] in E. rewrite P in E.
    destruct (merged p ai v j) as [x | | |] eqn:Q; try discriminate. cbn [obind] in E.
    destruct (merge_own p ai (S v) (Some j) (ai_fields (ai i))) as [o | | |]; try discriminate.
    cbn [obind] in E. inversion E; subst. rewrite lookup_app in N.
    destruct (lookup x n) eqn:Q'; [discriminate |].
    pose proof (merged_mono _ (max v v') _ _ Q ltac:(lia)). pose proof (merged_mono _ (max v v') _ _ E' ltac:(lia)).
    assert (x = fs') by congruence. subst. auto.
  Qed.

  (** The field is always found in the table of the class itself. *)
  Lemma search_field_None n nm : forall v i v', recursion_walk p v nm (parent_of p i) = Ret tt -> (v <= v')%nat ->
    (forall j fs x, parent_of p i = Some j -> merged p ai x j = Ret fs -> lookup fs n = None) ->
    search_field p ai v' (parent_of p i) n = Ret None.
  Proof using OK.
    induction v as [| v IH]; intros i v' R L H; [discriminate |].
    destruct v' as [| v']; [lia |]. cbn [recursion_walk] in R. cbn [search_field].
    destruct (parent_of p i) as [j |] eqn:P; auto.
    destruct (name_eqb (name_of p j) nm); [discriminate |].
    destruct (merged_spec nm v j (S v') R ltac:(lia)) as (fs & E & _).
    rewrite E. cbn [obind]. rewrite (H j fs (S v') eq_refl E). apply IH; auto; [lia |].
    intros k fs' x P' E'. exact (merged_super (S v') j fs n E (H j fs (S v') eq_refl E) k x fs' P' E').
  Qed.

  Lemma search_field_spec n i v : 0 <= i < zlen p -> (w <= v)%nat ->
    exists r, search_field p ai (S v) (Some i) n = Ret r /\
      match r with
      | Some (o, a) => o = i /\ exists d, field_from p ai i n d a
      | None => True
      end.
  Proof using OK REL.
    intros B L. pose proof (rel_walk p w REL i B) as R. cbn [search_field].
    destruct (merged_spec _ w i (S v) R ltac:(lia)) as (fs & E & S). rewrite E. cbn [obind].
    destruct (lookup fs n) as [a |] eqn:Q.
    - exists (Some (i, a)). split; auto. split; auto. apply S. now apply lookup_In.
    - exists None. split; auto. eapply search_field_None; eauto.
      intros j fs' x P E'. exact (merged_super (Datatypes.S v) i fs n E Q j x fs' P E').
  Qed.

  (** The super classes of a class are linearly ordered. *)
  Lemma super_linear c d : super p c d -> forall e, super p c e -> d = e \/ super p d e \/ super p e d.
  Proof using OK.
    induction 1 as [c d X | c d e X S IH]; intros f S'.
    - apply super_inv in S'. destruct S' as (j & P & H). apply (parent_extends p OK) in X.
      rewrite P in X. inversion X; subst. tauto.
    - apply super_inv in S'. destruct S' as (j & P & H). apply (parent_extends p OK) in X.
      rewrite P in X. inversion X; subst. destruct H as [<- | H]; auto.
  Qed.

  Lemma up_linear c d e : up p c d -> up p c e -> d = e \/ super p d e \/ super p e d.
  Proof using OK.
    intros [<- | S] [<- | S']; auto. eapply super_linear; eauto.
  Qed.

  Lemma field_from_fun c n d a d' a' : field_from p ai c n d a -> field_from p ai c n d' a' -> d = d' /\ a = a'.
  Proof using OK AOK.
    intros (U & D & T) (U' & D' & T').
    destruct (up_linear c d d' U U') as [<- | [S | S]].
    - split; auto. pose proof (ao_fields _ _ AOK d) as N.
      pose proof (lookup_NoDup _ _ _ N D). pose proof (lookup_NoDup _ _ _ N D'). congruence.
    - destruct (T d' a' S D').
    - destruct (T' d a S D).
  Qed.

  Lemma not_redeclared_from c n d a : up p c d -> In (n, a) (ai_fields (ai d)) ->
    not_redeclared p ai c n d -> field_from p ai c n d a.
  Proof using OK AOK REL.
    intros U D N. split; auto. split; auto. intros e f S D'.
    assert (up p c e) by (destruct U as [<- | U]; right; auto; eapply super_trans; eauto).
    pose proof (N e f H D') as X. subst e. exact (super_irrefl p OK w REL d S).
  Qed.

  (** The verdict on a field access, in terms of the declaration. *)
  Lemma check_field_spec v c cls n d a :
    0 <= c < zlen p -> 0 <= cls < zlen p -> (w <= v)%nat -> field_from p ai cls n d a ->
    exists r, check_field p ai (S v) c cls n = Ret r /\
      (r = NotFound \/
       (r = Accepted <->
        (let ipf := negb (match lookup (ai_fields (ai c)) n with Some _ => true | None => false end)
                    && negb (ai_anon (ai c)) in
         match a with
         | Private => ipf = false /\ acting ai c = cls
         | Protected => acting ai c = cls \/ super p (acting ai c) cls
         | Public => True
         end \/ (ipf = false /\ c = cls) \/ allows p ai cls c))).
  Proof using OK AOK REL.
    intros Bc Bs L F. unfold check_field.
    destruct (search_field_spec n cls v Bs L) as (r & E & S). rewrite E. cbn [obind].
    destruct r as [[o a'] |]; [| exists NotFound; auto].
    destruct S as (-> & d' & F'). destruct (field_from_fun _ _ _ _ _ _ F F') as (<- & <-).
    match goal with |- context [accepts _ _ _ _ _ _ ?i] => set (ipf := i) end.
    destruct (accepts_spec (Datatypes.S v) c cls a ipf Bc Bs ltac:(lia)) as (b & E' & S').
    rewrite E'. cbn [obind]. exists (verdict_of b). split; auto. right.
    cbv zeta. fold ipf. rewrite <- S'. destruct b; cbn; split; congruence.
  Qed.
End Prog.
