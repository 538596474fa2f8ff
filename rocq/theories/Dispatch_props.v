(** * C47 and C54: method dispatch and argument passing *)

From Coq Require Import String Permutation.
From Coq Require Import List.
Import ListNotations.
From Verif Require Import Base CLib Type_model Type_spec Type_proofs TypeIface_proofs Type_props
  Dispatch_model Dispatch_spec Dispatch_proofs DispatchArgs_proofs.

(** ** C47 *)

(** The binary search in the sorted method table always ends, stays inside the
    table, and finds the method of that name exactly when there is one. *)
Theorem C47_lookup p table c name : methods_ok p -> sorted_tables p table ->
  exists r, get_method_by_name (S (length (table c))) (table c) name = Ret r /\
    forall m, r = Some m <-> In m (methods_of p c) /\ m_name m = name.
Proof.
  intros MOK TAB. rewrite (table_spec p MOK table TAB). eexists. split; [reflexivity |]. intros m. split.
  - intros E. destruct (own_method_Some p c name m E) as (b & Eb & I & N).
    unfold methods_of. rewrite Eb. auto.
  - intros (I & N). unfold methods_of in I. destruct (znth p c) as [b |] eqn:E; [| destruct I].
    destruct (own_method p c name) as [m' |] eqn:F.
    + destruct (own_method_Some p c name m' F) as (b' & E' & I' & N'). f_equal.
      rewrite E in E'. inversion E'; subst b'. apply (nodup_name (bt_methods b)); auto.
      * eapply MOK; eauto.
      * congruence.
    + exfalso. eapply own_method_None; eauto.
Qed.

(** Calling [name] on an object of class [c]: the method entered is the one
    of the nearest class that declares it; without one (or if that is a class
    method) the call throws; so does an undefined invocant. *)
Theorem C47_dispatch p w f f' fl table dv depth name st aw :
  program_ok p -> methods_ok p -> compiles p w f -> sorted_tables p table ->
  let result := call_instance_method p (S w) f' fl table dv depth name st aw in
  (forall a c, st 0 = SObj (Some (a, (c, 0))) -> 0 <= c < zlen p ->
     (forall e m, nearest p name c e m -> m_is_class_method m = false ->
        result = call_method p (S w) f' fl dv depth (e, m) st aw /\
        (forall e' m' st', result = Ret (e', m', st') -> e' = e /\ m' = m)) /\
     ((forall e m, nearest p name c e m -> m_is_class_method m = true) -> result = Die MSG_NOT_FOUND)) /\
  (st 0 = SObj None -> result = Die MSG_UNDEF).
Proof.
  intros OK MOK (REL & _) TAB result. unfold result, call_instance_method. split.
  - intros a c E B. rewrite E. cbn [get_instance_method].
    destruct (walk_spec p OK MOK table TAB w REL c name B) as (r & -> & R). cbn [obind]. split.
    + intros e m N C. rewrite (proj2 (R e m) (conj N C)). split; auto.
      intros e' m' st' H. unfold call_method in H. destruct (depth + 1 >? 1000); [discriminate |].
      destruct (if m_is_class_method m then Ret tt else _) as [[] | | |]; cbn [obind] in H; try discriminate.
      inversion H; auto.
    + intros H. destruct r as [[e m] |]; auto. exfalso.
      destruct (proj1 (R e m) eq_refl) as (N & C). rewrite (H e m N) in C. discriminate.
  - intros ->. reflexivity.
Qed.

(** The invocant of static type [t] is an object of class [c]. *)
Definition invocant_fits (p : prog) (w f : nat) (t : ty) (c : Z) : Prop :=
  0 <= c < zlen p /\ t_dim t = 0 /\ t_flag t = 0 /\ type_ok p t /\
  ((is_category p (t_id t) CClass /\ sub_class p c (t_id t)) \/
   (is_category p (t_id t) CInterface /\ is_category p c CClass /\ isa p w f (c, 0) (t_id t) 0 = Ret true)).

Lemma resolved_nearest p w f t name r :
  program_ok p -> methods_ok p -> compiles p w f -> type_ok p t ->
  resolve_instance_call p (S w) t name = Ret r -> r_static r = false ->
  nearest p name (t_id t) (r_class r) (r_method r) /\ m_is_class_method (r_method r) = false.
Proof.
  intros OK MOK (REL & _) TO R S. unfold resolve_instance_call in R.
  destruct (negb _); [discriminate |].
  destruct (strrchr name COLON 0 None).
  { exfalso. destruct (name_eqb (ztake 7 name) SUPER_PREFIX).
    - destruct (match parent_of p (t_id t) with Some q => _ | None => _ end) as [[[c m] |] | | |];
        cbn [obind] in R; try discriminate.
      destruct (m_is_class_method m); [discriminate |]. inversion R; subst. discriminate.
    - destruct (find_basic_type p (ztake (z - 1) name)) as [c |]; [| discriminate]. cbn [obind] in R.
      destruct (own_method p c (zdrop (z + 1) name)) as [m |]; [| discriminate].
      destruct (m_is_class_method m); [discriminate |]. inversion R; subst. discriminate. }
  destruct (search_spec p OK MOK w REL (Datatypes.S w) (t_id t) name (proj1 TO) ltac:(lia)) as (q & E & Q).
  rewrite E in R. cbn [obind] in R. destruct q as [[c m] |]; [| discriminate].
  destruct (m_is_class_method m) eqn:C; [discriminate |]. inversion R; subst. cbn. split; auto. apply Q; auto.
Qed.

Lemma found_compatible p w f f' t name r c :
  program_ok p -> methods_ok p -> compiles p w f ->
  resolve_instance_call p (S w) t name = Ret r -> r_static r = false ->
  invocant_fits p (S w) f' t c ->
  (exists e m, nearest p name c e m /\ m_is_class_method m = false /\ compatible p w (r_method r) m) \/
  (is_category p (t_id t) CInterface /\ m_is_required (r_method r) = false /\
   forall e m, ~ nearest p name c e m).
Proof.
  intros OK MOK C R S (B & TD & TF & TO & I).
  destruct (resolved_nearest p w f t name r OK MOK C TO R S) as (N & CM).
  destruct C as (REL & OVR). destruct I as [(K & SB) | (K & Kc & I)].
  - left. destruct (nearest_sub p OK name c (t_id t) _ _ SB N) as (e & m & N').
    pose proof (dispatch_compatible p OK MOK w f REL OVR name c (t_id t) _ _ e m B SB N N' CM) as Q.
    exists e, m. split; auto. split; auto. eapply compatible_instance; eauto.
  - assert (IN : In (r_method r) (methods_of p (t_id t))).
    { inversion N as [c' b m E I0 N0 | c' d e m b E NI X N0]; subst.
      - unfold methods_of. rewrite E. auto.
      - exfalso. destruct (extends_class p OK w REL _ _ X) as (K' & _).
        apply is_category_of in K; [| apply TO]. congruence. }
    pose proof (nearest_name _ _ _ _ _ N) as Nm.
    unfold isa, can_assign_types in I. cbn [fst snd] in I.
    assert (KT : is_category p (t_id (Ty (t_id t) 0 0)) CInterface) by exact K.
    assert (KI : forall i, 0 <= i < zlen p -> is_category p i CClass \/ is_category p i CInterface ->
      object_type p (Ty i 0 0)).
    { intros i Bi Ci. unfold object_type, type_ok, FLAG_REF. cbn [t_id t_dim t_flag].
      split; [repeat split; auto; lia |]. split; [lia | tauto]. }
    apply (assign_interface p OK _ _ (Ty (t_id t) 0 0) (Ty c 0 0)) in I; auto.
    2: apply KI; auto; apply TO.
    cbn [t_id t_dim] in I. destruct I as (_ & [I | (_ & I)]).
    { exfalso. subst c. apply is_category_of in K; [| auto]. apply is_category_of in Kc; auto. congruence. }
    destruct f' as [| f']; [discriminate |]. cbn [has_interface] in I.
    destruct (has_interface_elim p _ _ _ _ I) as (_ & _ & M).
    destruct (match_found p w _ _ _ _ M IN CM) as (q & F & Q).
    rewrite Nm in F.
    destruct (search_spec p OK MOK w REL (Datatypes.S w) c name B ltac:(lia)) as (q' & F' & Q').
    rewrite F in F'. inversion F'; subst q'. destruct q as [[e m] |].
    + left. exists e, m. split; [apply Q'; auto |].
      assert (CP : compatible p w (r_method r) m) by (right; eauto).
      split; auto. eapply compatible_instance; eauto.
    + right. split; auto. split; auto. intros e m H. apply Q' in H. discriminate.
Qed.

(** A call that compiled, on an object its static type admits, is never
    answered with "the implementation was not found" -- except through an
    interface whose method is not marked required and which the object's class
    does not implement. *)
Theorem C47_accepted_call_is_found p w f f' t name r c :
  program_ok p -> methods_ok p -> compiles p w f ->
  resolve_instance_call p (S w) t name = Ret r -> r_static r = false ->
  invocant_fits p (S w) f' t c ->
  is_category p (t_id t) CClass \/ m_is_required (r_method r) = true ->
  exists e m, nearest p name c e m /\ m_is_class_method m = false.
Proof.
  intros OK MOK C R S I H.
  destruct (found_compatible p w f f' t name r c OK MOK C R S I) as [(e & m & N & CM & _) | (K & Q & _)]; eauto.
  exfalso. destruct H as [H | H]; [| congruence].
  destruct I as (_ & _ & _ & TO & _). apply is_category_of in K; [| apply TO].
  apply is_category_of in H; [| apply TO]. congruence.
Qed.

(** $x->SUPER::name(...): no dispatch; the method of the nearest class above
    the static class of the invocant is called. *)
Theorem C47_super_call p w f f' fl table dv depth t name r st aw :
  program_ok p -> methods_ok p -> compiles p w f -> type_ok p t -> ~ In COLON name ->
  resolve_instance_call p (S w) t (bytes "SUPER::" ++ name) = Ret r ->
  (exists d, extends p (t_id t) d /\ nearest p name d (r_class r) (r_method r)) /\
  m_is_class_method (r_method r) = false /\
  run_call p (S w) f' fl table dv depth r st aw =
    call_method p (S w) f' fl dv depth (r_class r, r_method r) st aw.
Proof.
  intros OK MOK (REL & _) TO NC R.
  assert (LC : strrchr (bytes "SUPER::" ++ name) COLON 0 None = Some 6).
  { cbn. clear - NC. assert (G : forall i o, ~ In COLON name -> strrchr name COLON i o = o).
    { clear. induction name as [| x l IH]; intros i o H; cbn [strrchr]; auto.
      rewrite IH by (intros Q; apply H; now right).
      destruct (Z.eqb_spec x COLON); auto. subst. exfalso. apply H. now left. }
    apply G. auto. }
  unfold resolve_instance_call in R. destruct (negb _); [discriminate |]. rewrite LC in R.
  change (name_eqb (ztake 7 (bytes "SUPER::" ++ name)) SUPER_PREFIX) with true in R. cbn match in R.
  change (zdrop (6 + 1) (bytes "SUPER::" ++ name)) with name in R.
  destruct (parent_of p (t_id t)) as [d |] eqn:P; [| discriminate].
  apply parent_extends in P; auto. destruct (extends_class p OK w REL _ _ P) as (_ & _ & _ & Bd).
  destruct (search_spec p OK MOK w REL (S w) d name Bd ltac:(lia)) as (q & E & Q).
  rewrite E in R. cbn [obind] in R. destruct q as [[c m] |]; [| discriminate].
  destruct (m_is_class_method m) eqn:C; [discriminate |]. inversion R; subst r. cbn [r_class r_method r_static].
  split; [exists d; split; auto; apply Q; auto |]. split; auto.
  unfold run_call. cbn [r_static r_method r_class]. rewrite orb_true_r. reflexivity.
Qed.

(** ** C54 *)

(** A dispatched call of a method that compiled, on an object its static type
    admits, with values of the declared types: either it throws because a
    passed object is not an instance of the parameter type of the method that
    is dispatched to (or because of the call depth), or that method is entered
    with each passed value in its parameter, the declared defaults in the
    others, and every object it gets an instance of the parameter type.

    Missing for the full property: the hypothesis that the method dispatched
    to does not require more arguments than are passed (see
    [C54_stale_argument_refuted]). *)
Theorem C54_arguments_partial p w f f' fl table dv depth t name r args vals old a c e m :
  program_ok p -> methods_ok p -> instance_methods_ok p -> compiles p w f -> sorted_tables p table ->
  (forall i, is_category p i CMulnum -> 1 <= fl i) ->
  resolve_instance_call p (S w) t name = Ret r -> r_static r = false ->
  check_call_args p (S w) f' (r_method r) args = Ret tt -> zlen vals = zlen args ->
  (forall i d v, znth (m_args (r_method r)) i = Some d -> znth vals i = Some v -> argument_value p fl d v) ->
  znth vals 0 = Some [SObj (Some (a, (c, 0)))] -> invocant_fits p (S w) f' t c ->
  nearest p name c e m -> m_required_args_length m <= zlen vals ->
  match call p (S w) f' fl table dv depth r vals old with
  | Ret (e', m', st) =>
      e' = e /\ m' = m /\ depth < 1000 /\
      (forall i v, 0 <= i < zlen (m_args m) -> znth vals i = Some v -> parameter p fl st m i = v) /\
      (forall i, zlen vals <= i < zlen (m_args m) -> parameter p fl st m i = [dv e name i]) /\
      (forall i d b o, znth (m_args m) i = Some d -> object_type p d ->
         znth vals i = Some [SObj (Some (b, o))] -> isa p (S w) f' o (t_id d) (t_dim d) = Ret true)
  | Die msg =>
      (msg = MSG_DEPTH /\ 1000 <= depth) \/
      (msg = MSG_ARG /\ exists i d b o, znth (m_args m) i = Some d /\ object_type p d /\
         znth vals i = Some [SObj (Some (b, o))] /\ isa p (S w) f' o (t_id d) (t_dim d) <> Ret true)
  | _ => exists i d b o, znth (m_args m) i = Some d /\ object_type p d /\
         znth vals i = Some [SObj (Some (b, o))] /\ forall x, isa p (S w) f' o (t_id d) (t_dim d) <> Ret x
  end.
Proof.
  intros OK MOK IOK C TAB FL R S CA LV VAL V0 I N REQ.
  destruct (resolved_nearest p w f t name r OK MOK C (proj1 (proj2 (proj2 (proj2 I)))) R S) as (N0 & CM0).
  destruct (found_compatible p w f f' t name r c OK MOK C R S I) as [(e1 & m1 & N1 & CM & CP) | (_ & _ & H)].
  2: { exfalso. eapply H; eauto. }
  destruct (nearest_fun p OK MOK _ _ _ _ N _ _ N1) as (<- & <-). clear N1.
  assert (LEN : zlen vals <= zlen (m_args (r_method r))).
  { rewrite LV. unfold check_call_args in CA.
    destruct (check_operands p (Datatypes.S w) f' (m_args (r_method r)) args) as [[] | | |] eqn:Q; try discriminate.
    clear - Q. revert Q. generalize (m_args (r_method r)). induction args as [| [s nr] args IH]; intros ds Q.
    - change (zlen (@nil (ty * bool))) with 0. apply zlen_nonneg.
    - destruct ds as [| d ds]; [discriminate |]. cbn [check_operands] in Q.
      destruct (satisfy_assignment p (Datatypes.S w) (has_interface p (Datatypes.S w) f') nr false d s) as [[[] ?] | | |]; cbn [obind] in Q; try discriminate.
      rewrite !zlen_cons. specialize (IH ds Q). lia. }
  destruct (nearest_in _ _ _ _ _ N) as (be & Ee & Ie). destruct (nearest_in _ _ _ _ _ N0) as (br & Er & Ir).
  pose proof (IOK _ _ _ Ee Ie CM) as Km. pose proof (IOK _ _ _ Er Ir CM0) as Kr.
  destruct (push_args p fl (m_args (r_method r)) 0 vals old) as [st aw] eqn:PU.
  unfold call. rewrite PU. unfold run_call. rewrite CM0, S. cbn [orb].
  rewrite (nearest_name _ _ _ _ _ N0).
  assert (S0 : st 0 = SObj (Some (a, (c, 0)))).
  { destruct (mo_invocant p _ Kr) as (t0 & rest & E0 & _).
    pose proof (push_read p fl FL (m_args (r_method r)) 0 vals old 0 [SObj (Some (a, (c, 0)))] t0 0 (SObj (Some (a, (c, 0))))) as Q.
    rewrite PU in Q. cbn [fst] in Q. rewrite index_0 in Q. apply Q; auto.
    - intros k d v D V. apply (VAL k d v D V).
    - rewrite E0. reflexivity. }
  assert (CAL : call_instance_method p (Datatypes.S w) f' fl table dv depth name st aw =
     call_method p (Datatypes.S w) f' fl dv depth (e, m) st aw).
  { destruct (C47_dispatch p w f f' fl table dv depth name st aw OK MOK C TAB) as (H & _).
    destruct (H a c S0 (proj1 I)) as (H1 & _). destruct (H1 e m N CM) as (H2 & _). exact H2. }
  rewrite CAL. rewrite <- (nearest_name _ _ _ _ _ N).
  exact (enter p OK fl FL dv w (Datatypes.S w) f' (r_method r) m e Kr Km CP vals old LEN VAL REQ st aw PU depth CM).
Qed.

(** Where the method found at compile time has no optional parameter, the
    hypothesis on the required arguments holds. *)
Theorem C54_no_optional p w f f' t name r args (vals : list (list slot)) c e m :
  program_ok p -> methods_ok p -> instance_methods_ok p -> compiles p w f ->
  resolve_instance_call p (S w) t name = Ret r -> r_static r = false ->
  check_call_args p (S w) f' (r_method r) args = Ret tt -> zlen vals = zlen args ->
  m_required_args_length (r_method r) = zlen (m_args (r_method r)) ->
  invocant_fits p (S w) f' t c -> nearest p name c e m ->
  m_required_args_length m <= zlen vals.
Proof.
  intros OK MOK IOK C R S CA LV ALL I N.
  destruct (resolved_nearest p w f t name r OK MOK C (proj1 (proj2 (proj2 (proj2 I)))) R S) as (N0 & CM0).
  assert (RQ : m_required_args_length (r_method r) <= zlen args).
  { unfold check_call_args in CA. destruct (check_operands p (Datatypes.S w) f' _ args) as [[] | | |]; try discriminate.
    cbn [obind] in CA. destruct (Z.ltb_spec (zlen args) (m_required_args_length (r_method r))); [discriminate | auto]. }
  destruct (found_compatible p w f f' t name r c OK MOK C R S I) as [(e1 & m1 & N1 & CM & CP) | (_ & _ & H)].
  2: { exfalso. eapply H; eauto. }
  destruct (nearest_fun p OK MOK _ _ _ _ N _ _ N1) as (<- & <-).
  destruct CP as [<- | (hi & Q)]; [lia |]. unfold satisfy_method in Q.
  destruct (m_is_class_method m); [discriminate |]. destruct (m_is_class_method (r_method r)); [discriminate |].
  rewrite Z.geb_leb in Q.
  destruct (Z.leb_spec (m_required_args_length m) (zlen (m_args (r_method r)))); [lia | discriminate].
Qed.

(** ** Examples and defects *)

(** The method tables sorted by an insertion sort. *)
Fixpoint insert_method (m : meth) (l : list meth) : list meth :=
  match l with
  | [] => [m]
  | x :: l' => if strcmp (m_name m) (m_name x) <=? 0 then m :: l else x :: insert_method m l'
  end.
Definition sort_methods (l : list meth) : list meth := fold_right insert_method [] l.

Lemma insert_perm m l : Permutation (insert_method m l) (m :: l).
Proof.
  induction l as [| x l IH]; cbn [insert_method]; auto. destruct (strcmp _ _ <=? 0); auto.
  rewrite IH. constructor.
Qed.
Lemma sort_perm l : Permutation (sort_methods l) l.
Proof. induction l as [| x l IH]; cbn; auto. rewrite insert_perm. auto. Qed.

Definition ordered (l : list meth) : Prop :=
  forall i j a b, 0 <= i < j -> znth l i = Some a -> znth l j = Some b -> strcmp (m_name a) (m_name b) <= 0.

Lemma ordered_cons m l : ordered (m :: l) <->
  (forall x, In x l -> strcmp (m_name m) (m_name x) <= 0) /\ ordered l.
Proof.
  split.
  - intros O. split.
    + intros x I. apply In_znth in I as (i & B & E). apply (O 0 (i + 1)); [lia | reflexivity |].
      rewrite znth_cons. destruct (Z.eqb_spec (i + 1) 0); [lia |]. replace (i + 1 - 1) with i by lia. auto.
    + intros i j a b B E E'. apply (O (i + 1) (j + 1)); [lia | |]; rewrite znth_cons;
        [destruct (Z.eqb_spec (i + 1) 0); [lia |]; replace (i + 1 - 1) with i by lia; auto
        |destruct (Z.eqb_spec (j + 1) 0); [lia |]; replace (j + 1 - 1) with j by lia; auto].
  - intros (H & O) i j a b B E E'. rewrite znth_cons in E. rewrite znth_cons in E'.
    destruct (Z.eqb_spec j 0); [lia |]. destruct (Z.eqb_spec i 0).
    + inversion E; subst. apply H. eapply znth_In; eauto.
    + apply (O (i - 1) (j - 1)); auto. lia.
Qed.

Lemma sort_ordered l : ordered (sort_methods l).
Proof.
  induction l as [| m l IH]; cbn [sort_methods fold_right].
  - intros i j a b _ E. rewrite znth_nil in E. discriminate.
  - fold (sort_methods l). revert IH. generalize (sort_methods l). clear l.
    induction l as [| x l IH]; intros O; cbn [insert_method].
    + apply ordered_cons. split; [intros x [] | auto].
    + destruct (Z.leb_spec (strcmp (m_name m) (m_name x)) 0) as [L | G].
      * apply ordered_cons. split; auto. apply ordered_cons in O as (O1 & O2).
        intros y [<- | I]; auto. eapply strcmp_trans; eauto.
      * apply ordered_cons in O as (O1 & O2). apply ordered_cons. split; auto.
        intros y I. apply (Permutation_in _ (insert_perm m l)) in I. destruct I as [<- | I]; auto.
        rewrite strcmp_opp. lia.
Qed.

Definition tables (p : prog) (c : Z) : list meth := sort_methods (methods_of p c).
Lemma tables_sorted p : sorted_tables p (tables p).
Proof. intros c. split; [apply sort_perm | apply sort_ordered]. Qed.

Definition fl0 (_ : Z) : Z := 2.
Definition dv0 (_ : Z) (_ : list Z) (_ : Z) : slot := SObj None.
Definition empty_stack (_ : Z) : slot := SVal 77.

(** C -> B -> A (ex1 of Type_props): m is found in B on a C, n in B; an A has
    no n; an undefined invocant throws; and $c->m(3) through A and through I
    enters B's m with 3 in the second parameter. *)
Definition on (c : Z) : Z -> slot := fun k => if k =? 0 then SObj (Some (100, (c, 0))) else SVal 3.
Example C47_example :
  (forall e m, nearest ex1 (bytes "n") 20 e m -> e = 19) /\
  match call_instance_method ex1 4 2 fl0 (tables ex1) dv0 5 (bytes "n") (on 20) 1 with
  | Ret (e, m, _) => e = 19 /\ m_name m = bytes "n" | _ => False end /\
  call_instance_method ex1 4 2 fl0 (tables ex1) dv0 5 (bytes "n") (on 18) 1 = Die MSG_NOT_FOUND /\
  call_instance_method ex1 4 2 fl0 (tables ex1) dv0 5 (bytes "n") (fun _ => SObj None) 1 = Die MSG_UNDEF /\
  (forall t, t = 17 \/ t = 18 ->
    exists r, resolve_instance_call ex1 4 (Ty t 0 0) (bytes "m") = Ret r /\
      check_call_args ex1 4 2 (r_method r) [(Ty t 0 0, false); (ty_int, false)] = Ret tt /\
      invocant_fits ex1 4 2 (Ty t 0 0) 20 /\
      match call ex1 4 2 fl0 (tables ex1) dv0 5 r [[SObj (Some (100, (20, 0)))]; [SVal 3]] empty_stack with
      | Ret (e, m, st) => e = 19 /\ parameter ex1 fl0 st m 1 = [SVal 3] | _ => False end) /\
  exists r, resolve_instance_call ex1 4 (Ty 20 0 0) (bytes "SUPER::m") = Ret r /\ r_class r = 19.
Proof.
  split.
  { intros e m N.
    assert (Q : nearest ex1 (bytes "n") 20 19 (im "n" false 19 [] 0 ty_void)).
    { apply nearest_up with (d := 19) (b := bt "C" CClass (Some "B"%string) []); [reflexivity | intros ? [] | |].
      - unfold extends. do 2 eexists. repeat split; vm_compute; reflexivity.
      - eapply nearest_here; [vm_compute; reflexivity | right; left; vm_compute; reflexivity | reflexivity]. }
    destruct (nearest_fun ex1 ex1_ok ex1_methods _ _ _ _ N _ _ Q) as (-> & _). auto. }
  split; [vm_compute; auto |]. split; [vm_compute; reflexivity |]. split; [vm_compute; reflexivity |].
  split; [| eexists; split; vm_compute; reflexivity].
  assert (CC : forall i, i = 18 \/ i = 20 -> is_category ex1 i CClass).
  { intros i [-> | ->]; eexists; (split; [vm_compute; reflexivity | reflexivity]). }
  assert (TO : forall i, 17 <= i <= 20 -> type_ok ex1 (Ty i 0 0)).
  { intros i B. unfold type_ok. cbn [t_id t_dim t_flag]. change (zlen ex1) with 21. repeat split; auto; lia. }
  intros t [-> | ->]; eexists; (split; [vm_compute; reflexivity |]); (split; [vm_compute; reflexivity |]);
    (split; [| vm_compute; auto]); unfold invocant_fits; cbn [t_id t_dim t_flag]; change (zlen ex1) with 21;
    (split; [lia |]); (split; [auto |]); (split; [auto |]); (split; [apply TO; lia |]).
  - right. split; [eexists; split; [vm_compute; reflexivity | reflexivity] |]. split; auto.
  - left. split; auto. right.
    apply super_step with (d := 19); [| apply super_direct]; unfold extends; do 2 eexists; repeat split; vm_compute; reflexivity.
Qed.

Ltac meths_ok := intros i b E; apply znth_In in E; vm_compute in E;
  repeat (destruct E as [<- | E]; [apply (nodup_dec (list_eq_dec Z.eq_dec)); vm_compute; reflexivity |]); destruct E.

(** class C { method m : void ($x : C, $y : int = 7) {} }
    class D extends C { method m : void ($x : D, $y : int = 8) {} }
    All hypotheses of C54_arguments_partial hold of $c->m($z) on a D: D's m is
    entered with the default 8 if $z is a D, and the call throws if it is a C. *)
Definition ex9 : prog := core ++
  [bt "C" CClass None [im "m" false 17 [Ty 17 0 0; ty_int] 1 ty_void];
   bt "D" CClass (Some "C"%string) [im "m" false 18 [Ty 18 0 0; ty_int] 1 ty_void]].
Definition dv9 (c : Z) (_ : list Z) (_ : Z) : slot := SVal (c - 10).
Example C54_example :
  program_ok ex9 /\ methods_ok ex9 /\ instance_methods_ok ex9 /\ compiles ex9 2 1 /\
  exists r, resolve_instance_call ex9 3 (Ty 17 0 0) (bytes "m") = Ret r /\ r_static r = false /\
    check_call_args ex9 3 1 (r_method r) [(Ty 17 0 0, false); (Ty 17 0 0, false)] = Ret tt /\
    invocant_fits ex9 3 1 (Ty 17 0 0) 18 /\
    (forall i d v o, znth (m_args (r_method r)) i = Some d ->
       znth [[SObj (Some (100, (18, 0)))]; [SObj (Some (200, (o, 0)))]] i = Some v -> argument_value ex9 fl0 d v) /\
    (exists m, nearest ex9 (bytes "m") 18 18 m /\ m_required_args_length m <= 2 /\
       exists st, call ex9 3 1 fl0 (tables ex9) dv9 0 r
             [[SObj (Some (100, (18, 0)))]; [SObj (Some (200, (18, 0)))]] empty_stack = Ret (18, m, st) /\
         parameter ex9 fl0 st m 2 = [SVal 8]) /\
    call ex9 3 1 fl0 (tables ex9) dv9 0 r
      [[SObj (Some (100, (18, 0)))]; [SObj (Some (200, (17, 0)))]] empty_stack = Die MSG_ARG.
Proof.
  split; [prog_ok |].
  split; [intros i b E; apply znth_In in E; vm_compute in E;
    repeat (destruct E as [<- | E]; [apply (nodup_dec (list_eq_dec Z.eq_dec)); vm_compute; reflexivity |]); destruct E |].
  assert (CC : forall i, i = 17 \/ i = 18 -> is_category ex9 i CClass).
  { intros i [-> | ->]; eexists; (split; [vm_compute; reflexivity | reflexivity]). }
  assert (TO : forall i, i = 5 \/ i = 17 \/ i = 18 -> param_type ex9 (Ty i 0 0)).
  { intros i B. unfold param_type, type_ok, ID_UNDEF, ID_VOID. cbn [t_id t_dim t_flag].
    change (zlen ex9) with 19. repeat split; auto; lia. }
  split.
  { intros c b m E I _. apply znth_In in E. vm_compute in E.
    repeat (destruct E as [<- | E]); try (destruct E; fail); cbn [bt_methods] in I; try (destruct I; fail);
      destruct I as [<- | []];
      (constructor; cbn [m_args m_required_args_length];
       [repeat constructor; apply TO; auto
       |do 2 eexists; split; [reflexivity |]; cbn [t_dim t_flag t_id]; auto 6
       |vm_compute; split; discriminate
       |intros i t L E; rewrite !znth_cons in E;
        destruct (Z.eqb_spec i 0); [lia |]; destruct (Z.eqb_spec (i - 1) 0); [lia |];
        destruct (Z.eqb_spec (i - 1 - 1) 0); [inversion E; subst; left; intros (b & Eb & Cb);
          vm_compute in Eb; inversion Eb; subst; discriminate Cb | rewrite znth_nil in E; discriminate E]]). }
  split; [split; vm_compute; reflexivity |].
  eexists. split; [vm_compute; reflexivity |]. split; [reflexivity |]. split; [vm_compute; reflexivity |].
  split.
  { unfold invocant_fits. cbn [t_id t_dim t_flag]. change (zlen ex9) with 19. split; [lia |]. split; [auto |].
    split; [auto |]. split; [apply TO; auto |]. left. split; auto. right. apply super_direct.
    unfold extends; do 2 eexists; repeat split; vm_compute; reflexivity. }
  split.
  { intros i d v o E V. cbn [r_method m_args] in E. rewrite !znth_cons in V. rewrite !znth_cons in E.
    destruct (Z.eqb_spec i 0); [| destruct (Z.eqb_spec (i - 1) 0)].
    - inversion E; inversion V; subst. split; [intros _; eauto | vm_compute; reflexivity].
    - inversion E; inversion V; subst. split; [intros _; eauto | vm_compute; reflexivity].
    - rewrite znth_nil in V. discriminate. }
  split; [| vm_compute; reflexivity].
  exists (im "m" false 18 [Ty 18 0 0; ty_int] 1 ty_void). split.
  { eapply nearest_here; [vm_compute; reflexivity | left; vm_compute; reflexivity | reflexivity]. }
  split; [vm_compute; discriminate |].
  eexists. split; [vm_compute; reflexivity |]. vm_compute. reflexivity.
Qed.

(** class C { method m : void ($x : object = undef) {} }
    class D extends C { method m : void ($x : object) {} }
    The program compiles and the call $c->m() of a C is accepted, but on a D it
    enters a method whose parameter is whatever the stack slot held before. *)
Definition ex6 : prog := core ++
  [bt "C" CClass None [im "m" false 17 [ty_object] 1 ty_void];
   bt "D" CClass (Some "C"%string) [im "m" false 18 [ty_object] 0 ty_void]].
Theorem C54_stale_argument_refuted :
  program_ok ex6 /\ methods_ok ex6 /\ compiles ex6 2 1 /\
  exists r, resolve_instance_call ex6 3 (Ty 17 0 0) (bytes "m") = Ret r /\
    check_call_args ex6 3 1 (r_method r) [(Ty 17 0 0, false)] = Ret tt /\
    sub_class ex6 18 17 /\
    forall old, exists m st,
      call ex6 3 1 fl0 (tables ex6) dv0 0 r [[SObj (Some (100, (18, 0)))]] old = Ret (18, m, st) /\
      parameter ex6 fl0 st m 1 = [old 1].
Proof.
  split; [prog_ok |]. split; [meths_ok |].
  split; [split; vm_compute; reflexivity |].
  eexists. split; [vm_compute; reflexivity |]. split; [vm_compute; reflexivity |].
  split.
  { right. apply super_direct. unfold extends. do 2 eexists. repeat split; vm_compute; reflexivity. }
  intros old. eexists. eexists. split; [vm_compute; reflexivity |]. vm_compute. reflexivity.
Qed.

(** class C { method m : void ($s : string) {} }
    class D extends C { method m : void ($s : mutable string) {} }
    compiles, so that $c->m("abc") passes a constant as a mutable string,
    although a string cannot be assigned to a mutable string. *)
Definition ty_mutable := Ty ID_STRING 0 FLAG_MUTABLE.
Definition ex7 : prog := core ++
  [bt "C" CClass None [im "m" false 17 [ty_string] 0 ty_void];
   bt "D" CClass (Some "C"%string) [im "m" false 18 [ty_mutable] 0 ty_void]].
Theorem C54_mutable_argument_refuted :
  program_ok ex7 /\ methods_ok ex7 /\ compiles ex7 2 1 /\
  can_assign_types ex7 3 1 ty_mutable ty_string = Ret false /\
  exists r, resolve_instance_call ex7 3 (Ty 17 0 0) (bytes "m") = Ret r /\
    check_call_args ex7 3 1 (r_method r) [(Ty 17 0 0, false); (ty_string, false)] = Ret tt /\
    forall old b, exists m st,
      call ex7 3 1 fl0 (tables ex7) dv0 0 r
        [[SObj (Some (100, (18, 0)))]; [SObj (Some (b, (ID_STRING, 0)))]] old = Ret (18, m, st) /\
      znth (m_args m) 1 = Some ty_mutable /\
      parameter ex7 fl0 st m 1 = [SObj (Some (b, (ID_STRING, 0)))].
Proof.
  split; [prog_ok |]. split; [meths_ok |].
  split; [split; vm_compute; reflexivity |]. split; [vm_compute; reflexivity |].
  eexists. split; [vm_compute; reflexivity |]. split; [vm_compute; reflexivity |].
  intros old b. eexists. eexists. split; [vm_compute; reflexivity |]. split; vm_compute; reflexivity.
Qed.

(** A static call ($c->C::m(), and $c->SUPER::m()) does not check that the
    invocant is defined: the method is entered with an undefined invocant. *)
Theorem C47_static_call_undef_refuted :
  exists r, resolve_instance_call ex7 3 (Ty 18 0 0) (bytes "C::m") = Ret r /\ r_class r = 17 /\
    check_call_args ex7 3 1 (r_method r) [(Ty 18 0 0, false); (ty_string, false)] = Ret tt /\
    forall old b, exists m st,
      call ex7 3 1 fl0 (tables ex7) dv0 0 r [[SObj None]; [SObj (Some (b, (ID_STRING, 0)))]] old =
        Ret (17, m, st) /\
      parameter ex7 fl0 st m 0 = [SObj None].
Proof.
  eexists. split; [vm_compute; reflexivity |]. split; [reflexivity |]. split; [vm_compute; reflexivity |].
  intros old b. eexists. eexists. split; vm_compute; reflexivity.
Qed.

(** class MyInt extends Int {}: a method inherited from a numeric class cannot
    be called on an instance, its invocant check fails. *)
Definition ex8 : prog :=
  ztake 13 core ++ [bt "Int" CClass None [im "value" false 13 [] 0 ty_int]] ++ zdrop 14 core ++
  [bt "MyInt" CClass (Some "Int"%string) []].
Theorem C47_numeric_subclass_call_refuted :
  program_ok ex8 /\ methods_ok ex8 /\ compiles ex8 2 1 /\
  exists r, resolve_instance_call ex8 3 (Ty 17 0 0) (bytes "value") = Ret r /\
    check_call_args ex8 3 1 (r_method r) [(Ty 17 0 0, false)] = Die "The argument must be assigned to the type of the argument." /\
    call_instance_method ex8 3 1 fl0 (tables ex8) dv0 0 (bytes "value") (on 17) 1 = Die MSG_ARG.
Proof.
  split; [prog_ok |]. split; [meths_ok |]. split; [split; vm_compute; reflexivity |].
  eexists. split; [vm_compute; reflexivity |]. split; vm_compute; reflexivity.
Qed.

Print Assumptions C47_lookup.
Print Assumptions C47_dispatch.
Print Assumptions C47_accepted_call_is_found.
Print Assumptions C47_super_call.
Print Assumptions C54_arguments_partial.
Print Assumptions C54_no_optional.
Print Assumptions C54_stale_argument_refuted.
Print Assumptions C54_mutable_argument_refuted.
Print Assumptions C47_static_call_undef_refuted.
Print Assumptions C47_numeric_subclass_call_refuted.
