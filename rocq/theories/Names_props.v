(** * C66: a variable name means the innermost visible declaration

    Partial: proved for methods made of the expressions and statements of
    Names_model.v. Missing are the operators that add further temporary variables
    (array initialization, special assignment, creation of an anonymous method in
    the outer method) and the messages about types. *)
From Coq Require Import Lia.
From Verif Require Import Base CLib Dec Type_model Dispatch_model Names_model Names_spec Names_proofs
  NamesSim_proofs NamesStmt_proofs NamesRef_proofs NamesMain_proofs NamesHid_proofs.
Local Open Scope nat_scope.

(** ** The declarations of a method *)
Lemma method_wdecls m n p :
  In p (wdecls (fst (build_method m n))) <->
  p = (Flag, flag_name) \/ (m_void m = false /\ p = (Return, return_name))
  \/ (exists l, m_self m = Some l /\ p = (User l, self_name))
  \/ (exists l x, In (l, x) (m_args m) /\ p = (User l, x))
  \/ (exists l ls x, In (l, ls, x) (m_captures m) /\ p = (User l, x))
  \/ In p (wdecls (fst (build_stmts (m_body m) n))).
Proof.
  unfold build_method. destruct (build_stmts (m_body m) n) as [tb n1]. cbn [fst TList].
  rewrite wdecls_block, !wdecls_pair, !in_app_iff.
  assert (A : forall q, In p (wdecls (TList (map (fun '(l, x) => TVar true (User l) x) q)))
              <-> exists l x, In (l, x) q /\ p = (User l, x)).
  { induction q as [| [l x] q IH]; cbn [map TList].
    - split; [intros [] | intros (l & x & [] & _)].
    - rewrite wdecls_pair, in_app_iff, IH. cbn. split.
      + intros [[<- | []] | (l' & x' & I & E)]; [exists l, x; auto | exists l', x'; auto].
      + intros (l' & x' & [I | I] & ->); [inversion I; subst; auto | right; exists l', x'; auto]. }
  assert (C : forall q, In p (wdecls (TList (map (fun '(l, ls, x) => assign (TVar true (User l) x) (TVar false (User ls) self_name)) q)))
              <-> exists l ls x, In (l, ls, x) q /\ p = (User l, x)).
  { induction q as [| [[l ls] x] q IH]; cbn [map TList].
    - split; [intros [] | intros (l & ls & x & [] & _)].
    - rewrite wdecls_pair, in_app_iff, IH. cbn. split.
      + intros [[<- | []] | (l' & k & x' & I & E)]; [exists l, ls, x; auto | exists l', k, x'; auto].
      + intros (l' & k & x' & [I | I] & ->); [inversion I; subst; auto | right; exists l', k, x'; auto]. }
  rewrite A, C.
  assert (S : (exists l x, In (l, x) (match m_self m with Some l0 => [(l0, self_name)] | None => [] end ++ m_args m) /\ p = (User l, x))
              <-> (exists l, m_self m = Some l /\ p = (User l, self_name)) \/ (exists l x, In (l, x) (m_args m) /\ p = (User l, x))).
  { destruct (m_self m) as [l0 |]; cbn [app]; split.
    - intros (l & x & [I | I] & E); [inversion I; subst; left; eauto | right; eauto].
    - intros [(l & I & E) | (l & x & I & E)]; [inversion I; subst; exists l, self_name; cbn; auto | exists l, x; cbn; auto].
    - intros (l & x & I & E). right. eauto.
    - intros [(l & I & E) | (l & x & I & E)]; [discriminate | eauto]. }
  rewrite S.
  assert (R : (exists l ls x, In (l, ls, x) (rev (m_captures m)) /\ p = (User l, x))
              <-> (exists l ls x, In (l, ls, x) (m_captures m) /\ p = (User l, x))).
  { split; intros (l & ls & x & I & E); exists l, ls, x; (split; [| assumption]); now apply in_rev; rewrite ?rev_involutive. }
  rewrite R.
  assert (F : In p (wdecls (TVar true Flag flag_name)) <-> p = (Flag, flag_name)) by (cbn; intuition).
  assert (Q : In p (wdecls (if m_void m then TNil else TVar true Return return_name)) <-> m_void m = false /\ p = (Return, return_name)).
  { destruct (m_void m); cbn; intuition congruence. }
  rewrite F, Q. cbn. intuition.
Qed.

Lemma method_decls m n l x :
  In (User l, x) (wdecls (fst (build_method m n))) <-> In (Decl l x) (method_events m).
Proof.
  rewrite method_wdecls. unfold method_events. rewrite in_block, !in_app_iff.
  rewrite (fine_user _ _ _ _ (proj1 (proj2 fine_source) (m_body m) n)).
  assert (S : In (Decl l x) (match m_self m with Some l0 => [Decl l0 dollar_self] | None => [] end)
              <-> exists l0, m_self m = Some l0 /\ (User l, x) = (User l0, self_name)).
  { destruct (m_self m) as [l0 |]; cbn; split.
    - intros [E | []]. inversion E; subst. eauto.
    - intros (l1 & E & I). inversion E; inversion I; subst. now left.
    - intros [].
    - intros (l1 & E & _). discriminate. }
  assert (A : In (Decl l x) (map (fun '(l, x) => Decl l x) (m_args m))
              <-> exists l0 x0, In (l0, x0) (m_args m) /\ (User l, x) = (User l0, x0)).
  { rewrite in_map_iff. split.
    - intros ([l0 x0] & E & I). inversion E; subst. eauto.
    - intros (l0 & x0 & I & E). inversion E; subst. exists (l0, x0). auto. }
  assert (C : In (Decl l x) (flat_map (fun '(l, ls, x) => [Use ls dollar_self; Decl l x]) (rev (m_captures m)))
              <-> exists l0 ls x0, In (l0, ls, x0) (m_captures m) /\ (User l, x) = (User l0, x0)).
  { rewrite in_flat_map. split.
    - intros ([[l0 ls] x0] & I & [E | [E | []]]); inversion E; subst. apply in_rev in I. exists l, ls, x. auto.
    - intros (l0 & ls & x0 & I & E). inversion E; subst. exists (l0, ls, x0).
      split; [now apply in_rev in I | cbn; auto]. }
  rewrite S, A, C. intuition discriminate.
Qed.

Lemma added_no_colon l x : is_user l = false -> label_name l x -> strstr x (bytes "::") = false.
Proof.
  intros U N. destruct (strstr x (bytes "::")) eqn:E; [| reflexivity]. exfalso.
  destruct l as [k | k [] | |]; cbn [label_name] in N; subst; try discriminate.
  apply strstr_spec in E. destruct E as (p & q & E).
  assert (I : In 58%Z (tmp_name k)). { rewrite E. apply in_app_iff. right. now left. }
  unfold tmp_name in I. apply in_app_iff in I. destruct I as [I | I].
  - change (bytes "$.tmp_in_op") with [36; 46; 116; 109; 112; 95; 105; 110; 95; 111; 112]%Z in I.
    cbn in I. intuition discriminate.
  - unfold print_dec in I. destruct (Z.of_nat k <? 0)%Z eqn:K; [apply Z.ltb_lt in K; lia |].
    destruct (udec_spec (Z.of_nat k)) as (D & _); [lia |]. rewrite Forall_forall in D. specialize (D _ I).
    unfold is_digit in D. lia.
Qed.

Lemma method_colons m n :
  source_names (method_events m) ->
  (colons (fst (build_method m n)) = true <-> exists l x, In (Decl l x) (method_events m) /\ In colon x).
Proof.
  intros N. rewrite colons_wdecls, existsb_exists. split.
  - intros ((l & x) & I & E). cbn [snd] in E. destruct l as [l | k r | |].
    + apply method_decls in I. exists l, x. split; [assumption |].
      apply strstr_spec in E. destruct E as (p & q & ->). apply in_app_iff. right. now left.
    + exfalso. rewrite (added_no_colon (Hidden k r) x) in E; [discriminate | reflexivity |].
      apply method_wdecls in I. destruct I as [I | [(_ & I) | [(? & _ & I) | [(? & ? & _ & I) | [(? & ? & ? & _ & I) | I]]]]]; try discriminate.
      eapply (fine_names _ _ _ _ (proj1 (proj2 fine_source) (m_body m) n)); [eassumption | reflexivity].
    + exfalso. rewrite (added_no_colon Flag x) in E; [discriminate | reflexivity |].
      apply method_wdecls in I. destruct I as [I | [(_ & I) | [(? & _ & I) | [(? & ? & _ & I) | [(? & ? & ? & _ & I) | I]]]]]; try discriminate.
      * inversion I. reflexivity.
      * eapply (fine_names _ _ _ _ (proj1 (proj2 fine_source) (m_body m) n)); [eassumption | reflexivity].
    + exfalso. rewrite (added_no_colon Return x) in E; [discriminate | reflexivity |].
      apply method_wdecls in I. destruct I as [I | [(_ & I) | [(? & _ & I) | [(? & ? & _ & I) | [(? & ? & ? & _ & I) | I]]]]]; try discriminate.
      * inversion I. reflexivity.
      * eapply (fine_names _ _ _ _ (proj1 (proj2 fine_source) (m_body m) n)); [eassumption | reflexivity].
  - intros (l & x & I & C). exists (User l, x). split; [now apply method_decls |]. cbn [snd].
    destruct (N _ x I eq_refl) as (y & -> & _ & D). apply strstr_spec.
    destruct C as [C | C]; [discriminate |]. destruct (D C) as (c & v & -> & _).
    exists (dollar :: c), v. reflexivity.
Qed.

Lemma written_nth o : forall k l t, nth_error (user_out o) k = Some (User l, t) -> nth_error (written o) k = Some (l, t).
Proof.
  induction o as [| [[k0 | ? ? | |] t0] o IH]; intros k l t H; cbn in *; try (now apply IH).
  - destruct k; discriminate.
  - destruct k as [| k]; cbn in *; [inversion H; reflexivity | now apply IH].
Qed.
Lemma written_length o : length (written o) = length (user_out o).
Proof. induction o as [| [[k0 | ? ? | |] t0] o IH]; cbn; auto. Qed.

Section C66.
  Variable cs : classes.
  Variable current : name.
  Variable accessible : name -> name -> bool.
  Hypothesis cs_ok : classes_ok cs.

  (** The summary of the run for a method. *)
  Lemma method_summary m n :
    source_names (method_events m) -> no_colons (method_events m) ->
    match check_method cs current accessible m n with
    | Good o =>
        length (written o) = count is_var (method_events m) /\
        (forall a e b, method_events m = a ++ e :: b -> forall er, ~ wrong cs current accessible a e er) /\
        (forall a e b, method_events m = a ++ e :: b -> is_var e = true ->
          exists r, nth_error (written o) (count is_var a) = Some r /\ means cs current accessible a e r) /\
        hidden_ok o
    | Fail er =>
        exists a e b, method_events m = a ++ e :: b /\ wrong cs current accessible a e er /\
          forall a' e' b', a = a' ++ e' :: b' -> forall er', ~ wrong cs current accessible a' e' er'
    end.
  Proof.
    intros N C. unfold check_method. pose proof (method_colons m n N) as MC.
    assert (NO : names_ok (method_events m)).
    { intros e x I E. apply source_name_user. now apply (N e x). }
    pose proof (method_run cs current accessible m n NO) as MR.
    destruct (build_method m n) as [t n']. cbn [fst] in *.
    destruct (colons t) eqn:CT.
    { exfalso. destruct (proj1 MC eq_refl) as (l & x & I & J). exact (C l x I J). }
    pose proof (walk_run cs current accessible t (State [] [] []) [] (conj eq_refl eq_refl)) as W.
    assert (D : depth 0 (method_events m) <> None) by (rewrite flat_method; discriminate).
    pose proof (run_spec cs current accessible cs_ok (method_events m) [] 0 eq_refl D N) as RS.
    change (st []) with (@nil (list (name * label))) in RS.
    destruct (frun cs current accessible (map emb (method_events m)) []) as [[usc ou] | er].
    - destruct MR as (o & R & O & K). rewrite R in W.
      destruct (walk cs current accessible t (State [] [] [])) as [s |]; [| contradiction].
      destruct W as [_ W]. cbn [out app] in W. rewrite W.
      destruct RS as (L & A & B). split; [rewrite written_length, O; exact L |]. split; [exact A |]. split; [| exact K].
      intros a e b E V. destruct (B a e b E V) as ([l' t'] & H & M). exists (l', t').
      split; [apply written_nth; rewrite O; exact H | exact M].
    - rewrite MR in W. destruct (walk cs current accessible t (State [] [] [])) as [s |]; [contradiction |].
      subst. exact RS.
  Qed.

  (** A method is accepted if and only if no local variable is declared twice in
      one block, every name that refers to no local variable denotes a class
      variable that can be accessed, and no local variable has colons. *)
  Theorem C66_accepts_partial m n :
    source_names (method_events m) ->
    ((exists o, check_method cs current accessible m n = Good o) <->
     no_colons (method_events m) /\
     forall pre e post, method_events m = pre ++ e :: post -> forall er, ~ wrong cs current accessible pre e er).
  Proof.
    intros N. assert (MC := method_colons m n N). split.
    - intros (o & H).
      assert (C : no_colons (method_events m)).
      { intros l x I J. unfold check_method in H. destruct (build_method m n) as [t n']. cbn [fst] in MC.
        rewrite (proj2 MC) in H; [discriminate |]. exists l, x. auto. }
      split; [assumption |]. pose proof (method_summary m n N C) as S. rewrite H in S. apply S.
    - intros [C W]. pose proof (method_summary m n N C) as S.
      destruct (check_method cs current accessible m n) as [o | er]; [eauto |].
      destruct S as (a & e & b & E & Q & _). now destruct (W a e b E er).
  Qed.

  (** Then the result has, for each place where a variable is written, in order,
      what the variable means there. *)
  Theorem C66_meaning_partial m n o :
    source_names (method_events m) ->
    check_method cs current accessible m n = Good o ->
    length (written o) = count is_var (method_events m) /\
    forall pre e post, method_events m = pre ++ e :: post -> is_var e = true ->
      exists r, nth_error (written o) (count is_var pre) = Some r /\ means cs current accessible pre e r.
  Proof.
    intros N H. assert (C : no_colons (method_events m)) by (apply (C66_accepts_partial m n N); eauto).
    pose proof (method_summary m n N C) as S. rewrite H in S. tauto.
  Qed.

  (** Otherwise the error is the first one in the order of the execution. *)
  Theorem C66_first_error_partial m n er :
    source_names (method_events m) ->
    check_method cs current accessible m n = Fail er ->
    (er = Colons /\ exists l x, In (Decl l x) (method_events m) /\ In colon x)
    \/ (no_colons (method_events m) /\
        exists pre e post, method_events m = pre ++ e :: post /\ wrong cs current accessible pre e er /\
          forall pre' e' post', pre = pre' ++ e' :: post' -> forall er', ~ wrong cs current accessible pre' e' er').
  Proof.
    intros N H. assert (MC := method_colons m n N).
    destruct (colons (fst (build_method m n))) eqn:CT.
    - left. split; [| now apply MC]. unfold check_method in H. destruct (build_method m n) as [t n']. cbn [fst] in CT.
      rewrite CT in H. congruence.
    - assert (C : no_colons (method_events m)).
      { intros l x I J. assert (Q : false = true) by (apply MC; eauto). discriminate. }
      right. split; [assumption |]. pose proof (method_summary m n N C) as S. rewrite H in S. exact S.
  Qed.

  (** The variables that the compiler adds are apart from each other and from the
      written ones: each place that uses one refers to the declaration that was
      added with it, and no two declarations are of the same variable. *)
  Theorem C66_added_variables_partial m n o :
    source_names (method_events m) ->
    check_method cs current accessible m n = Good o ->
    (forall l t, In (l, t) o -> added l = true -> t = Local l)
    /\ NoDup (filter added (declarations (fst (build_method m n)))).
  Proof.
    intros N H. assert (C : no_colons (method_events m)) by (apply (C66_accepts_partial m n N); eauto).
    pose proof (method_summary m n N C) as S. rewrite H in S. destruct S as (_ & _ & _ & K). split.
    - intros l t I A. apply (K l t I). destruct l; [discriminate | reflexivity | reflexivity | reflexivity].
    - destruct (proj1 (proj2 fine_source) (m_body m) n) as [_ _ _ R D].
      unfold build_method. destruct (build_stmts (m_body m) n) as [tb n1]. cbn [fst snd] in *.
      cbn [TList declarations]. rewrite !filter_app.
      assert (E1 : forall q, filter added (declarations (TList (map (fun '(l, x) => TVar true (User l) x) q))) = []).
      { induction q as [| [l x] q IH]; cbn; [reflexivity | exact IH]. }
      assert (E2 : forall q, filter added (declarations (TList (map (fun '(l, ls, x) => assign (TVar true (User l) x) (TVar false (User ls) self_name)) q))) = []).
      { induction q as [| [[l ls] x] q IH]; cbn; [reflexivity | exact IH]. }
      rewrite E1, E2. cbn [filter added app].
      assert (NF : ~ In Flag (filter added (declarations tb))).
      { intros I. apply filter_In in I. destruct I as [I A]. apply (R _ I) in A. exact A. }
      assert (NR : ~ In Return (filter added (declarations tb))).
      { intros I. apply filter_In in I. destruct I as [I A]. apply (R _ I) in A. exact A. }
      destruct (m_void m); cbn [declarations filter added app].
      + rewrite app_nil_r. now constructor.
      + constructor.
        * rewrite in_app_iff. cbn. intuition discriminate.
        * apply nodup_app; [assumption | repeat constructor; intros [] |].
          intros y I [<- | []]. auto.
  Qed.
End C66.

(** What a name refers to is one declaration. *)
Theorem C66_unique pre x l l' : refers pre x l -> refers pre x l' -> l = l'.
Proof.
  intros (p1 & p2 & E & V & M) (q1 & q2 & E' & V' & M'). rewrite E in E'. clear E pre.
  revert p1 E'. induction q1 as [| a q1 IH]; intros [| b p1] E; cbn in E; inversion E; subst.
  - reflexivity.
  - exfalso. apply (M' p1 p2 l eq_refl V).
  - exfalso. eapply M; [reflexivity | exact V'].
  - now apply (IH p1).
Qed.

(** ** Examples *)
(** method f : void ($n : int) {
      my $x = $n;                        places 1, 2
      for my $e ($x) {                   place 4 for $e, 3 for $x
        my $y = $e && $x;                places 5; 6, 7
        for my $e ($y) { $e || !$x; }    place 9 for $e, 8 for $y; 10, 11
        $e;                              place 12
      }
      { my $x = $x; $x; }                places 14, 13, 15
      $x; $C;                            places 16, 17: $C is a class variable
    } *)
Definition dx := bytes "$x". Definition dy := bytes "$y". Definition de := bytes "$e".
Definition dn := bytes "$n". Definition dC := bytes "$C".
Fixpoint sts (l : list stmt) : stmts := match l with [] => BNil | s :: l => BCons s (sts l) end.
Definition f_body : stmts := sts
  [SExpr (EAssign (EMy 1 dx) (EUse 2 dn));
   SForeach 4 de (EUse 3 dx) (sts
     [SExpr (EAssign (EMy 5 dy) (EAnd (EUse 6 de) (EUse 7 dx)));
      SForeach 9 de (EUse 8 dy) (sts [SExpr (EOr (EUse 10 de) (ENot (EUse 11 dx)))]);
      SExpr (EUse 12 de)]);
   SBlock (sts [SExpr (EAssign (EMy 14 dx) (EUse 13 dx)); SExpr (EUse 15 dx)]);
   SExpr (EUse 16 dx); SExpr (EUse 17 dC)].
Definition f_method : method := Method None [(0, dn)] [] true f_body.
Definition f_classes : classes := [(bytes "Foo", [dC]); (bytes "Bar", [dx])].

Definition plain (x : name) : bool :=
  match x with 36%Z :: c :: y => forallb (fun c => negb (c =? 58)%Z) (c :: y) && negb (c =? 46)%Z | _ => false end.
Lemma plain_source x : plain x = true -> source_name x /\ ~ In colon x.
Proof.
  unfold plain. intros H.
  destruct x as [| z [| c y]]; try discriminate; [destruct z as [| p |]; try discriminate; repeat (destruct p; try discriminate) |].
  assert (Z36 : z = 36%Z) by (destruct z as [| p |]; try discriminate; repeat (destruct p; try discriminate); reflexivity). subst z.
  apply andb_prop in H. destruct H as [H D].
  assert (NC : ~ In colon (c :: y)).
  { intros I. rewrite forallb_forall in H. specialize (H _ I). discriminate. }
  split.
  - exists (c :: y). split; [reflexivity |]. split.
    + intros w E. inversion E; subst. discriminate.
    + intros I. now destruct NC.
  - intros [E | I]; [discriminate | auto].
Qed.
Definition all_plain (es : list event) : bool :=
  forallb (fun e => match event_name e with Some x => plain x | None => true end) es.
Lemma all_plain_source es : all_plain es = true -> source_names es /\ no_colons es.
Proof.
  unfold all_plain. rewrite forallb_forall. intros H. split.
  - intros e x I E. specialize (H _ I). rewrite E in H. now apply plain_source.
  - intros l x I. specialize (H _ I). cbn in H. now apply plain_source.
Qed.

Example C66_names : source_names (method_events f_method) /\ classes_ok f_classes.
Proof.
  split; [apply all_plain_source; vm_compute; reflexivity |].
  unfold classes_ok. cbn. repeat constructor; cbn; intuition discriminate.
Qed.
Example C66_ex :
  match check_method f_classes (bytes "Foo") (fun _ _ => true) f_method 7 with
  | Good o => written o =
      [(0, Local (User 0)); (2, Local (User 0)); (1, Local (User 1)); (3, Local (User 1)); (4, Local (User 4));
       (6, Local (User 4)); (7, Local (User 1)); (5, Local (User 5)); (8, Local (User 5)); (9, Local (User 9));
       (10, Local (User 9)); (11, Local (User 1)); (12, Local (User 4)); (13, Local (User 1)); (14, Local (User 14));
       (15, Local (User 14)); (16, Local (User 1)); (17, ClassVar (bytes "Foo") dC)]
      /\ length (filter (fun p => added (fst p)) o) = 39
  | Fail _ => False
  end.
Proof. vm_compute. split; reflexivity. Qed.
(** A second declaration in the same block; the variable of a switch condition
    stays visible after the switch; that of an if condition does not. *)
Example C66_ex_redeclaration :
  check_method f_classes (bytes "Foo") (fun _ _ => true)
    (Method None [(0, dn)] [] true (sts [SBlock (sts [SExpr (EMy 1 dn)]); SExpr (EMy 2 dn); SExpr (EUse 3 dx)])) 0
  = Fail (Redeclaration dn).
Proof. vm_compute. reflexivity. Qed.
Example C66_ex_switch :
  exists o, check_method [] (bytes "Foo") (fun _ _ => true)
    (Method None [] [] true (sts [SSwitch (EMy 1 dx) (CCons BNil CNil); SExpr (EUse 2 dx)])) 0 = Good o
    /\ written o = [(1, Local (User 1)); (2, Local (User 1))].
Proof. eexists. vm_compute. split; reflexivity. Qed.
Example C66_ex_if :
  check_method [] (bytes "Foo") (fun _ _ => true)
    (Method None [] [] true (sts [SIf true (EMy 1 dx) (sts [SExpr (EUse 2 dx)]) LNone; SExpr (EUse 3 dx)])) 0
  = Fail (Not_found dx).
Proof. vm_compute. reflexivity. Qed.
(** $Bar::x is the class variable even though $x is a local variable; without
    access it is an error. *)
Example C66_ex_class_var :
  (exists o, check_method f_classes (bytes "Foo") (fun _ _ => true)
    (Method None [(0, dx)] [] true (sts [SExpr (EUse 1 (bytes "$Bar::x"))])) 0 = Good o
    /\ written o = [(0, Local (User 0)); (1, ClassVar (bytes "Bar") dx)])
  /\ check_method f_classes (bytes "Foo") (fun _ _ => false)
    (Method None [(0, dx)] [] true (sts [SExpr (EUse 1 (bytes "$Bar::x"))])) 0 = Fail (No_access (bytes "Bar") dx).
Proof. split; [eexists; vm_compute; split; reflexivity | vm_compute; reflexivity]. Qed.
(** An anonymous method: the captured variables hide class variables, and come
    from $self. *)
Example C66_ex_capture :
  exists o, check_method f_classes (bytes "Foo") (fun _ _ => true)
    (Method (Some 0) [(1, dn)] [(2, 3, dC); (4, 5, dx)] false (sts [SExpr (EOp (EUse 6 dC) (EUse 7 dx))])) 0 = Good o
    /\ written o = [(0, Local (User 0)); (1, Local (User 1)); (5, Local (User 0)); (4, Local (User 4));
                    (3, Local (User 0)); (2, Local (User 2)); (6, Local (User 2)); (7, Local (User 4))].
Proof. eexists. vm_compute. split; reflexivity. Qed.

Print Assumptions C66_accepts_partial.
Print Assumptions C66_meaning_partial.
Print Assumptions C66_first_error_partial.
Print Assumptions C66_added_variables_partial.
Print Assumptions C66_unique.
