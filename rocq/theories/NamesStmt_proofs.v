(** * Proofs about variable names: statements and methods *)
From Coq Require Import Lia.
From Verif Require Import Base CLib Dec Type_model Dispatch_model Names_model Names_spec Names_proofs NamesSim_proofs.
Local Open Scope Z_scope.

Scheme stmt_mind := Induction for stmt Sort Prop
  with stmts_mind := Induction for stmts Sort Prop
  with els_mind := Induction for els Sort Prop
  with cases_mind := Induction for cases Sort Prop.
Combined Scheme source_mind from stmt_mind, stmts_mind, els_mind, cases_mind.

Section Stmts.
  Variable cs : classes.
  Variable current : name.
  Variable accessible : name -> name -> bool.
  Notation sim_at := (sim_at cs current accessible).
  Notation simP := (simP cs current accessible).
  Notation any := (fun _ : scopes => True).

  Lemma app_sim es1 u1 es2 u2 : simP any es1 u1 -> simP any es2 u2 -> simP any (es1 ++ es2) (u1 ++ u2).
  Proof. apply sim_app, stable_any. Qed.
  Lemma block_sim es u : simP any es u -> simP any (FO :: es ++ [FC]) (block u).
  Proof. apply sim_block, shared_any. Qed.

  Lemma names_ok_block es : names_ok (block es) -> names_ok es.
  Proof. intros H e x I. apply H. right. apply in_app_iff. now left. Qed.

  Lemma not_sim n t u : simP any (fevents t) u -> simP any (fevents (build_not n t)) u.
  Proof.
    intros H. eapply sim_cast; [| symmetry; apply app_nil_r | eapply (sim_logical _ _ _ n _ _ [] [] _ H (sim_nil _ _ _ _))].
    - unfold build_not, build_if. cbn [TList fevents]. unfold tmp_my. cbn [fevents app]. f_equal.
      rewrite !fevents_as_block. cbn [TList fevents assign as_block app].
      rewrite <- !app_assoc. reflexivity.
    - repeat (apply Forall_cons; [try apply own_tmp; apply own_flag |]). apply Forall_nil.
  Qed.

  Definition is_block (t : tree) : Prop := match t with TBlock ns _ => ns = false | _ => True end.
  Definition inner (t : tree) : list fev := match t with TBlock _ t => fevents t | t => fevents t end.
  Lemma fevents_as_scope t : fevents (as_block false t) = FO :: inner t ++ [FC].
  Proof. now destruct t. Qed.

  Lemma foreach_sim n l x ta ua tb ub :
    is_hidden x = false -> simP any (fevents ta) ua -> simP any (fevents tb) ub ->
    simP any (fevents (build_foreach n (TVar true (User l) x) ta tb)) (block (ua ++ block (block (Decl l x :: ub)))).
  Proof.
    intros X A B. unfold build_foreach, build_for. cbn [TList fevents assign]. rewrite !app_nil_r.
    apply block_sim. rewrite <- !app_assoc. cbn [app].
    intros sc G _. apply sim_at_app; [now apply A |]. intros sc1 G1 _.
    destruct sc1 as [| s1 sc1]; [now destruct (proj1 G1) |].
    set (a := (array_name, Hidden n Array)). set (b := (length_name, Hidden n Length)).
    set (c := (tmp_name n, Hidden n Tmp)).
    apply sim_at_hidden_decl; [reflexivity | reflexivity | assumption |]. fold a.
    assert (G2 : good ((a :: s1) :: sc1)) by (apply good_add; [assumption | reflexivity]).
    apply sim_at_hidden_use; [reflexivity | cbn; reflexivity |].
    apply sim_at_hidden_decl; [reflexivity | reflexivity | assumption |]. fold b.
    assert (G3 : good ((b :: a :: s1) :: sc1)) by (apply good_add; [assumption | reflexivity]).
    match goal with |- NamesSim_proofs.sim_at _ _ _ ?es _ _ =>
      replace es with (FO :: (FD (Hidden n Tmp) (tmp_name n) :: FU (Hidden n Tmp) (tmp_name n)
        :: FU (Hidden n Length) length_name
        :: (FO :: (FU (Hidden n Array) array_name :: FU (Hidden n Tmp) (tmp_name n) :: FD (User l) x :: fevents tb) ++ [FC])
           ++ [FU (Hidden n Tmp) (tmp_name n)]) ++ [FC])
        by (unfold tmp_my, tmp_use; cbn [fevents app]; rewrite <- !app_assoc; reflexivity) end.
    apply (sim_at_block _ _ _ _ _ _ G3).
    assert (G4 : good ([] :: (b :: a :: s1) :: sc1)) by now apply good_open.
    apply sim_at_hidden_decl; [reflexivity | reflexivity | assumption |]. fold c.
    assert (G5 : good ([c] :: (b :: a :: s1) :: sc1)) by (apply good_add; [assumption | reflexivity]).
    assert (T : forall sc, good sc -> has_tmp n sc -> search (concat sc) (tmp_name n) = Some (Hidden n Tmp)).
    { intros sc0 G0 I0. apply search_unique; [apply G0 | apply tmp_unique | exact I0]. }
    apply sim_at_hidden_use; [reflexivity | apply T; [assumption | now left] |].
    apply sim_at_hidden_use; [reflexivity | |].
    { unfold c. cbn [concat app search].
      destruct (name_eqb length_name (tmp_name n)) eqn:E; [apply name_eqb_iff in E; discriminate E |]. reflexivity. }
    rewrite <- (app_nil_r (block _)).
    apply sim_at_app.
    - apply (sim_at_block _ _ _ _ _ _ G5).
      assert (G6 : good ([] :: [c] :: (b :: a :: s1) :: sc1)) by now apply good_open.
      apply sim_at_hidden_use; [reflexivity | |].
      { unfold c. cbn [concat app search].
        destruct (name_eqb array_name (tmp_name n)) eqn:E; [apply name_eqb_iff in E; discriminate E |]. reflexivity. }
      apply sim_at_hidden_use; [reflexivity | apply T; [assumption | now left] |].
      apply (sim_at_app _ _ _ [_] [_]); [now apply (sim_decl _ _ _ any) |].
      intros sc' G' _. now apply B.
    - intros sc' G' X'. apply (sim_at_own _ _ _ n); [repeat constructor | assumption |].
      apply (ext_in _ _ _ X'). now left.
  Qed.

  Lemma build_sim :
    (forall s n, names_ok (stmt_events s) -> simP any (fevents (fst (build_stmt s n))) (stmt_events s))
    /\ (forall b n, names_ok (stmts_events b) -> simP any (fevents (fst (build_stmts b n))) (stmts_events b))
    /\ (forall r n, names_ok (els_events r) -> simP any (inner (fst (build_els r n))) (els_events r))
    /\ (forall c n, names_ok (cases_events c) -> simP any (fevents (fst (build_cases c n))) (cases_events c)).
  Proof.
    apply source_mind.
    - intros e n N. now apply build_expr_sim.
    - intros b IH n N. cbn [build_stmt stmt_events] in *. apply names_ok_block in N. specialize (IH n N).
      destruct (build_stmts b n) as [tb n1]. now apply block_sim.
    - intros unl c b IHb r IHr n N. cbn [build_stmt stmt_events] in *. apply names_ok_block in N.
      apply names_ok_app in N. destruct N as [Nc N]. apply names_ok_app in N. destruct N as [Nb Nr].
      apply names_ok_block in Nb. apply names_ok_block in Nr.
      pose proof (build_expr_sim cs current accessible c n Nc) as Sc. destruct (build_expr c n) as [tc n1].
      specialize (IHb n1 Nb). destruct (build_stmts b n1) as [tb n2].
      specialize (IHr n2 Nr). destruct (build_els r n2) as [tr n3].
      destruct (if unl then _ else _) as [tc' n4] eqn:E. cbn [fst] in *.
      assert (Sc' : simP any (fevents tc') (expr_events c)).
      { destruct unl; inversion E; subst; [now apply not_sim | assumption]. }
      cbn [fevents]. apply block_sim. unfold build_if. cbn [TList fevents]. rewrite !fevents_as_scope, app_nil_r.
      apply app_sim; [assumption |]. apply app_sim; now apply block_sim.
    - intros c b IHb n N. cbn [build_stmt stmt_events] in *. apply names_ok_block in N.
      apply names_ok_app in N. destruct N as [Nc Nb]. apply names_ok_block in Nb.
      pose proof (build_expr_sim cs current accessible c n Nc) as Sc. destruct (build_expr c n) as [tc n1].
      specialize (IHb n1 Nb). destruct (build_stmts b n1) as [tb n2]. cbn [fst] in *.
      unfold build_for. cbn [TList fevents app]. apply block_sim. rewrite app_nil_r.
      apply app_sim; [assumption |]. now apply block_sim.
    - intros i c u b IHb n N. cbn [build_stmt stmt_events] in *. apply names_ok_block in N.
      apply names_ok_app in N. destruct N as [Ni N]. apply names_ok_app in N. destruct N as [Nc N].
      apply names_ok_app in N. destruct N as [Nb Nu]. apply names_ok_block in Nb.
      pose proof (build_expr_sim cs current accessible i n Ni) as Si. destruct (build_expr i n) as [ti n1].
      pose proof (build_expr_sim cs current accessible c n1 Nc) as Sc. destruct (build_expr c n1) as [tc n2].
      pose proof (build_expr_sim cs current accessible u n2 Nu) as Su. destruct (build_expr u n2) as [tu n3].
      specialize (IHb n3 Nb). destruct (build_stmts b n3) as [tb n4]. cbn [fst] in *.
      unfold build_for. cbn [TList fevents]. rewrite app_nil_r. apply block_sim.
      apply app_sim; [assumption |]. apply app_sim; [assumption |].
      apply (app_sim (FO :: fevents tb ++ [FC])); [now apply block_sim | assumption].
    - intros l x arr b IHb n N. cbn [build_stmt stmt_events] in *. apply names_ok_block in N.
      apply names_ok_app in N. destruct N as [Na N]. apply names_ok_block in N. apply names_ok_block in N.
      pose proof (build_expr_sim cs current accessible arr n Na) as Sa. destruct (build_expr arr n) as [ta n1].
      assert (Nb : names_ok (stmts_events b)) by (intros e y I; apply N; now right).
      specialize (IHb n1 Nb). destruct (build_stmts b n1) as [tb n2]. cbn [fst] in *.
      apply foreach_sim; [| assumption | assumption].
      apply (N (Decl l x) x); [now left | reflexivity].
    - intros c cc IHc n N. cbn [build_stmt stmt_events] in *.
      apply names_ok_app in N. destruct N as [Nc Nb]. apply names_ok_block in Nb.
      pose proof (build_expr_sim cs current accessible c n Nc) as Sc. destruct (build_expr c n) as [tc n1].
      specialize (IHc n1 Nb). destruct (build_cases cc n1) as [tb n2]. cbn [fst] in *.
      cbn [fevents]. apply app_sim; [assumption |]. now apply block_sim.
    - intros b IH n N. cbn [build_stmt stmt_events] in *. apply names_ok_block in N. specialize (IH n N).
      destruct (build_stmts b n) as [tb n1]. now apply block_sim.
    - intros n N. apply sim_nil.
    - intros s IHs b IHb n N. cbn [build_stmts stmts_events] in *. apply names_ok_app in N.
      specialize (IHs n (proj1 N)). destruct (build_stmt s n) as [ts n1].
      specialize (IHb n1 (proj2 N)). destruct (build_stmts b n1) as [tb n2]. now apply app_sim.
    - intros n N. apply sim_nil.
    - intros b IH n N. cbn [build_els els_events] in *. specialize (IH n N).
      destruct (build_stmts b n) as [tb n1]. exact IH.
    - intros c b IHb r IHr n N. cbn [build_els els_events] in *.
      apply names_ok_app in N. destruct N as [Nc N]. apply names_ok_app in N. destruct N as [Nb Nr].
      apply names_ok_block in Nb. apply names_ok_block in Nr.
      pose proof (build_expr_sim cs current accessible c n Nc) as Sc. destruct (build_expr c n) as [tc n1].
      specialize (IHb n1 Nb). destruct (build_stmts b n1) as [tb n2].
      specialize (IHr n2 Nr). destruct (build_els r n2) as [tr n3]. cbn [fst] in *.
      unfold build_if. cbn [inner TList fevents]. rewrite !fevents_as_scope, app_nil_r.
      apply app_sim; [assumption |]. apply app_sim; now apply block_sim.
    - intros n N. apply sim_nil.
    - intros b IHb c IHc n N. cbn [build_cases cases_events] in *. apply names_ok_app in N. destruct N as [Nb Nc].
      apply names_ok_block in Nb. specialize (IHb n Nb). destruct (build_stmts b n) as [tb n1].
      specialize (IHc n1 Nc). destruct (build_cases c n1) as [tc n2]. cbn [fst] in *.
      cbn [fevents]. apply (app_sim (FO :: fevents tb ++ [FC])); [now apply block_sim | assumption].
  Qed.

  (** ** Methods *)
  Lemma decls_sim P (l : list (nat * name)) :
    stable P -> names_ok (map (fun '(k, x) => Decl k x) l) ->
    simP P (fevents (TList (map (fun '(k, x) => TVar true (User k) x) l))) (map (fun '(k, x) => Decl k x) l).
  Proof.
    intros S. induction l as [| [k x] l IH]; intros N; [apply sim_nil |].
    cbn [map TList fevents]. apply (sim_app _ _ _ _ _ [Decl k x]); [assumption | |].
    - apply sim_decl. apply (N (Decl k x) x); [now left | reflexivity].
    - apply IH. intros e y I. apply N. now right.
  Qed.
  Lemma captures_sim P (l : list (nat * nat * name)) :
    stable P -> names_ok (flat_map (fun '(k, ks, x) => [Use ks dollar_self; Decl k x]) l) ->
    simP P (fevents (TList (map (fun '(k, ks, x) => assign (TVar true (User k) x) (TVar false (User ks) self_name)) l)))
           (flat_map (fun '(k, ks, x) => [Use ks dollar_self; Decl k x]) l).
  Proof.
    intros S. induction l as [| [[k ks] x] l IH]; intros N; [apply sim_nil |].
    cbn [map TList fevents assign flat_map]. apply sim_app; [assumption | |].
    - apply (sim_app _ _ _ _ [_] [Use ks dollar_self] [_] [Decl k x]); [assumption | |].
      + apply sim_use. reflexivity.
      + apply sim_decl. apply (N (Decl k x) x); [right; now left | reflexivity].
    - apply IH. intros e y I. apply N. apply in_app_iff. now right.
  Qed.

  Lemma method_run m n :
    names_ok (method_events m) ->
    match frun cs current accessible (map emb (method_events m)) [] with
    | Good (usc, ou) => exists o, frun cs current accessible (fevents (fst (build_method m n))) [] = Good ([], o)
                                  /\ user_out o = ou /\ hidden_ok o
    | Fail e => frun cs current accessible (fevents (fst (build_method m n))) [] = Fail e
    end.
  Proof.
    intros N. unfold method_events in *. apply names_ok_block in N.
    apply names_ok_app in N. destruct N as [Ns N]. apply names_ok_app in N. destruct N as [Na N].
    apply names_ok_app in N. destruct N as [Nc Nb].
    unfold build_method. pose proof (proj1 (proj2 build_sim) (m_body m) n Nb) as SB.
    destruct (build_stmts (m_body m) n) as [tb n1]. cbn [fst] in *.
    cbn [TList fevents]. rewrite app_nil_r. cbn [app].
    set (ret := fevents (if m_void m then TNil else _)).
    set (args := fevents (TList (map (fun '(l, x) => TVar true (User l) x) _))).
    set (caps := fevents (TList (map _ (rev _)))).
    set (ua := match m_self m with Some l => _ | None => _ end).
    assert (SA : simP any args (ua ++ map (fun '(l, x) => Decl l x) (m_args m))).
    { unfold args, ua. eapply sim_cast; [reflexivity | | apply decls_sim; [apply stable_any |]].
      - rewrite map_app. f_equal. now destruct (m_self m).
      - rewrite map_app. apply names_ok_app. split; [| assumption]. now destruct (m_self m). }
    assert (SC : simP any caps (flat_map (fun '(l, ls, x) => [Use ls dollar_self; Decl l x]) (rev (m_captures m)))).
    { apply captures_sim; [apply stable_any | assumption]. }
    assert (SR : simP any ret []).
    { unfold ret. destruct (m_void m); [apply sim_nil |]. intros sc G _.
      destruct sc as [| s sc]; [now destruct (proj1 G) |].
      apply sim_at_hidden_decl; [reflexivity | reflexivity | assumption |].
      apply (sim_nil _ _ _ any); [| exact I]. apply good_add; [assumption | reflexivity]. }
    pose proof (app_sim _ _ _ _ SA (app_sim _ _ _ _ SC (app_sim _ _ _ _ SB SR))) as SS.
    rewrite app_nil_r, <- app_assoc in SS.
    assert (G0 : good [[(flag_name, Flag)]]).
    { split; [discriminate |]. split; [now repeat constructor | now left]. }
    specialize (SS _ G0 I). unfold NamesSim_proofs.sim_at in SS.
    change (proj [[(flag_name, Flag)]]) with [@nil (name * label)] in SS.
    unfold block. cbn [map emb frun]. rewrite map_app, frun_app.
    change (has [] flag_name && negb (is_hidden flag_name)) with false. cbv iota.
    rewrite frun_app. 
    match type of SS with match ?f with _ => _ end => destruct f as [[usc ou] | e] end.
    - destruct SS as (sc' & o & R & E & G & (s0 & a & tl & Q & ->) & O & K). inversion Q; subst s0 tl.
      rewrite R. subst usc. cbn [proj map emb frun add_out].
      exists ((Flag, Local Flag) :: o). split; [cbn; now rewrite app_nil_r |].
      split; [rewrite app_nil_r; exact O |]. intros l t [J | J]; [inversion J; reflexivity | now apply K].
    - rewrite SS. reflexivity.
  Qed.
End Stmts.
