(** * Proofs about variable names: names with colons, and the numbers of added variables *)
From Coq Require Import Lia.
From Verif Require Import Base CLib Dec Type_model Dispatch_model Names_model Names_spec Names_proofs
  NamesSim_proofs NamesStmt_proofs NamesRef_proofs NamesMain_proofs.
Local Open Scope nat_scope.

(** ** The written variables of a tree are those of the source *)
Fixpoint tvars (t : tree) : list (bool * label * name) :=
  match t with
  | TNil => []
  | TVar d l x => [(d, l, x)]
  | TPair t u => tvars t ++ tvars u
  | TBlock _ t => tvars t
  end.
Definition wdecls (t : tree) : list (label * name) :=
  flat_map (fun '(d, l, x) => if d : bool then [(l, x)] else []) (tvars t).
Lemma wdecls_pair t u : wdecls (TPair t u) = wdecls t ++ wdecls u.
Proof. unfold wdecls. cbn [tvars]. apply flat_map_app. Qed.
Lemma wdecls_block b t : wdecls (TBlock b t) = wdecls t.
Proof. reflexivity. Qed.
Lemma wdecls_as_block b t : wdecls (as_block b t) = wdecls t.
Proof. now destruct t. Qed.
Lemma wdecls_if c t f b : wdecls (build_if c t f b) = wdecls c ++ wdecls t ++ wdecls f.
Proof. unfold build_if. cbn [TList]. rewrite !wdecls_pair, !wdecls_as_block. cbn. now rewrite app_nil_r. Qed.

Lemma colons_wdecls t : colons t = existsb (fun p => strstr (snd p) (bytes "::")) (wdecls t).
Proof.
  induction t as [| d l x | t IHt u IHu | b t IH]; cbn [colons].
  - reflexivity.
  - destruct d; cbn; [now rewrite Bool.orb_false_r | reflexivity].
  - now rewrite wdecls_pair, existsb_app, IHt, IHu.
  - exact IH.
Qed.
Lemma declarations_wdecls t : declarations t = map fst (wdecls t).
Proof.
  induction t as [| d l x | t IHt u IHu | b t IH]; cbn [declarations].
  - reflexivity.
  - now destruct d.
  - now rewrite wdecls_pair, map_app, IHt, IHu.
  - exact IH.
Qed.

Definition decls_of (es : list event) : list (label * name) :=
  flat_map (fun e => match e with Decl l x => [(User l, x)] | _ => [] end) es.
Lemma decls_of_app a b : decls_of (a ++ b) = decls_of a ++ decls_of b.
Proof. apply flat_map_app. Qed.
Lemma decls_of_block a : decls_of (block a) = decls_of a.
Proof. unfold block. cbn. rewrite decls_of_app. cbn. apply app_nil_r. Qed.

(** The declarations of a tree: permutations of the written ones and others. *)
Definition range (n n' : nat) (l : label) : Prop :=
  match l with Hidden k _ => n <= k < n' | _ => False end.
Record fine (n n' : nat) (t : tree) (es : list event) : Prop := {
  fine_le : n <= n';
  fine_user : forall l x, In (User l, x) (wdecls t) <-> In (Decl l x) es;
  fine_names : forall l x, In (l, x) (wdecls t) -> is_user l = false -> label_name l x;
  fine_range : forall l, In l (declarations t) -> added l = true -> range n n' l;
  fine_nodup : NoDup (filter added (declarations t))
}.

Lemma nodup_app {A} (a b : list A) : NoDup a -> NoDup b -> (forall x, In x a -> ~ In x b) -> NoDup (a ++ b).
Proof.
  induction 1 as [| x a N ND IH]; intros B D; [assumption |]. cbn. constructor.
  - intros I. apply in_app_iff in I. destruct I as [I | I]; [auto |]. apply (D x); [now left | assumption].
  - apply IH; [assumption |]. intros y I. apply D. now right.
Qed.
Lemma range_disjoint a b c l : range a b l -> range b c l -> False.
Proof. destruct l; cbn; try tauto. lia. Qed.
Lemma range_weaken a b c d l : a <= b -> c <= d -> range b c l -> range a d l.
Proof. destruct l; cbn; try tauto. lia. Qed.

Lemma fine_nil n : fine n n TNil [].
Proof. split; [lia | cbn; tauto | intros l x [] | intros l [] | constructor]. Qed.
Lemma fine_pair n n1 n2 t u es fs : fine n n1 t es -> fine n1 n2 u fs -> fine n n2 (TPair t u) (es ++ fs).
Proof.
  intros [L1 U1 N1 R1 D1] [L2 U2 N2 R2 D2]. split.
  - lia.
  - intros l x. rewrite wdecls_pair, !in_app_iff, U1, U2. tauto.
  - intros l x I. rewrite wdecls_pair, in_app_iff in I. destruct I; eauto.
  - intros l I A. cbn [declarations] in I. apply in_app_iff in I.
    destruct I as [I | I]; [apply (range_weaken n n n1 n2); auto | apply (range_weaken n n1 n2 n2); auto].
  - cbn [declarations]. rewrite filter_app. apply nodup_app; [assumption | assumption |].
    intros l I J. apply filter_In in I. apply filter_In in J.
    apply (range_disjoint n n1 n2 l); [apply R1 | apply R2]; tauto.
Qed.
(** The same declarations in another order, seen as other events. *)
Lemma fine_cast n n' t es t' es' :
  fine n n' t es -> wdecls t' = wdecls t -> (forall l x, In (Decl l x) es' <-> In (Decl l x) es) -> fine n n' t' es'.
Proof.
  intros [L U N R D] E Q. split.
  - assumption.
  - intros l x. rewrite E, U, Q. tauto.
  - intros l x. rewrite E. apply N.
  - intros l. rewrite declarations_wdecls, E, <- declarations_wdecls. apply R.
  - rewrite declarations_wdecls, E, <- declarations_wdecls. assumption.
Qed.
Lemma fine_swap n n1 n2 t u es fs : fine n n1 t es -> fine n1 n2 u fs -> fine n n2 (TPair u t) (fs ++ es).
Proof.
  intros [L1 U1 N1 R1 D1] [L2 U2 N2 R2 D2]. split.
  - lia.
  - intros l x. rewrite wdecls_pair, !in_app_iff, U1, U2. tauto.
  - intros l x I. rewrite wdecls_pair, in_app_iff in I. destruct I; eauto.
  - intros l I A. cbn [declarations] in I. apply in_app_iff in I.
    destruct I as [I | I]; [apply (range_weaken n n1 n2 n2); auto | apply (range_weaken n n n1 n2); auto].
  - cbn [declarations]. rewrite filter_app. apply nodup_app; [assumption | assumption |].
    intros l I J. apply filter_In in I. apply filter_In in J.
    apply (range_disjoint n n1 n2 l); [apply R1 | apply R2]; tauto.
Qed.
(** A temporary variable before the operands, with a higher number. *)
Lemma fine_tmp n n' t es t' : fine n n' t es -> wdecls t' = (Hidden n' Tmp, tmp_name n') :: wdecls t -> fine n (S n') t' es.
Proof.
  intros [L U N R D] E. assert (ED : declarations t' = Hidden n' Tmp :: declarations t).
  { rewrite !declarations_wdecls, E. reflexivity. }
  split.
  - lia.
  - intros l x. rewrite E. cbn [In]. rewrite U. intuition discriminate.
  - intros l x. rewrite E. intros [I | I]; [inversion I; subst; reflexivity | eauto].
  - intros l. rewrite ED. intros [<- | I] A; [cbn; lia |]. apply (range_weaken n n n' (S n')); auto.
  - rewrite ED. cbn. constructor; [| assumption]. intros I. apply filter_In in I.
    destruct I as [I A]. apply R in I; [| assumption]. cbn in I. lia.
Qed.

Lemma fine_not n n' t es : fine n n' t es -> fine n (S n') (build_not n' t) es.
Proof.
  intros H. apply (fine_tmp n n' t); [assumption |].
  unfold build_not. cbn [TList]. rewrite !wdecls_pair, wdecls_if. unfold assign. rewrite !wdecls_pair. cbn.
  now rewrite !app_nil_r.
Qed.

Lemma fine_expr e : forall n, fine n (snd (build_expr e n)) (fst (build_expr e n)) (expr_events e).
Proof.
  induction e as [| l x | l x | a IHa b IHb | d IHd s IHs | a IHa b IHb | a IHa b IHb | a IHa]; intros n; cbn [build_expr]; cbn [fst snd].
  - apply fine_nil.
  - split; [lia | cbn; intuition discriminate | intros ? ? [] | intros ? [] | constructor].
  - split; cbn; [lia | | | | constructor].
    + intros l' x'. intuition congruence.
    + intros l' x' [E | []]. inversion E; subst. discriminate.
    + intros l' [<- | []]. discriminate.
  - specialize (IHa n). destruct (build_expr a n) as [ta n1]. specialize (IHb n1). destruct (build_expr b n1) as [tb n2].
    cbn [fst snd] in *. eapply fine_pair; eassumption.
  - specialize (IHd n). destruct (build_expr d n) as [td n1]. specialize (IHs n1). destruct (build_expr s n1) as [ts n2].
    cbn [fst snd] in *. eapply fine_swap; eassumption.
  - specialize (IHa n). destruct (build_expr a n) as [ta n1]. specialize (IHb n1). destruct (build_expr b n1) as [tb n2].
    cbn [fst snd] in *. apply (fine_tmp n n2 (TPair ta tb)); [eapply fine_pair; eassumption |].
    unfold build_and. cbn [TList]. rewrite !wdecls_pair, !wdecls_if. unfold assign. rewrite !wdecls_pair. cbn.
    now rewrite !app_nil_r.
  - specialize (IHa n). destruct (build_expr a n) as [ta n1]. specialize (IHb n1). destruct (build_expr b n1) as [tb n2].
    cbn [fst snd] in *. apply (fine_tmp n n2 (TPair ta tb)); [eapply fine_pair; eassumption |].
    unfold build_or. cbn [TList]. rewrite !wdecls_pair, !wdecls_if. unfold assign. rewrite !wdecls_pair. cbn.
    now rewrite !app_nil_r.
  - specialize (IHa n). destruct (build_expr a n) as [ta n1]. cbn [fst snd] in *. now apply fine_not.
Qed.

Lemma fine_block n n' b t es : fine n n' t es -> fine n n' (TBlock b t) (block es).
Proof.
  intros H. apply (fine_cast n n' t es); [assumption | reflexivity |].
  intros l x. unfold block. cbn [In]. rewrite in_app_iff. cbn [In]. intuition discriminate.
Qed.

(** Two trees with ranges in any order. *)
Definition apart (n n' : nat) (t u : tree) es fs := exists n1,
  n <= n1 <= n' /\ ((fine n n1 t es /\ fine n1 n' u fs) \/ (fine n1 n' t es /\ fine n n1 u fs)).
Lemma fine_apart n n' t u es fs : apart n n' t u es fs -> fine n n' (TPair t u) (es ++ fs).
Proof.
  intros (n1 & L & [[A B] | [A B]]); [eapply fine_pair; eassumption | eapply fine_swap; eassumption].
Qed.

Lemma in_block l x es : In (Decl l x) (block es) <-> In (Decl l x) es.
Proof. unfold block. cbn [In]. rewrite in_app_iff. cbn [In]. intuition discriminate. Qed.

Lemma fine_foreach n0 n l x ta ua n1 tb ub :
  fine n0 n1 ta ua -> fine n1 n tb ub ->
  fine n0 (S n) (build_foreach n (TVar true (User l) x) ta tb) (block (ua ++ block (block (Decl l x :: ub)))).
Proof.
  intros A B. pose proof (fine_pair _ _ _ _ _ _ _ A B) as [L U N R D].
  assert (E : forall p, In p (wdecls (build_foreach n (TVar true (User l) x) ta tb)) <->
     (p = (Hidden n Array, array_name) \/ p = (Hidden n Length, length_name) \/ p = (Hidden n Tmp, tmp_name n)
      \/ p = (User l, x)) \/ In p (wdecls (TPair ta tb))).
  { intros p. unfold build_foreach, build_for, assign. cbn [TList]. rewrite wdecls_block, !wdecls_pair, !wdecls_block, !wdecls_pair.
    rewrite !wdecls_block, !wdecls_pair, !in_app_iff. cbn. intuition congruence. }
  assert (ED : filter added (declarations (build_foreach n (TVar true (User l) x) ta tb))
    = filter added (declarations ta) ++ Hidden n Array :: Hidden n Length :: Hidden n Tmp :: filter added (declarations tb)).
  { unfold build_foreach, build_for, assign. cbn [TList declarations app].
    rewrite !filter_app. cbn. rewrite <- app_assoc. f_equal. cbn. rewrite !filter_app. cbn. now rewrite !app_nil_r. }
  split.
  - lia.
  - intros k y. rewrite E, U, in_block, !in_app_iff, !in_block. cbn [In].
    intuition (try discriminate); try congruence.
  - intros k y I K. apply E in I. destruct I as [[I | [I | [I | I]]] | I];
      try (inversion I; subst; reflexivity || discriminate). now apply N.
  - intros k I K. rewrite declarations_wdecls in I. apply in_map_iff in I. destruct I as ((k' & y) & <- & I).
    apply E in I. cbn [fst] in *. destruct I as [[I | [I | [I | I]]] | I];
      try (inversion I; subst; cbn; lia || discriminate).
    apply (range_weaken n0 n0 n (S n)); [lia | lia |]. apply R; [| assumption].
    rewrite declarations_wdecls. apply in_map_iff. exists (k', y). auto.
  - rewrite ED. cbn [declarations] in D. rewrite filter_app in D.
    assert (NI : forall r, ~ In (Hidden n r) (filter added (declarations ta) ++ filter added (declarations tb))).
    { intros r I. rewrite <- filter_app in I. apply filter_In in I. destruct I as [I J].
      apply R in I; [| assumption]. cbn in I. lia. }
    assert (G : forall (a b : list label) y, NoDup (a ++ b) -> ~ In y (a ++ b) -> NoDup (a ++ y :: b)).
    { intros a b y. induction a as [| z a IH]; cbn; intros Q W; [now constructor |].
      inversion Q; subst. constructor.
      - rewrite in_app_iff in *. cbn [In]. intuition congruence.
      - apply IH; [assumption | tauto]. }
    apply G; [apply G; [apply G; [assumption |] |] |].
    + apply NI.
    + intros I. apply (NI Length). rewrite in_app_iff in *. cbn [In] in I. intuition discriminate.
    + intros I. apply (NI Array). rewrite in_app_iff in *. cbn [In] in I. intuition discriminate.
Qed.

Lemma fine_source :
  (forall s n, fine n (snd (build_stmt s n)) (fst (build_stmt s n)) (stmt_events s))
  /\ (forall b n, fine n (snd (build_stmts b n)) (fst (build_stmts b n)) (stmts_events b))
  /\ (forall r n, fine n (snd (build_els r n)) (fst (build_els r n)) (els_events r))
  /\ (forall c n, fine n (snd (build_cases c n)) (fst (build_cases c n)) (cases_events c)).
Proof.
  assert (IF : forall n n1 n2 n3 tc tb tr ec eb er,
    fine n n1 tc ec -> fine n1 n2 tb eb -> fine n2 n3 tr er ->
    fine n n3 (build_if tc (TBlock false tb) tr false) (ec ++ block eb ++ block er)).
  { intros n n1 n2 n3 tc tb tr ec eb er A B C.
    apply (fine_cast n n3 (TPair tc (TPair tb tr)) (ec ++ eb ++ er)).
    - eapply fine_pair; [eassumption |]. eapply fine_pair; eassumption.
    - rewrite wdecls_if, !wdecls_pair. reflexivity.
    - intros l x. rewrite !in_app_iff, !in_block. tauto. }
  apply source_mind.
  - intros e n. apply fine_expr.
  - intros b IH n. cbn [build_stmt stmt_events]. specialize (IH n). destruct (build_stmts b n) as [tb n1].
    cbn [fst snd] in *. now apply fine_block.
  - intros unl c b IHb r IHr n. cbn [build_stmt stmt_events].
    pose proof (fine_expr c n) as Sc. destruct (build_expr c n) as [tc n1].
    specialize (IHb n1). destruct (build_stmts b n1) as [tb n2].
    specialize (IHr n2). destruct (build_els r n2) as [tr n3]. cbn [fst snd] in *.
    destruct unl; cbn [fst snd]; apply fine_block.
    + pose proof (IF _ _ _ _ _ _ _ _ _ _ Sc IHb IHr) as H.
      apply (fine_tmp n n3 _ _ _ H). rewrite !wdecls_if. unfold build_not. cbn [TList].
      rewrite !wdecls_pair, wdecls_if. unfold assign. rewrite !wdecls_pair. cbn. now rewrite !app_nil_r.
    + eapply IF; eassumption.
  - intros c b IHb n. cbn [build_stmt stmt_events].
    pose proof (fine_expr c n) as Sc. destruct (build_expr c n) as [tc n1].
    specialize (IHb n1). destruct (build_stmts b n1) as [tb n2]. cbn [fst snd] in *.
    unfold build_for. apply fine_block. apply (fine_cast n n2 (TPair tc tb) (expr_events c ++ stmts_events b)).
    + eapply fine_pair; eassumption.
    + cbn [TList]. rewrite !wdecls_pair. cbn. now rewrite !app_nil_r.
    + intros l x. rewrite !in_app_iff, in_block. tauto.
  - intros i c u b IHb n. cbn [build_stmt stmt_events].
    pose proof (fine_expr i n) as Si. destruct (build_expr i n) as [ti n1].
    pose proof (fine_expr c n1) as Sc. destruct (build_expr c n1) as [tc n2].
    pose proof (fine_expr u n2) as Su. destruct (build_expr u n2) as [tu n3].
    specialize (IHb n3). destruct (build_stmts b n3) as [tb n4]. cbn [fst snd] in *.
    unfold build_for. apply fine_block.
    apply (fine_cast n n4 (TPair ti (TPair tc (TPair tb tu))) (expr_events i ++ expr_events c ++ stmts_events b ++ expr_events u)).
    + eapply fine_pair; [eassumption |]. eapply fine_pair; [eassumption |]. eapply fine_swap; eassumption.
    + cbn [TList]. rewrite !wdecls_pair. cbn. now rewrite !app_nil_r.
    + intros l x. rewrite !in_app_iff, in_block. tauto.
  - intros l x arr b IHb n. cbn [build_stmt stmt_events].
    pose proof (fine_expr arr n) as Sa. destruct (build_expr arr n) as [ta n1].
    specialize (IHb n1). destruct (build_stmts b n1) as [tb n2]. cbn [fst snd] in *.
    eapply fine_foreach; eassumption.
  - intros c cc IHc n. cbn [build_stmt stmt_events].
    pose proof (fine_expr c n) as Sc. destruct (build_expr c n) as [tc n1].
    specialize (IHc n1). destruct (build_cases cc n1) as [tb n2]. cbn [fst snd] in *.
    eapply fine_pair; [eassumption |]. now apply fine_block.
  - intros b IH n. cbn [build_stmt stmt_events]. specialize (IH n). destruct (build_stmts b n) as [tb n1].
    cbn [fst snd] in *. now apply fine_block.
  - intros n. apply fine_nil.
  - intros s IHs b IHb n. cbn [build_stmts stmts_events]. specialize (IHs n). destruct (build_stmt s n) as [ts n1].
    specialize (IHb n1). destruct (build_stmts b n1) as [tb n2]. cbn [fst snd] in *. eapply fine_pair; eassumption.
  - intros n. apply fine_nil.
  - intros b IH n. cbn [build_els els_events]. specialize (IH n). destruct (build_stmts b n) as [tb n1].
    cbn [fst snd] in *. apply (fine_cast n n1 tb (stmts_events b)); [assumption | reflexivity | tauto].
  - intros c b IHb r IHr n. cbn [build_els els_events].
    pose proof (fine_expr c n) as Sc. destruct (build_expr c n) as [tc n1].
    specialize (IHb n1). destruct (build_stmts b n1) as [tb n2].
    specialize (IHr n2). destruct (build_els r n2) as [tr n3]. cbn [fst snd] in *. eapply IF; eassumption.
  - intros n. apply fine_nil.
  - intros b IHb c IHc n. cbn [build_cases cases_events]. specialize (IHb n). destruct (build_stmts b n) as [tb n1].
    specialize (IHc n1). destruct (build_cases c n1) as [tc n2]. cbn [fst snd] in *.
    eapply fine_pair; [apply fine_block; eassumption | assumption].
Qed.
