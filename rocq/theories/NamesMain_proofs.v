(** * Proofs about variable names: the meaning of every name *)
From Coq Require Import Lia.
From Verif Require Import Base CLib Dec Type_model Dispatch_model Names_model Names_spec Names_proofs
  NamesSim_proofs NamesStmt_proofs NamesRef_proofs.

(** ** Class variables *)
Section ClassVar.
  Local Open Scope Z_scope.
  Lemma strrchr_none l c : forall i last, ~ In c l -> strrchr l c i last = last.
  Proof.
    induction l as [| x l IH]; intros i last N; [reflexivity |]. cbn [strrchr].
    rewrite IH by (intros I; apply N; now right).
    destruct (x =? c) eqn:E; [| reflexivity]. apply Z.eqb_eq in E. subst. exfalso. apply N. now left.
  Qed.
  Lemma strrchr_last a v c : forall i last, ~ In c v -> strrchr (a ++ c :: v) c i last = Some (i + zlen a).
  Proof.
    induction a as [| x a IH]; intros i last N; cbn [app strrchr].
    - rewrite Z.eqb_refl, strrchr_none by assumption. f_equal. unfold zlen. cbn. lia.
    - rewrite IH by assumption. f_equal. rewrite zlen_cons. lia.
  Qed.

  Variable cs : classes.
  Variable current : name.
  Definition lookup_var (c y : name) : result (option (name * name)) :=
    match get_class cs c with
    | Some vs => if get_var vs y then Good (Some (c, y)) else Good None
    | None => Good None
    end.

  Lemma class_var_denotes x c y : denotes current x c y -> class_var cs current x = lookup_var c y.
  Proof.
    unfold class_var. intros [(N & -> & ->) | (v & N & -> & ->)].
    - rewrite strrchr_none by exact N. reflexivity.
    - change (dollar :: c ++ [colon; colon] ++ v) with ((dollar :: c) ++ [58; 58] ++ v).
      replace ((dollar :: c) ++ [58; 58] ++ v) with ((dollar :: c ++ [58]) ++ 58 :: v)
        by (cbn [app]; rewrite <- app_assoc; reflexivity).
      rewrite strrchr_last by exact N.
      replace (0 + zlen (dollar :: c ++ [58])) with (zlen c + 2)
        by (rewrite zlen_cons, zlen_app; unfold zlen; cbn [length]; lia).
      assert (P := zlen_nonneg c).
      replace (zlen c + 2 <? 2) with false by (symmetry; apply Z.ltb_ge; lia).
      replace (zlen c + 2 - 2) with (zlen c) by lia.
      assert (E1 : zsub ((dollar :: c ++ [58]) ++ 58 :: v) 1 (zlen c) = c).
      { unfold zsub. change ((dollar :: c ++ [58]) ++ 58 :: v) with ([dollar] ++ (c ++ [58]) ++ 58 :: v).
        rewrite zdrop_app_r by (unfold zlen; cbn; lia).
        change (1 - zlen [dollar]) with 0. rewrite zdrop_0, <- app_assoc by lia.
        rewrite ztake_app_l by lia. apply ztake_all. lia. }
      assert (E2 : zdrop (zlen c + 2 + 1) ((dollar :: c ++ [58]) ++ 58 :: v) = v).
      { replace ((dollar :: c ++ [58]) ++ 58 :: v) with ((dollar :: c ++ [58; 58]) ++ v)
          by (cbn [app]; rewrite <- !app_assoc; reflexivity).
        assert (L : zlen (dollar :: c ++ [58; 58]) = zlen c + 2 + 1)
          by (rewrite zlen_cons, zlen_app; unfold zlen; cbn [length]; lia).
        rewrite zdrop_app_r by lia. apply zdrop_0. lia. }
      rewrite E1, E2. reflexivity.
  Qed.
  Lemma denotes_exists x : source_name x -> exists c y, denotes current x c y.
  Proof.
    intros (y & -> & _ & C). destruct (in_dec Z.eq_dec colon y) as [I | I].
    - destruct (C I) as (c & v & -> & N). exists c, (dollar :: v). right. exists v. auto.
    - exists current, (dollar :: y). left. split; [| auto]. intros [Q | Q]; [discriminate | auto].
  Qed.
  Lemma get_var_iff vs y : get_var vs y = true <-> In y vs.
  Proof.
    induction vs as [| z vs IH]; cbn; [split; [discriminate | tauto] |].
    destruct (name_eqb z y) eqn:E.
    - apply name_eqb_iff in E. tauto.
    - rewrite IH. split; [tauto |]. intros [-> | I]; [rewrite name_eqb_rf in E; discriminate | assumption].
  Qed.
  Lemma get_class_iff c vs : classes_ok cs -> (get_class cs c = Some vs <-> In (c, vs) cs).
  Proof.
    unfold classes_ok. induction cs as [| [c' vs'] l IH]; cbn; intros N; [split; [discriminate | tauto] |].
    inversion N as [| ? ? N1 N2]; subst. destruct (name_eqb c' c) eqn:E.
    - apply name_eqb_iff in E. subst c'. split; [intros Q; inversion Q; auto |].
      intros [Q | I]; [congruence |]. exfalso. apply N1. now apply (in_map fst) in I.
    - rewrite (IH N2). split; [tauto |].
      intros [Q | I]; [inversion Q; subst; rewrite name_eqb_rf in E; discriminate | assumption].
  Qed.
  Lemma lookup_var_spec c y : classes_ok cs ->
    (defined cs c y /\ lookup_var c y = Good (Some (c, y))) \/ (~ defined cs c y /\ lookup_var c y = Good None).
  Proof.
    intros K. unfold lookup_var. destruct (get_class cs c) as [vs |] eqn:G.
    - apply get_class_iff in G; [| assumption]. destruct (get_var vs y) eqn:V.
      + left. apply get_var_iff in V. split; [exists vs; auto | reflexivity].
      + right. split; [| reflexivity]. intros (vs' & I & J).
        apply (get_class_iff c vs K) in G. apply (get_class_iff c vs' K) in I.
        assert (vs' = vs) by congruence. subst. apply get_var_iff in J. congruence.
    - right. split; [| reflexivity]. intros (vs' & I & J). apply (get_class_iff c vs' K) in I. congruence.
  Qed.
  (** A name denotes one class variable. *)
  Lemma denotes_unique x c y c' y' : denotes current x c y -> denotes current x c' y' -> c = c' /\ y = y'.
  Proof.
    intros [(N & -> & ->) | (v & N & -> & ->)] [(N' & -> & ->) | (v' & N' & E & ->)].
    - auto.
    - exfalso. apply N. rewrite E. right. apply in_app_iff. right. now left.
    - exfalso. apply N'. right. apply in_app_iff. right. now left.
    - injection E as E. 
      assert (L : forall (a b : name) p q, ~ In colon p -> ~ In colon q -> a ++ colon :: p = b ++ colon :: q -> a = b /\ p = q).
      { intros a b p q P Q H.
        assert (S1 := strrchr_last a p colon 0 None P). assert (S2 := strrchr_last b q colon 0 None Q).
        rewrite H in S1. rewrite S1 in S2. inversion S2 as [Lq].
        assert (LL : length a = length b) by (unfold zlen in Lq; lia).
        assert (Ta : a = firstn (length a) (a ++ colon :: p)) by (rewrite firstn_app, Nat.sub_diag, firstn_all; cbn; now rewrite app_nil_r).
        assert (Tb : b = firstn (length b) (b ++ colon :: q)) by (rewrite firstn_app, Nat.sub_diag, firstn_all; cbn; now rewrite app_nil_r).
        assert (a = b) by (rewrite Ta, Tb, H, LL; reflexivity). subst. split; [reflexivity |].
        apply app_inv_head in H. congruence. }
      change (c ++ colon :: colon :: v) with (c ++ [colon] ++ colon :: v) in E.
      change (c' ++ colon :: colon :: v') with (c' ++ [colon] ++ colon :: v') in E.
      rewrite !app_assoc in E. apply L in E; try assumption. destruct E as [E ->].
      apply app_inj_tail in E. destruct E as [-> _]. auto.
  Qed.
End ClassVar.

Lemma source_name_user x : source_name x -> is_hidden x = false.
Proof.
  intros (y & -> & D & _). unfold is_hidden. change (bytes "$.") with [36; 46]%Z.
  destruct y as [| c y]; [reflexivity |]. cbn [is_prefix].
  replace (46 =? c)%Z with false; [now rewrite Bool.andb_comm |].
  symmetry. apply Z.eqb_neq. intros <-. now destruct (D y).
Qed.

(** ** The run over the written variables *)
Section Main.
  Variable cs : classes.
  Variable current : name.
  Variable accessible : name -> name -> bool.
  Hypothesis cs_ok : classes_ok cs.
  Notation frun := (frun cs current accessible).
  Notation means := (means cs current accessible).
  Notation wrong := (wrong cs current accessible).

  Lemma decl_run pre s sc x :
    depth 0 pre <> None -> st pre = s :: sc ->
    (has s x = true <-> declared_in_block pre x).
  Proof.
    intros D E. pose proof (has_block pre 0 x D) as H. rewrite E in H. cbn [nth] in H. rewrite H.
    unfold in_block_d, declared_in_block, same_block. split.
    - intros (p1 & p2 & k & Q & V & C). exists p1, p2, k. rewrite Nat.add_0_r in C. auto.
    - intros (p1 & p2 & k & Q & V & C). exists p1, p2, k. rewrite Nat.add_0_r. auto.
  Qed.

  Lemma use_run pre l x :
    depth 0 pre <> None -> source_name x ->
    match fresolve cs current accessible x (st pre) with
    | Good t => means pre (Use l x) (l, t) /\ (forall er, ~ wrong pre (Use l x) er)
    | Fail er => wrong pre (Use l x) er
    end.
  Proof.
    intros D X. unfold fresolve.
    pose proof (fun k => search_refers pre 0 x k D) as R. cbn [skipn] in R.
    destruct (search (concat (st pre)) x) as [d |] eqn:S.
    - pose proof (search_In _ _ _ S) as I. pose proof (st_user pre) as U. rewrite Forall_forall in U.
      specialize (U _ I). destruct d as [k | | |]; try discriminate U.
      assert (RR : refers pre x k) by (apply refers_d_0, R; reflexivity).
      split; [now constructor |].
      assert (V : exists k', visible pre x k') by (apply visible_refers; eauto). destruct V as (k' & V).
      intros er W. inversion W; subst; eapply H1; eassumption.
    - assert (NV : forall k, ~ visible pre x k).
      { intros k V. assert (E : exists k', refers pre x k') by (apply visible_refers; eauto).
        destruct E as (k' & E). apply refers_d_0, R in E. discriminate. }
      destruct (denotes_exists current x X) as (c & y & DN).
      rewrite (class_var_denotes cs current x c y DN).
      destruct (lookup_var_spec cs c y cs_ok) as [(DF & ->) | (DF & ->)].
      + destruct (accessible c y) eqn:A.
        * split; [econstructor; eassumption |]. intros er W. inversion W; subst.
          -- match goal with H : forall c y, denotes _ _ c y -> ~ _ |- _ => exact (H c y DN DF) end.
          -- match goal with H : denotes current x ?a ?b, K : accessible ?a ?b = false |- _ =>
               destruct (denotes_unique current x c y a b DN H) as [-> ->]; congruence end.
        * econstructor; eassumption.
      + constructor; [assumption |]. intros c' y' DN'.
        destruct (denotes_unique current x c y c' y' DN DN') as [<- <-]. assumption.
  Qed.

  Lemma run_spec es : forall pre d,
    depth 0 pre = Some d -> depth d es <> None -> source_names es ->
    match frun (map emb es) (st pre) with
    | Good (sc', o) =>
        length o = count is_var es /\
        (forall a e b, es = a ++ e :: b -> forall er, ~ wrong (pre ++ a) e er) /\
        (forall a e b, es = a ++ e :: b -> is_var e = true ->
          exists r, nth_error o (count is_var a) = Some (User (fst r), snd r) /\ means (pre ++ a) e r)
    | Fail er =>
        exists a e b, es = a ++ e :: b /\ wrong (pre ++ a) e er /\
          forall a' e' b', a = a' ++ e' :: b' -> forall er', ~ wrong (pre ++ a') e' er'
    end.
  Proof.
    induction es as [| e es IH]; intros pre d D1 D2 N.
    - cbn. split; [reflexivity |]. split; intros a e b E; destruct a; discriminate.
    - assert (N' : source_names es) by (intros e' x I; apply N; now right).
      assert (D3 : depth 0 pre <> None) by congruence.
      assert (DD : depth d (e :: es) = match depth d [e] with Some d => depth d es | None => None end)
        by apply (depth_app [e]).
      rewrite DD in D2. destruct (depth d [e]) as [d1 |] eqn:DE; [| congruence].
      assert (D1' : depth 0 (pre ++ [e]) = Some d1) by (rewrite depth_app, D1; exact DE).
      specialize (IH (pre ++ [e]) d1 D1' D2 N'). rewrite st_app in IH.
      assert (L := depth_st pre d D1).
      (* after an event that is not wrong *)
      assert (OK : (forall er, ~ wrong pre e er) ->
        match frun (map emb es) (step (st pre) e) with
        | Good (sc', o) => length o = count is_var es /\
            (forall a e0 b, e :: es = a ++ e0 :: b -> forall er, ~ wrong (pre ++ a) e0 er) /\
            (forall a e0 b, e :: es = a ++ e0 :: b -> a <> [] -> is_var e0 = true ->
              exists r, nth_error o (count is_var (tl a)) = Some (User (fst r), snd r) /\ means (pre ++ a) e0 r)
        | Fail er => exists a e0 b, e :: es = a ++ e0 :: b /\ wrong (pre ++ a) e0 er /\
            forall a' e' b', a = a' ++ e' :: b' -> forall er', ~ wrong (pre ++ a') e' er'
        end).
      { intros W. destruct (frun (map emb es) (step (st pre) e)) as [[sc' o] | er].
        - destruct IH as (IL & IW & IM). split; [assumption |]. split.
          + intros a e0 b E er. destruct a as [| a0 a]; inversion E; subst.
            * rewrite app_nil_r. apply W.
            * pose proof (IW a e0 b eq_refl er) as Q. rewrite <- app_assoc in Q. exact Q.
          + intros a e0 b E NE V. destruct a as [| a0 a]; [congruence |]. inversion E; subst.
            destruct (IM a e0 b eq_refl V) as (r & Hr & Mr). exists r. rewrite <- app_assoc in Mr. auto.
        - destruct IH as (a & e0 & b & -> & Wr & F). exists (e :: a), e0, b. split; [reflexivity |].
          rewrite <- app_assoc in Wr. split; [exact Wr |].
          intros a' e' b' E er'. destruct a' as [| a0 a']; inversion E; subst.
          + rewrite app_nil_r. apply W.
          + pose proof (F a' e' b' eq_refl er') as Q. rewrite <- app_assoc in Q. exact Q. }
      destruct e as [| | l x | l x]; cbn [map emb Names_proofs.frun].
      + assert (W : forall er, ~ wrong pre Open er) by (intros er Q; inversion Q).
        specialize (OK W). cbn [step] in OK. destruct (frun (map emb es) ([] :: st pre)) as [[sc' o] | er]; [| exact OK].
        destruct OK as (A & B & C). split; [exact A |]. split; [exact B |].
        intros a e0 b E V. destruct a as [| a0 a]; [inversion E; subst; discriminate V |].
        destruct (C (a0 :: a) e0 b E ltac:(discriminate) V) as (r & R1 & R2). exists r.
        inversion E; subst. auto.
      + assert (W : forall er, ~ wrong pre Close er) by (intros er Q; inversion Q).
        specialize (OK W). cbn [step] in OK. destruct (st pre) as [| s sc] eqn:ES.
        { cbn in L. subst d. discriminate DE. }
        cbn [tl] in OK. destruct (frun (map emb es) sc) as [[sc' o] | er]; [| exact OK].
        destruct OK as (A & B & C). split; [exact A |]. split; [exact B |].
        intros a e0 b E V. destruct a as [| a0 a]; [inversion E; subst; discriminate V |].
        destruct (C (a0 :: a) e0 b E ltac:(discriminate) V) as (r & R1 & R2). exists r.
        inversion E; subst. auto.
      + destruct (st pre) as [| s sc] eqn:ES.
        { cbn in L. subst d. discriminate DE. }
        assert (X : source_name x) by (apply (N (Decl l x) x); [now left | reflexivity]).
        rewrite (source_name_user x X). cbn [negb]. rewrite Bool.andb_true_r.
        pose proof (decl_run pre s sc x D3 ES) as DR.
        destruct (has s x) eqn:HS.
        * exists [], (Decl l x), es. split; [reflexivity |]. rewrite app_nil_r.
          split; [constructor; now apply DR |]. intros a' e' b' E. destruct a'; discriminate.
        * assert (W : forall er, ~ wrong pre (Decl l x) er).
          { intros er Q. inversion Q; subst. match goal with H : declared_in_block _ _ |- _ => apply DR in H; discriminate H end. }
          specialize (OK W). cbn [step] in OK.
          destruct (frun (map emb es) (((x, User l) :: s) :: sc)) as [[sc' o] | er]; cbn [add_out]; [| exact OK].
          destruct OK as (A & B & C). split; [cbn; now rewrite A |]. split; [exact B |].
          intros a e0 b E V. destruct a as [| a0 a].
          -- inversion E; subst. exists (l, Local (User l)). split; [reflexivity |].
             rewrite app_nil_r. constructor.
          -- destruct (C (a0 :: a) e0 b E ltac:(discriminate) V) as (r & R1 & R2). exists r.
             inversion E; subst. auto.
      + assert (X : source_name x) by (apply (N (Use l x) x); [now left | reflexivity]).
        pose proof (use_run pre l x D3 X) as UR.
        destruct (fresolve cs current accessible x (st pre)) as [t | er].
        * destruct UR as [M W]. specialize (OK W). cbn [step] in OK.
          destruct (frun (map emb es) (st pre)) as [[sc' o] | er]; cbn [add_out]; [| exact OK].
          destruct OK as (A & B & C). split; [cbn; now rewrite A |]. split; [exact B |].
          intros a e0 b E V. destruct a as [| a0 a].
          -- inversion E; subst. exists (l, t). split; [reflexivity |]. rewrite app_nil_r. exact M.
          -- destruct (C (a0 :: a) e0 b E ltac:(discriminate) V) as (r & R1 & R2). exists r.
             inversion E; subst. auto.
        * exists [], (Use l x), es. split; [reflexivity |]. rewrite app_nil_r.
          split; [exact UR |]. intros a' e' b' E. destruct a'; discriminate.
  Qed.
End Main.

(** ** The blocks of a method are nested *)
Definition flat (es : list event) : Prop := forall d, depth (S d) es = Some (S d).
Lemma flat_app a b : flat a -> flat b -> flat (a ++ b).
Proof. intros A B d. rewrite depth_app, A. apply B. Qed.
Lemma flat_block a : flat a -> flat (block a).
Proof. intros A d. unfold block. cbn [depth]. rewrite depth_app, A. reflexivity. Qed.
Lemma flat_nil : flat []. Proof. intros d. reflexivity. Qed.
Lemma flat_expr e : flat (expr_events e).
Proof. induction e; cbn [expr_events]; try apply flat_app; auto; intros d; reflexivity. Qed.
Lemma flat_source :
  (forall s, flat (stmt_events s)) /\ (forall b, flat (stmts_events b)) /\
  (forall r, flat (els_events r)) /\ (forall c, flat (cases_events c)).
Proof.
  apply source_mind; intros; cbn [stmt_events stmts_events els_events cases_events];
    repeat first [apply flat_expr | apply flat_nil | assumption | apply flat_block | apply flat_app].
Qed.
Lemma flat_method m : depth 0 (method_events m) = Some 0%nat.
Proof.
  unfold method_events, block. cbn [depth]. rewrite depth_app.
  assert (F : flat (match m_self m with Some l => [Decl l dollar_self] | None => [] end
     ++ map (fun '(l, x) => Decl l x) (m_args m)
     ++ flat_map (fun '(l, ls, x) => [Use ls dollar_self; Decl l x]) (rev (m_captures m))
     ++ stmts_events (m_body m))).
  { repeat apply flat_app.
    - destruct (m_self m); intros d; reflexivity.
    - induction (m_args m) as [| [l x] a IH]; intros d; cbn [map depth]; [reflexivity | apply IH].
    - induction (rev (m_captures m)) as [| [[l ls] x] a IH]; intros d; cbn [flat_map app depth]; [reflexivity | apply IH].
    - apply (proj1 (proj2 flat_source)). }
  rewrite F. reflexivity.
Qed.
