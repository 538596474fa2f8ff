(** * Proofs about INIT methods *)

From Verif Require Import Base Init_model Init_spec.

Section Program.
  Variable p : Z -> cls.

  (** ** Executions as derivations *)

  Fixpoint unroll (k : nat) (s : stmt) : stmt := match k with O => SSkip | S k' => SSeq s (unroll k' s) end.

  Inductive run : nat -> Z -> stmt -> state -> bool -> state -> Prop :=
  | R_effect r c e st : run r c (SEffect e) st true (emit (Effect c e) st)
  | R_deep c d st : run 0 c (SInit d) st false st
  | R_none r c d st : has_init p d = false -> run (S r) c (SInit d) st true st
  | R_again r c d st : has_init p d = true -> initialized st d = true -> run (S r) c (SInit d) st true st
  | R_init r c d st ok st' : has_init p d = true -> initialized st d = false ->
      run r d (seq (init_method p d)) (mark d st) ok st' ->
      run (S r) c (SInit d) st ok (emit (if ok then End d else Fail d) st')
  | R_method0 c s st : run 0 c (SMethod s) st false st
  | R_method r c s st ok st' : run r c s st ok st' -> run (S r) c (SMethod s) st ok st'
  | R_die r c st : run r c SDie st false st
  | R_eval r c s st ok st' : run r c s st ok st' -> run r c (SEval s) st true st'
  | R_skip r c st : run r c SSkip st true st
  | R_seq r c s1 s2 st st1 ok st' : run r c s1 st true st1 -> run r c s2 st1 ok st' ->
      run r c (SSeq s1 s2) st ok st'
  | R_seq_die r c s1 s2 st st' : run r c s1 st false st' -> run r c (SSeq s1 s2) st false st'
  | R_if r c (b : list event -> bool) s1 s2 st ok st' : run r c (if b (history st) then s1 else s2) st ok st' ->
      run r c (SIf b s1 s2) st ok st'
  | R_repeat r c (n : list event -> nat) s st ok st' : run r c (unroll (n (history st)) s) st ok st' ->
      run r c (SRepeat n s) st ok st'.

  Lemma exec_run : forall r c s st ok st', exec p r c s st = (ok, st') -> run r c s st ok st'.
  Proof.
    induction r as [| r IHr].
    - intros c s. induction s as [e | d | s IH | | s IH | | s1 IH1 s2 IH2 | b s1 IH1 s2 IH2 | n s IH];
        intros st ok st' E; cbn in E.
      + inversion E; subst. constructor.
      + inversion E; subst. constructor.
      + inversion E; subst. constructor.
      + inversion E; subst. constructor.
      + destruct (exec p 0 c s st) as (ok1, st1) eqn:Q. cbn in Q. rewrite Q in E. cbn in E. inversion E; subst.
        econstructor. eauto.
      + inversion E; subst. constructor.
      + match type of E with (let (_, _) := ?x in _) = _ => destruct x as (ok1, st1) eqn:Q end.
        destruct ok1; [eapply R_seq; eauto |]. inversion E; subst. apply R_seq_die; auto.
      + constructor. destruct (b (history st)); auto.
      + constructor. revert E. generalize (n (history st)) as k. intros k. revert st ok st'.
        induction k as [| k IHk]; intros st ok st' E; [inversion E; subst; constructor |].
        cbn [unroll]. cbn in E.
        match type of E with (let (_, _) := ?x in _) = _ => destruct x as (ok1, st1) eqn:Q end.
        destruct ok1; [eapply R_seq; eauto |]. inversion E; subst. apply R_seq_die; auto.
    - intros c s. induction s as [e | d | s IH | | s IH | | s1 IH1 s2 IH2 | b s1 IH1 s2 IH2 | n s IH];
        intros st ok st' E; cbn in E.
      + inversion E; subst. constructor.
      + destruct (has_init p d) eqn:H; cbn in E; [| inversion E; subst; apply R_none; auto].
        destruct (initialized st d) eqn:I; [inversion E; subst; apply R_again; auto |].
        destruct (exec p r d (seq (init_method p d)) (mark d st)) as (ok1, st1) eqn:Q.
        inversion E; subst. apply R_init; auto.
      + constructor. auto.
      + inversion E; subst. constructor.
      + match type of E with (_, snd ?x) = _ => destruct x as (ok1, st1) eqn:Q end.
        cbn in E. inversion E; subst. econstructor. eauto.
      + inversion E; subst. constructor.
      + match type of E with (let (_, _) := ?x in _) = _ => destruct x as (ok1, st1) eqn:Q end.
        destruct ok1; [eapply R_seq; eauto |]. inversion E; subst. apply R_seq_die; auto.
      + constructor. destruct (b (history st)); auto.
      + constructor. revert E. generalize (n (history st)) as k. intros k. revert st ok st'.
        induction k as [| k IHk]; intros st ok st' E; [inversion E; subst; constructor |].
        cbn [unroll]. cbn in E.
        match type of E with (let (_, _) := ?x in _) = _ => destruct x as (ok1, st1) eqn:Q end.
        destruct ok1; [eapply R_seq; eauto |]. inversion E; subst. apply R_seq_die; auto.
  Qed.

  (** ** Once *)

  (** The flag is set exactly if the method was started. *)
  Definition counted (st : state) : Prop :=
    forall c, runs c (history st) = if initialized st c then 1%nat else 0%nat.

  Lemma counted_emit e st : (forall c, e <> Start c) -> counted st -> counted (emit e st).
  Proof. intros N C c. cbn. rewrite <- (C c). destruct e; auto. destruct (N c0); auto. Qed.

  Lemma counted_mark d st : initialized st d = false -> counted st -> counted (mark d st).
  Proof.
    intros I C c. cbn. specialize (C c). destruct (Z.eqb_spec d c) as [-> | N].
    - rewrite Z.eqb_refl, C, I. reflexivity.
    - destruct (Z.eqb_spec c d); [congruence |]. auto.
  Qed.

  Lemma run_counted r c s st ok st' : run r c s st ok st' -> counted st -> counted st'.
  Proof.
    induction 1; intros C; auto.
    - apply counted_emit; [destruct ok; congruence |]. apply IHrun. apply counted_mark; auto.
  Qed.

  Lemma run_history r c s st ok st' : run r c s st ok st' ->
    (exists new, history st' = new ++ history st) /\
    (forall d, initialized st d = true -> initialized st' d = true).
  Proof.
    induction 1 as [| | | | r c d st ok st' H I R IH | | | | | | r c s1 s2 st st1 ok st' R1 IH1 R2 IH2 | | |];
      try (split; [exists []; reflexivity | auto]); auto.
    - split; [exists [Effect c e]; reflexivity | auto].
    - destruct IH as ((new & IH) & M). split.
      + exists ((if ok then End d else Fail d) :: new ++ [Start d]). cbn. rewrite IH, <- app_assoc. reflexivity.
      + intros x Ix. cbn. apply M. cbn. destruct (x =? d); auto.
    - destruct IH1 as ((n1 & E1) & M1), IH2 as ((n2 & E2) & M2). split; [| auto].
      exists (n2 ++ n1). rewrite E2, E1, app_assoc. reflexivity.
  Qed.

  (** A call that returns leaves the class initialized. *)
  Lemma run_init r c d st st' : run r c (SInit d) st true st' -> has_init p d = true -> initialized st' d = true.
  Proof.
    intros R H. remember true as ok eqn:O in R. remember (SInit d) as s eqn:S in R.
    destruct R; inversion S; subst; try congruence.
    destruct (run_history _ _ _ _ _ _ R) as (_ & M). cbn. apply M. cbn. now rewrite Z.eqb_refl.
  Qed.

  (** ** The calls in front of the statements *)

  Definition use_calls (l : list (option Z)) : list Z :=
    flat_map (fun o => match o with Some u => if c_is_class (p u) then [u] else [] | None => [] end) l.

  Lemma use_calls_app l r : use_calls (l ++ r) = use_calls l ++ use_calls r.
  Proof. unfold use_calls. now rewrite flat_map_app. Qed.

  Lemma insert_uses_eq : forall l s, insert_uses p (rev l) s = map SInit (use_calls l) ++ s.
  Proof.
    intros l. pattern l. apply rev_ind; clear l; [reflexivity |]. intros x l IH s.
    rewrite rev_app_distr, use_calls_app, map_app, <- app_assoc. cbn [rev app insert_uses].
    destruct x as [u |]; cbn; auto. destruct (c_is_class (p u)); cbn; auto.
  Qed.

  Definition front (c : Z) : list Z :=
    (match c_parent (p c) with Some d => [d] | None => [] end) ++ use_calls (c_uses (p c)).

  Lemma init_method_eq c : init_method p c = map SInit (front c) ++ c_inits (p c).
  Proof.
    unfold init_method, front, merged_inits. rewrite insert_uses_eq.
    destruct (c_parent (p c)); reflexivity.
  Qed.

  Lemma front_depends c d : depends p c d <-> In d (front c) /\ has_init p d = true.
  Proof.
    unfold depends, front, has_init. rewrite in_app_iff. unfold use_calls. rewrite in_flat_map. split.
    - intros (U & [P | (I & K)]); split; auto.
      + left. rewrite P. now left.
      + right. exists (Some d). split; auto. rewrite K. now left.
    - intros ([I | (o & I & D)] & U); split; auto.
      + left. destruct (c_parent (p c)); [destruct I as [-> | []] |]; auto. destruct I.
      + right. destruct o as [u |]; [| destruct D]. destruct (c_is_class (p u)) eqn:K; [| destruct D].
        destruct D as [-> | []]. auto.
  Qed.

  (** ** Dependencies first *)

  Definition done (d : Z) (h : list event) : Prop := In (End d) h \/ In (Fail d) h.
  Lemma done_app d n h : done d h -> done d (n ++ h).
  Proof. unfold done. rewrite !in_app_iff. tauto. Qed.
  Lemma done_cons d e h : done d h -> done d (e :: h).
  Proof. exact (done_app d [e] h). Qed.

  Fixpoint good (h : list event) : Prop :=
    match h with
    | [] => True
    | Effect c e :: h' => good h' /\ forall d, depends p c d -> done d h'
    | _ :: h' => good h'
    end.

  Lemma good_spec h : good h <-> dependencies_first p h.
  Proof.
    unfold dependencies_first. induction h as [| x h IH].
    - split; [| cbn; auto]. intros _ later earlier c e d E. destruct later; discriminate.
    - split.
      + intros G later earlier c e d E D. destruct later as [| y later]; cbn in E; inversion E; subst.
        * cbn in G. destruct G as (_ & G). apply G. auto.
        * assert (G' : good (later ++ Effect c e :: earlier)) by (destruct y; cbn in G; tauto).
          rewrite IH in G'. eapply G'; eauto.
      + intros G. assert (G' : good h).
        { apply IH. intros later earlier c e d E D. apply (G (x :: later) earlier c e d); auto. cbn. now rewrite E. }
        destruct x as [c | c e | c | c]; cbn; auto. split; auto. intros d D. apply (G [] h c e d); auto.
  Qed.

  Section Ranked.
    Variable rank : Z -> nat.
    Hypothesis RANK : forall c d, depends p c d \/ calls p c d -> (rank d < rank c)%nat.

    Definition closed (st : state) (stk : list Z) : Prop :=
      forall j, initialized st j = true -> In j stk \/ done j (history st).

    Definition lower (s : stmt) (stk : list Z) : Prop :=
      forall d, calls_init s d -> has_init p d = true -> forall k, In k stk -> (rank d < rank k)%nat.

    Lemma calls_unroll k s d : calls_init (unroll k s) d -> calls_init s d.
    Proof. induction k; cbn; tauto. Qed.

    Lemma calls_seq l d : calls_init (seq l) d <-> exists s, In s l /\ calls_init s d.
    Proof.
      induction l as [| x l IH]; cbn.
      - split; [intros [] | intros (s & [] & _)].
      - rewrite IH. split.
        + intros [H | (s & I & H)]; eauto.
        + intros (s & [<- | I] & H); eauto.
    Qed.

    Lemma body_lower d stk : (forall k, In k stk -> (rank d < rank k)%nat) ->
      lower (seq (init_method p d)) (d :: stk).
    Proof using RANK.
      intros L x X U k I. assert (RX : (rank x < rank d)%nat).
      { apply calls_seq in X. destruct X as (s & Is & X). rewrite init_method_eq in Is. apply in_app_or in Is.
        destruct Is as [Is | Is].
        - apply in_map_iff in Is. destruct Is as (y & <- & Iy). cbn in X. subst y. apply RANK. left.
          apply front_depends. auto.
        - apply RANK. right. exists s. auto. }
      destruct I as [<- | I]; auto. specialize (L k I). lia.
    Qed.

    (** What a statement needs: the dependencies are over, or it is a call,
        or it starts with calls of all that are not. *)
    Definition ready (c : Z) (s : stmt) (st : state) : Prop :=
      (forall d, depends p c d -> done d (history st)) \/
      (exists d, s = SInit d) \/
      (exists ds own, s = seq (map SInit ds ++ own) /\
         forall d, depends p c d -> done d (history st) \/ In d ds).

    Lemma run_good r c s st ok st' : run r c s st ok st' ->
      forall stk, ready c s st -> lower s stk -> closed st stk -> good (history st) ->
      closed st' stk /\ good (history st').
    Proof using RANK.
      induction 1 as [r c e st | c d st | r c d st H | r c d st H I | r c d st ok st' H I R IH | c s st
        | r c s st ok st' R IH | r c st | r c s st ok st' R IH | r c st
        | r c s1 s2 st st1 ok st' R1 IH1 R2 IH2 | r c s1 s2 st st' R1 IH1
        | r c b s1 s2 st ok st' R IH | r c n s st ok st' R IH];
        intros stk RD L C G; try (split; assumption).
      - (* an effect *)
        assert (A : forall d, depends p c d -> done d (history st)).
        { destruct RD as [A | [(d & E) | (ds & own & E & _)]]; auto; [discriminate |].
          destruct (map SInit ds ++ own); discriminate. }
        cbn. split; [| split; auto]. intros j J. destruct (C j J) as [|]; auto. right. now apply done_cons.
      - (* a call *)
        assert (LD : forall k, In k stk -> (rank d < rank k)%nat).
        { intros k K. apply (L d); auto. reflexivity. }
        destruct (IH (d :: stk)) as (C' & G').
        + right; right. exists (front d), (c_inits (p d)). rewrite init_method_eq. split; auto.
          intros x X. right. apply front_depends in X. tauto.
        + now apply body_lower.
        + intros j. cbn. destruct (Z.eqb_spec j d) as [-> | N]; [left; now left |]. intros J.
          destruct (C j J); [left; now right | right; now apply done_cons].
        + exact G.
        + cbn. split; [| destruct ok; exact G']. intros j J. cbn in J.
          destruct (C' j J) as [[<- | K] | K]; auto.
          * right. destruct ok; [left | right]; now left.
          * right. now apply done_cons.
      - (* another method *)
        apply IH; auto. destruct RD as [A | [(d & E) | (ds & own & E & _)]]; [now left | discriminate |].
        destruct (map SInit ds ++ own); discriminate.
      - (* eval *)
        apply IH; auto. destruct RD as [A | [(d & E) | (ds & own & E & _)]]; [now left | discriminate |].
        destruct (map SInit ds ++ own); discriminate.
      - (* a sequence *)
        assert (L1 : lower s1 stk) by (intros x X; apply L; cbn; auto).
        assert (L2 : lower s2 stk) by (intros x X; apply L; cbn; auto).
        destruct RD as [A | [(d & E) | (ds & own & E & A)]]; [| discriminate |].
        + destruct (IH1 stk ltac:(now left) L1 C G) as (C1 & G1). apply IH2; auto.
          left. intros d D. destruct (run_history _ _ _ _ _ _ R1) as ((new & ->) & _). now apply done_app, A.
        + destruct ds as [| d0 ds].
          * assert (A' : forall d, depends p c d -> done d (history st)) by (intros d D; destruct (A d D) as [|[]]; auto).
            destruct (IH1 stk ltac:(now left) L1 C G) as (C1 & G1). apply IH2; auto.
            left. intros d D. destruct (run_history _ _ _ _ _ _ R1) as ((new & ->) & _). now apply done_app, A'.
          * cbn in E. inversion E; subst s1 s2. clear E.
            destruct (IH1 stk ltac:(right; left; eauto) L1 C G) as (C1 & G1). apply IH2; auto.
            right; right. exists ds, own. split; auto. intros d D.
            destruct (A d D) as [K | [<- | K]]; auto.
            { left. destruct (run_history _ _ _ _ _ _ R1) as ((new & ->) & _). now apply done_app. }
            { left. assert (U : has_init p d0 = true) by (apply front_depends in D; tauto).
              destruct (C1 d0 (run_init _ _ _ _ _ R1 U)) as [K |]; auto.
              exfalso. pose proof (L1 d0 eq_refl U d0 K). lia. }
      - (* a sequence that dies in its first part *)
        assert (L1 : lower s1 stk) by (intros x X; apply L; cbn; auto).
        apply IH1; auto. destruct RD as [A | [(d & E) | (ds & own & E & A)]]; [now left | discriminate |].
        destruct ds as [| d0 ds].
        + left. intros d D. destruct (A d D) as [|[]]; auto.
        + cbn in E. inversion E; subst. right; left; eauto.
      - (* a branch *)
        apply IH; auto.
        + destruct RD as [A | [(d & E) | (ds & own & E & _)]]; [now left | discriminate |].
          destruct (map SInit ds ++ own); discriminate.
        + intros x X. apply L. cbn. destruct (b (history st)); auto.
      - (* a loop *)
        apply IH; auto.
        + destruct RD as [A | [(d & E) | (ds & own & E & _)]]; [now left | discriminate |].
          destruct (map SInit ds ++ own); discriminate.
        + intros x X. apply L. cbn. now apply calls_unroll in X.
    Qed.
  End Ranked.

  (** ** Success *)

  Section Deep.
    Variable depth : Z -> nat.
    Hypothesis SAFE : forall c, has_init p c = true -> safe depth (depth c) (seq (init_method p c)).

    Lemma safe_mono s : forall k k', (k <= k')%nat -> safe depth k s -> safe depth k' s.
    Proof using.
      induction s as [e | d | s IH | | s IH | | s1 IH1 s2 IH2 | b s1 IH1 s2 IH2 | n s IH];
        intros k k' L H; cbn in *; auto.
      - lia.
      - destruct k as [| k]; [destruct H |]. destruct k' as [| k']; [lia |]. apply (IH k k'); auto. lia.
      - destruct H; eauto.
      - destruct H; eauto.
      - eauto.
    Qed.

    Lemma safe_unroll k s j : safe depth k s -> safe depth k (unroll j s).
    Proof using. intros H. induction j; cbn; auto. Qed.

    Lemma run_safe r c s st ok st' : run r c s st ok st' -> safe depth r s -> ok = true.
    Proof using SAFE.
      induction 1 as [r c e st | c d st | r c d st H | r c d st H I | r c d st ok st' H I R IH | c s st
        | r c s st ok st' R IH | r c st | r c s st ok st' R IH | r c st
        | r c s1 s2 st st1 ok st' R1 IH1 R2 IH2 | r c s1 s2 st st' R1 IH1
        | r c b s1 s2 st ok st' R IH | r c n s st ok st' R IH]; intros S; cbn in S; auto.
      - lia.
      - apply IH. apply safe_mono with (depth d); [lia |]. auto.
      - destruct S; auto.
      - destruct S; auto.
      - apply IH. destruct (b (history st)); tauto.
      - apply IH. now apply safe_unroll.
    Qed.
  End Deep.

  (** Without eval, a run that succeeds has no failed part. *)
  Section Eval.
    Hypothesis NE : forall c s, In s (c_inits (p c)) -> no_eval s.

    Lemma no_eval_seq l : (forall s, In s l -> no_eval s) -> no_eval (seq l).
    Proof using. induction l as [| x l IH]; cbn; auto. Qed.
    Lemma no_eval_unroll k s : no_eval s -> no_eval (unroll k s).
    Proof using. induction k; cbn; auto. Qed.
    Lemma no_eval_method c : no_eval (seq (init_method p c)).
    Proof using NE.
      apply no_eval_seq. intros s I. rewrite init_method_eq in I. apply in_app_or in I. destruct I as [I | I]; eauto.
      apply in_map_iff in I. destruct I as (d & <- & _). exact Logic.I.
    Qed.

    Lemma run_no_fail r c s st ok st' : run r c s st ok st' -> no_eval s -> ok = true ->
      forall d, In (Fail d) (history st') -> In (Fail d) (history st).
    Proof using NE.
      induction 1 as [r c e st | c d st | r c d st H | r c d st H I | r c d st ok st' H I R IH | c s st
        | r c s st ok st' R IH | r c st | r c s st ok st' R IH | r c st
        | r c s1 s2 st st1 ok st' R1 IH1 R2 IH2 | r c s1 s2 st st' R1 IH1
        | r c b s1 s2 st ok st' R IH | r c n s st ok st' R IH]; intros N O x X; cbn in N; auto; try discriminate.
      - cbn in X. destruct X; [discriminate | auto].
      - subst ok. cbn in X. destruct X as [X | X]; [discriminate |].
        specialize (IH (no_eval_method d) eq_refl x X). cbn in IH. destruct IH; [discriminate | auto].
      - destruct N.
      - destruct N. apply IH1; auto.
      - apply IH; auto. destruct (b (history st)); tauto.
      - apply IH; auto. now apply no_eval_unroll.
    Qed.
  End Eval.

  (** Each start has its end. *)
  Fixpoint ends (c : Z) (h : list event) : nat :=
    match h with
    | [] => 0
    | End d :: h' | Fail d :: h' => if d =? c then S (ends c h') else ends c h'
    | _ :: h' => ends c h'
    end.

  Lemma run_ends r c s st ok st' : run r c s st ok st' ->
    forall d, (ends d (history st') + runs d (history st) = ends d (history st) + runs d (history st'))%nat.
  Proof.
    induction 1 as [r c e st | c d st | r c d st H | r c d st H I | r c d st ok st' H I R IH | c s st
        | r c s st ok st' R IH | r c st | r c s st ok st' R IH | r c st
        | r c s1 s2 st st1 ok st' R1 IH1 R2 IH2 | r c s1 s2 st st' R1 IH1
        | r c b s1 s2 st ok st' R IH | r c n s st ok st' R IH]; intros x; cbn; auto; try lia.
    - specialize (IH x). cbn in IH. destruct ok; cbn; destruct (d =? x); lia.
    - specialize (IH1 x). specialize (IH2 x). lia.
  Qed.

  Lemma done_ends d h : done d h <-> (0 < ends d h)%nat.
  Proof.
    unfold done. induction h as [| x h IH]; cbn.
    - split; [intros [[] | []] | lia].
    - destruct x as [c | c e | c | c]; rewrite <- ?IH;
        try (split; [intros [[|] | [|]]; try discriminate; auto | tauto]).
      + destruct (Z.eqb_spec c d) as [-> | N]; [split; [lia | auto] |]. rewrite <- IH.
        split; [intros [[X |] | [X |]]; try discriminate; auto; inversion X; congruence | tauto].
      + destruct (Z.eqb_spec c d) as [-> | N]; [split; [lia | auto] |]. rewrite <- IH.
        split; [intros [[X |] | [X |]]; try discriminate; auto; inversion X; congruence | tauto].
  Qed.
End Program.
