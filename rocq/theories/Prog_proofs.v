(** * Proofs about numeric methods: expressions and conditions *)

From Verif Require Import Code_model Code_spec.
From Verif Require Import Base VmArith_model VmArith_proofs Expr_model Expr_spec Expr_proofs Prog_model Prog_spec.

Section Float.
  Context {F D : Type} (fl : floats F D).
  Local Notation val := (val F D).
  Local Notation expr := (expr F D).
  Local Notation op := (op F D).
  Local Notation regs := (regs F D).
  Local Notation store := (nat -> val).
  Local Notation VI := (VI F D).

  (** ** More variables do not change the meaning of an expression *)
  Section Ext.
    Variables T T' : nat -> option nty.
    Hypothesis ext : forall x, T x <> None -> T' x = T x.

    Lemma ty_ext (e : expr) : well_formed T e ->
      ty T' e = ty T e /\ forall d, narrowing_literal T' d e = narrowing_literal T d e.
    Proof.
      induction e as [x | t v | u a IHa | b l IHl r IHr | c l IHl r IHr | t a IHa | x a IHa | b x a IHa | dec post x | a IHa b IHb];
        cbn [well_formed]; intros W.
      - split; [apply ext; auto | reflexivity].
      - split; reflexivity.
      - destruct (IHa W) as (A & _). split; [| reflexivity]. cbn [ty]. rewrite A. reflexivity.
      - destruct W as (Wl & Wr). destruct (IHl Wl) as (A & _), (IHr Wr) as (B & _).
        split; [| reflexivity]. cbn [ty]. rewrite A, B. reflexivity.
      - destruct W as (Wl & Wr). destruct (IHl Wl) as (A & _), (IHr Wr) as (B & _).
        split; [| reflexivity]. cbn [ty]. rewrite A, B. reflexivity.
      - destruct (IHa W) as (A & B). split.
        + cbn [ty]. rewrite A. reflexivity.
        + intros d.
          change (narrowing_literal T' d (ECast F D t a)) with
            (match ty T' a with Some s => same s t && narrowing_literal T' d a | None => false end).
          rewrite A, B. reflexivity.
      - destruct W as (Wx & W). destruct (IHa W) as (A & B). split; [| reflexivity].
        rewrite !ty_assign, A, (ext _ Wx). destruct (ty T a), (T x); try reflexivity. rewrite B. reflexivity.
      - destruct W as (Wx & W). destruct (IHa W) as (A & _). split; [| reflexivity].
        cbn [ty]. rewrite A, (ext _ Wx). reflexivity.
      - split; [apply ext; auto | reflexivity].
      - destruct W as (Wl & Wr). destruct (IHa Wl) as (A & _), (IHb Wr) as (B & _).
        split; [| reflexivity]. cbn [ty]. rewrite A, B. reflexivity.
    Qed.

    Lemma typ_ext (e : expr) : well_formed T e -> typ T' e = typ T e.
    Proof. intros W. unfold typ. rewrite (proj1 (ty_ext e W)). reflexivity. Qed.
    Lemma vtyp_ext x : T x <> None -> vtyp T' x = vtyp T x.
    Proof. intros W. unfold vtyp. rewrite (ext _ W). reflexivity. Qed.

    Lemma wf_ext (e : expr) : well_formed T e -> well_formed T' e.
    Proof.
      induction e; cbn [well_formed]; try tauto; intros W; rewrite ?ext; try tauto.
    Qed.

    Lemma passes_ext (e : expr) : well_formed T e -> passes T' e = passes T e.
    Proof.
      induction e as [x | t v | u a IHa | b l IHl r IHr | c l IHl r IHr | t a IHa | x a IHa | b x a IHa | dec post x | a IHa b IHb];
        cbn [well_formed passes]; intros W; try reflexivity.
      - rewrite typ_ext, IHa by auto. reflexivity.
      - destruct W as (Wx & W). rewrite typ_ext, vtyp_ext, IHa by auto. reflexivity.
      - destruct W as (_ & W). auto.
    Qed.

    Lemma stable_ext (e : expr) : well_formed T e -> stable T e -> stable T' e.
    Proof.
      induction e as [x | t v | u a IHa | b l IHl r IHr | c l IHl r IHr | t a IHa | x a IHa | b x a IHa | dec post x | a IHa b IHb];
        intros W; try (cbn [well_formed stable] in *; tauto).
      - cbn [stable]. rewrite (typ_ext (EBin F D b l r)) by exact W. cbn [well_formed] in W. destruct W as (Wl & Wr).
        unfold passes_as. rewrite (typ_ext l), (passes_ext l) by auto. tauto.
      - cbn [stable]. cbn [well_formed] in W. destruct W as (Wl & Wr).
        unfold passes_as. rewrite (typ_ext l), (typ_ext r), (passes_ext l) by auto. tauto.
    Qed.

    Lemma ends_ext (e : expr) : well_formed T e -> ends_in_update T' e = ends_in_update T e.
    Proof.
      induction e; cbn [well_formed ends_in_update]; intros W; try reflexivity.
      rewrite typ_ext, IHe by auto. reflexivity.
    Qed.
    Lemma nested_ext (e : expr) : well_formed T e -> nested T' e = nested T e.
    Proof.
      induction e; cbn [well_formed nested]; intros W; try reflexivity.
      - rewrite typ_ext, IHe by auto. reflexivity.
      - apply ends_ext. tauto.
    Qed.
    Lemma not_dropped_ext (e : expr) : well_formed T e -> not_dropped T e -> not_dropped T' e.
    Proof.
      induction e; cbn [well_formed not_dropped]; intros W; try tauto.
      rewrite typ_ext, vtyp_ext, nested_ext by tauto. tauto.
    Qed.

    Definition alike (st st' : store) : Prop := forall x, T x <> None -> st x = st' x.
    Lemma alike_supd st st' x v : alike st st' -> alike (supd st x v) (supd st' x v).
    Proof. intros A y Hy. unfold supd. destruct (Nat.eqb y x); auto. Qed.

    Lemma eval_ext (e : expr) : forall st st', well_formed T e -> alike st st' ->
      orel (fun p q => fst p = fst q /\ alike (snd p) (snd q)) (eval fl T e st) (eval fl T' e st').
    Proof.
      induction e as [x | t v | u a IHa | b l IHl r IHr | c l IHl r IHr | t a IHa | x a IHa | b x a IHa | dec post x | a IHa b IHb];
        intros st st' W A.
      - cbn [eval]. constructor. cbn [well_formed] in W. split; [apply A; exact W | exact A].
      - cbn [eval]. constructor. split; [reflexivity | exact A].
      - cbn [eval well_formed] in *. rewrite typ_ext by auto.
        eapply orel_bind; [apply IHa; eauto |]. intros (v & s) (v' & s') (E & S). cbn [fst snd] in *. subst v'.
        apply orel_bind with (R := eq); [apply orel_refl; auto |]. intros ? ? <-.
        apply orel_bind with (R := eq); [apply orel_refl; auto |]. intros ? ? <-. constructor. auto.
      - cbn [eval]. rewrite (typ_ext (EBin F D b l r)) by exact W. cbn [well_formed] in W. destruct W as (Wl & Wr).
        rewrite (typ_ext l), (typ_ext r) by auto.
        eapply orel_bind; [apply IHl; eauto |]. intros (v & s) (v' & s') (E & S). cbn [fst snd] in *. subst v'.
        apply orel_bind with (R := eq); [apply orel_refl; auto |]. intros ? ? <-.
        eapply orel_bind; [apply IHr; eauto |]. intros (w & s1) (w' & s1') (E & S'). cbn [fst snd] in *. subst w'.
        apply orel_bind with (R := eq); [apply orel_refl; auto |]. intros ? ? <-.
        apply orel_bind with (R := eq); [apply orel_refl; auto |]. intros ? ? <-. constructor. auto.
      - cbn [eval]. cbn [well_formed] in W. destruct W as (Wl & Wr).
        rewrite (typ_ext l), (typ_ext r) by auto.
        eapply orel_bind; [apply IHl; eauto |]. intros (v & s) (v' & s') (E & S). cbn [fst snd] in *. subst v'.
        apply orel_bind with (R := eq); [apply orel_refl; auto |]. intros ? ? <-.
        eapply orel_bind; [apply IHr; eauto |]. intros (w & s1) (w' & s1') (E & S'). cbn [fst snd] in *. subst w'.
        apply orel_bind with (R := eq); [apply orel_refl; auto |]. intros ? ? <-.
        apply orel_bind with (R := eq); [apply orel_refl; auto |]. intros ? ? <-. constructor. auto.
      - cbn [eval well_formed] in *. rewrite typ_ext by auto.
        eapply orel_bind; [apply IHa; eauto |]. intros (v & s) (v' & s') (E & S). cbn [fst snd] in *. subst v'.
        apply orel_bind with (R := eq); [apply orel_refl; auto |]. intros ? ? <-. constructor. auto.
      - cbn [eval well_formed] in *. destruct W as (Wx & W). rewrite typ_ext, vtyp_ext by auto.
        eapply orel_bind; [apply IHa; eauto |]. intros (v & s) (v' & s') (E & S). cbn [fst snd] in *. subst v'.
        apply orel_bind with (R := eq); [apply orel_refl; auto |]. intros ? ? <-. constructor.
        split; [reflexivity | apply alike_supd; auto].
      - cbn [eval well_formed] in *. destruct W as (Wx & W). rewrite typ_ext, vtyp_ext by auto. rewrite <- (A _ Wx).
        apply orel_bind with (R := eq); [apply orel_refl; auto |]. intros ? ? <-.
        eapply orel_bind; [apply IHa; eauto |]. intros (v & s) (v' & s') (E & S). cbn [fst snd] in *. subst v'.
        apply orel_bind with (R := eq); [apply orel_refl; auto |]. intros ? ? <-.
        apply orel_bind with (R := eq); [apply orel_refl; auto |]. intros ? ? <-.
        apply orel_bind with (R := eq); [apply orel_refl; auto |]. intros ? ? <-. constructor.
        split; [reflexivity | apply alike_supd; auto].
      - cbn [eval well_formed] in *. rewrite vtyp_ext by auto. rewrite <- (A _ W).
        apply orel_bind with (R := eq); [apply orel_refl; auto |]. intros ? ? <-.
        apply orel_bind with (R := eq); [apply orel_refl; auto |]. intros ? ? <-.
        apply orel_bind with (R := eq); [apply orel_refl; auto |]. intros ? ? <-.
        apply orel_bind with (R := eq); [apply orel_refl; auto |]. intros ? ? <-. constructor.
        split; [reflexivity | apply alike_supd; auto].
      - cbn [eval well_formed] in *. destruct W as (Wa & Wb).
        eapply orel_bind; [apply IHa; eauto |]. intros (v & s) (v' & s') (E & S). cbn [fst snd] in *. auto.
    Qed.
  End Ext.

  (** ** Conditions and returns are casts *)
  Definition promoted (t : nty) (e : expr) : expr := if Nat.leb (rank t) (rank TInt) then ECast F D TInt e else e.

  Section Casts.
    Variables (T : nat -> option nty) (m : nat).
    Hypothesis fresh : forall x, (m <= x)%nat -> T x = None.

    Lemma compile_cast (e : expr) t d T1 o1 : well_formed T e ->
      check F D T (fst (build F D e m)) = Some (T1, o1) -> get_type F D T1 o1 = Some t ->
      compile F D T m (ECast F D d e) =
      (let '(T2, _, o2) := temps F D false T1 (snd (build F D e m)) (cast_to F D d t o1) in
       match gen F D T2 o2, place F D o2 with Some c, Some r => Some (Code F D T2 c r) | _, _ => None end).
    Proof.
      intros W C G. unfold compile. cbn [build]. destruct (build F D e m) as [o n1]. cbn [fst snd] in *.
      cbn [check]. rewrite C, G. reflexivity.
    Qed.

    Lemma gen_cond_eq (e : expr) : well_formed T e ->
      match ty T e with
      | None => gen_cond F D T m e = None
      | Some t => exists c r,
          gen_cond F D T m e = Some (map (LI F D) (c_instrs F D c) ++ [LCond F D (widen t) r (c_result F D c); LI F D (IMove F D TInt FLAG r)], r) /\
          compile F D T m (promoted t e) = Some c /\ (m <= r)%nat
      end.
    Proof.
      intros W. pose proof (build_check fl T m fresh e m T (le_n m) W) as B.
      pose proof (build_le e m) as L.
      assert (E : env_ok T m m (snd (build F D e m)) T) by (split; auto; intros x H; apply fresh; lia). specialize (B E).
      unfold gen_cond. destruct (ty T e) as [t |].
      - destruct B as (T1 & o1 & C & G).
        pose proof (g_wt _ _ _ _ _ _ _ _ _ _ G) as Wt. pose proof (wt_type _ _ _ Wt) as Gt.
        assert (CC : compile F D T m (promoted t e) =
          (let '(T2, _, o2) := temps F D false T1 (snd (build F D e m)) (cast_to F D (widen t) t o1) in
           match gen F D T2 o2, place F D o2 with Some c, Some r => Some (Code F D T2 c r) | _, _ => None end)).
        { unfold promoted. destruct (Nat.leb_spec (rank t) (rank TInt)) as [H | H].
          - rewrite (compile_cast e t TInt T1 o1 W C Gt).
            replace (widen t) with TInt by (destruct t; cbn in H; try reflexivity; lia). reflexivity.
          - replace (widen t) with t by (destruct t; cbn in H; try reflexivity; lia).
            unfold cast_to. rewrite nty_eqb_refl.
            unfold compile. destruct (build F D e m). cbn [fst snd] in *. rewrite C. reflexivity. }
        rewrite CC. clear CC.
        destruct (build F D e m) as [o n1]. cbn [fst snd] in *.
        rewrite C, Gt. rewrite promote_widen.
        pose proof (wt_cast_to _ (widen t) _ _ Wt) as Wc. rewrite (wt_type _ _ _ Wc).
        destruct (temps F D false T1 n1 (cast_to F D (widen t) t o1)) as [[T2 n2] o2] eqn:E2.
        assert (F1 : forall x, (n1 <= x)%nat -> T1 x = None).
        { intros x H. rewrite (g_frame _ _ _ _ _ _ _ _ _ _ G) by lia. apply fresh. lia. }
        destruct (proj1 (gen_total T1 _) T1 n1 _ T2 n2 o2 T2 (sub_refl _) F1 Wc E2 (sub_refl _)) as (c & p & Gn & Pl).
        destruct (temps_static T1 _ _ _ _ _ _ _ _ (sub_refl _) F1 Wc E2) as (Ln & _).
        rewrite Gn, Pl. exists (Code F D T2 c p), n2. cbn [c_instrs c_result].
        replace (arith_type (widen t)) with true by (destruct t; reflexivity).
        split; [reflexivity |]. split; [reflexivity | lia].
      - destruct (build F D e m) as [o n1]. cbn [fst snd] in *. rewrite B. reflexivity.
    Qed.

    Lemma gen_return_eq (rt : nty) (e : expr) : well_formed T e ->
      if assignable T rt e then
        exists c, gen_return F D T m rt e = Some (map (LI F D) (c_instrs F D c), c_result F D c) /\
                  compile F D T m (ECast F D rt e) = Some c
      else gen_return F D T m rt e = None.
    Proof.
      intros W. pose proof (build_check fl T m fresh e m T (le_n m) W) as B.
      pose proof (build_le e m) as L.
      assert (E : env_ok T m m (snd (build F D e m)) T) by (split; auto; intros x H; apply fresh; lia). specialize (B E).
      unfold gen_return, assignable. destruct (ty T e) as [t |].
      - destruct B as (T1 & o1 & C & G).
        pose proof (g_wt _ _ _ _ _ _ _ _ _ _ G) as Wt. pose proof (wt_type _ _ _ Wt) as Gt.
        rewrite (compile_cast e t rt T1 o1 W C Gt).
        destruct (build F D e m) as [o n1]. cbn [fst snd] in *.
        rewrite C, Gt, check_assign_cast.
        assert (NL : Nat.leb (rank t) (rank rt) || allow_narrowing F D rt t o1 =
                     Nat.leb (rank t) (rank rt) || narrowing_literal T rt e).
        { destruct (Nat.leb_spec (rank t) (rank rt)) as [H | H]; [reflexivity |]. cbn [orb].
          apply (g_lit _ _ _ _ _ _ _ _ _ _ G). exact H. }
        rewrite NL. destruct (Nat.leb (rank t) (rank rt) || narrowing_literal T rt e); [| reflexivity].
        pose proof (wt_cast_to _ rt _ _ Wt) as Wc.
        destruct (temps F D false T1 n1 (cast_to F D rt t o1)) as [[T2 n2] o2] eqn:E2.
        assert (F1 : forall x, (n1 <= x)%nat -> T1 x = None).
        { intros x H. rewrite (g_frame _ _ _ _ _ _ _ _ _ _ G) by lia. apply fresh. lia. }
        destruct (proj1 (gen_total T1 _) T1 n1 _ T2 n2 o2 T2 (sub_refl _) F1 Wc E2 (sub_refl _)) as (c & p & Gn & Pl).
        rewrite Gn, Pl. exists (Code F D T2 c p). auto.
      - destruct (build F D e m) as [o n1]. cbn [fst snd] in *. rewrite B. reflexivity.
    Qed.
  End Casts.
End Float.
