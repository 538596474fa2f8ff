(** * Proofs about numeric methods: conditions, statements and whole methods *)

From Verif Require Import Code_model Code_spec.
From Verif Require Import Base VmArith_model VmArith_proofs Expr_model Expr_spec Expr_proofs Prog_model Prog_spec Prog_proofs ProgSim_proofs.

Section Float.
  Context {F D : Type} (fl : floats F D).
  Local Notation val := (val F D).
  Local Notation expr := (expr F D).
  Local Notation regs := (regs F D).
  Local Notation store := (nat -> val).
  Local Notation VI := (VI F D).
  Local Notation linstr := (linstr F D).
  Local Notation world := (world F D).
  Local Notation cond := (cond F D).
  Local Notation stmt := (stmt F D).
  Local Notation ast := (ast F D).
  Local Notation rset := (rset F D).

  Lemma build_cond_le (c : cond) : forall n p e n', build_cond F D c n = (p, e, n') -> (n <= n')%nat.
  Proof.
    induction c as [e0 | l IHl r IHr | l IHl r IHr | c IH]; intros n p e n'; cbn [build_cond].
    - intros [= _ _ <-]. lia.
    - destruct (build_cond F D l n) as [[pl el] n1] eqn:E1. destruct (build_cond F D r n1) as [[pr er] n2] eqn:E2.
      intros [= _ _ <-]. apply IHl in E1. apply IHr in E2. lia.
    - destruct (build_cond F D l n) as [[pl el] n1] eqn:E1. destruct (build_cond F D r n1) as [[pr er] n2] eqn:E2.
      intros [= _ _ <-]. apply IHl in E1. apply IHr in E2. lia.
    - destruct (build_cond F D c n) as [[pl el] n1] eqn:E1.
      intros [= _ _ <-]. apply IH in E1. lia.
  Qed.
  Lemma build_stmt_le (s : stmt) : forall n a n', build_stmt F D s n = (a, n') -> (n <= n')%nat.
  Proof.
    induction s; intros n0 a n'; cbn [build_stmt];
      repeat match goal with
      | |- context [build_cond F D ?c ?n] =>
          let p := fresh "p" in let e := fresh "e" in let m := fresh "m" in let E := fresh "E" in
          destruct (build_cond F D c n) as [[p e] m] eqn:E; apply build_cond_le in E
      | IH : forall n a n', build_stmt F D ?s n = (a, n') -> _ |- context [build_stmt F D ?s ?n] =>
          let p := fresh "p" in let m := fresh "m" in let E := fresh "E" in
          destruct (build_stmt F D s n) as [p m] eqn:E; apply IH in E
      | |- context [if ?b then _ else _] => destruct b
      end; intros [= _ <-]; lia.
  Qed.

  (** ** Types *)
  Section Types.
    Variables (T : nat -> option nty) (n0 n1 : nat).
    Hypotheses (pos : (1 <= n0)%nat) (le01 : (n0 <= n1)%nat)
      (T0 : T FLAG = None) (fresh : forall x, (n0 <= x)%nat -> T x = None).
    Definition TA : nat -> option nty := all_types T n0 n1.

    Lemma TA_ext x : T x <> None -> TA x = T x.
    Proof.
      intros H. unfold TA, all_types. destruct (Nat.eqb_spec x FLAG) as [-> | N]; [congruence |]. cbn [orb].
      destruct (Nat.leb_spec n0 x); [rewrite fresh in H by auto; congruence | reflexivity].
    Qed.
    Lemma TA_fresh x : (n1 <= x)%nat -> TA x = None.
    Proof.
      intros H. unfold TA, all_types, FLAG. destruct (Nat.eqb_spec x 0); [lia |]. cbn [orb].
      destruct (Nat.ltb_spec x n1); [lia |]. rewrite andb_false_r. apply fresh. lia.
    Qed.
    Lemma TA_flag : TA FLAG = Some TInt.
    Proof. reflexivity. Qed.
    Lemma TA_tmp x : (n0 <= x < n1)%nat -> TA x = Some TInt.
    Proof.
      intros H. unfold TA, all_types. destruct (Nat.leb_spec n0 x); [| lia]. destruct (Nat.ltb_spec x n1); [| lia].
      rewrite orb_true_r. reflexivity.
    Qed.
    Lemma T_small x s : T x = Some s -> x <> FLAG /\ (x < n0)%nat.
    Proof.
      intros H. split; [intros ->; congruence |].
      destruct (Nat.lt_ge_cases x n0); auto. rewrite fresh in H by auto. discriminate.
    Qed.

    (** *** Which programs compile *)
    Definition isS {A} (o : option A) : bool := match o with Some _ => true | None => false end.
    Section Accept.
      Variable rt : nty.
      Fixpoint ast_ok (lp : bool) (a : ast) : bool :=
        match a with
        | ASkip _ _ | ADecl _ _ _ => true
        | ASeq _ _ a b => ast_ok lp a && ast_ok lp b
        | AExp _ _ e => isS (Expr_model.compile F D TA n1 e)
        | ABlock _ _ b => ast_ok lp b
        | AIf _ _ _ p e t f => ast_ok false p && isS (gen_cond F D TA n1 e) && ast_ok lp t && ast_ok lp f
        | ALoop _ _ i b n p e => ast_ok false i && ast_ok true b && ast_ok false n && ast_ok false p && isS (gen_cond F D TA n1 e)
        | ANext _ _ | ALast _ _ => lp
        | AReturn _ _ p e => ast_ok lp p && isS (gen_return F D TA n1 rt e)
        end.

      Lemma ast_accept (a : ast) : forall lp k, isS (gen_ast F D TA n1 rt lp k a) = ast_ok lp a.
      Proof.
        induction a; intros lp k; cbn [gen_ast ast_ok].
        - reflexivity.
        - rewrite <- (IHa1 lp k). destruct (gen_ast _ _ _ _ _ lp k a1) as [[na la] |]; [| reflexivity].
          rewrite <- (IHa2 lp (k + length la)%nat). destruct (gen_ast _ _ _ _ _ lp _ a2) as [[nb lb] |]; reflexivity.
        - destruct (Expr_model.compile _ _ _ _ _); reflexivity.
        - reflexivity.
        - rewrite <- (IHa lp k). destruct (gen_ast _ _ _ _ _ lp k a) as [[na la] |]; reflexivity.
        - rewrite <- (IHa1 false k). destruct (gen_ast _ _ _ _ _ false k a1) as [[l1 l2] |]; [| reflexivity].
          destruct (gen_cond _ _ _ _ _) as [[lc r] |]; [| reflexivity].
          rewrite <- (IHa2 lp (k + length (l2 ++ lc))%nat). destruct (gen_ast _ _ _ _ _ lp _ a2) as [[nb lb] |]; [| reflexivity].
          rewrite <- (IHa3 lp (k + length (l2 ++ lc ++ lb))%nat). destruct (gen_ast _ _ _ _ _ lp _ a3) as [[? ?] |]; reflexivity.
        - rewrite <- (IHa1 false k). destruct (gen_ast _ _ _ _ _ false k a1) as [[l1 l2] |]; [| reflexivity].
          rewrite <- (IHa2 true (k + length l2)%nat). destruct (gen_ast _ _ _ _ _ true _ a2) as [[nb lb] |]; [| reflexivity].
          rewrite <- (IHa3 false (k + length (l2 ++ lb))%nat). destruct (gen_ast _ _ _ _ _ false _ a3) as [[n3 l3] |]; [| reflexivity].
          rewrite <- (IHa4 false (k + length (l2 ++ lb ++ l3))%nat). destruct (gen_ast _ _ _ _ _ false _ a4) as [[n4 l4] |]; [| reflexivity].
          destruct (gen_cond _ _ _ _ _) as [[lc r] |]; reflexivity.
        - destruct lp; reflexivity.
        - destruct lp; reflexivity.
        - rewrite <- (IHa lp k). destruct (gen_ast _ _ _ _ _ lp k a) as [[l1 l2] |]; [| reflexivity].
          destruct (gen_return _ _ _ _ _ _) as [[lc r] |]; reflexivity.
      Qed.

      Lemma gen_cond_ok (e : expr) : well_formed TA e -> isS (gen_cond F D TA n1 e) = isS (ty TA e).
      Proof.
        intros W. pose proof (gen_cond_eq fl TA n1 TA_fresh e W) as H. destruct (ty TA e).
        - destruct H as (c & r & -> & _). reflexivity.
        - rewrite H. reflexivity.
      Qed.
      Lemma gen_exp_ok (e : expr) : well_formed TA e -> isS (Expr_model.compile F D TA n1 e) = isS (ty TA e).
      Proof.
        intros W. pose proof (compile_accepts fl TA n1 e TA_fresh W) as H. destruct (ty TA e).
        - destruct H as (c & ->). reflexivity.
        - rewrite H. reflexivity.
      Qed.
      Lemma gen_return_ok (e : expr) : well_formed TA e -> isS (gen_return F D TA n1 rt e) = assignable TA rt e.
      Proof.
        intros W. pose proof (gen_return_eq fl TA n1 TA_fresh rt e W) as H. destruct (assignable TA rt e).
        - destruct H as (c & -> & _). reflexivity.
        - rewrite H. reflexivity.
      Qed.

      Lemma wf_tmp x : (n0 <= x < n1)%nat -> well_formed TA (EVar F D x).
      Proof. intros H. cbn [well_formed]. rewrite TA_tmp by auto. discriminate. Qed.
      Lemma wf_A (e : expr) : well_formed T e -> well_formed TA e.
      Proof. apply wf_ext. apply TA_ext. Qed.
      Lemma ty_A (e : expr) : well_formed T e -> ty TA e = ty T e.
      Proof. intros W. exact (proj1 (ty_ext T TA TA_ext e W)). Qed.
      Lemma assignable_A d (e : expr) : well_formed T e -> assignable TA d e = assignable T d e.
      Proof.
        intros W. destruct (ty_ext T TA TA_ext e W) as (A & B). unfold assignable. rewrite A.
        destruct (ty T e); [| reflexivity]. rewrite B. reflexivity.
      Qed.

      Lemma flag_ok lp x : (n0 <= x < n1)%nat -> ast_ok lp (set_flag F D x) = true.
      Proof.
        intros H. cbn [set_flag ast_ok]. rewrite gen_exp_ok.
        - rewrite ty_assign. cbn [ty]. rewrite TA_flag, TA_tmp by auto. reflexivity.
        - cbn [well_formed]. rewrite TA_flag, TA_tmp by auto. split; discriminate.
      Qed.
      Lemma int_ok lp x z : (n0 <= x < n1)%nat -> z = 0 \/ z = 1 -> ast_ok lp (set_int F D x z) = true.
      Proof.
        intros H Hz. cbn [set_int ast_ok]. rewrite gen_exp_ok.
        - rewrite ty_assign. cbn [ty]. rewrite TA_tmp by auto. reflexivity.
        - cbn [well_formed]. rewrite TA_tmp by auto. repeat split; try discriminate.
          cbn. destruct Hz as [-> | ->]; reflexivity.
      Qed.

      Definition is_val (c : cond) : bool := match c with CVal _ _ _ => true | _ => false end.

      Lemma cond_accept (c : cond) : forall n p e n', build_cond F D c n = (p, e, n') -> (n0 <= n)%nat -> (n' <= n1)%nat ->
        cond_every (well_formed T) c -> forall lp,
        ast_ok lp p && isS (gen_cond F D TA n1 e) = cond_ok T c /\
        match c with
        | CVal _ _ e' => p = ASkip F D /\ e = e'
        | _ => ast_ok lp p = cond_ok T c /\ exists x, e = EVar F D x /\ (n0 <= x < n1)%nat
        end.
      Proof.
        induction c as [e0 | l IHl r IHr | l IHl r IHr | c IH]; intros n p e n'; cbn [build_cond].
        - intros [= <- <- <-] _ _ W lp. cbn [cond_every ast_ok cond_ok andb] in *. split; [| auto].
          rewrite gen_cond_ok by (apply wf_A; auto). rewrite ty_A by auto. destruct (ty T e0); reflexivity.
        - destruct (build_cond F D l n) as [[pl el] n2] eqn:E1. destruct (build_cond F D r n2) as [[pr er] n3] eqn:E2.
          intros [= <- <- <-] L L' (Wl & Wr) lp. pose proof (build_cond_le _ _ _ _ _ E1). pose proof (build_cond_le _ _ _ _ _ E2).
          assert (H3 : (n0 <= n3 < n1)%nat) by lia.
          destruct (IHl _ _ _ _ E1 L ltac:(lia) Wl false) as (A & _).
          destruct (IHr _ _ _ _ E2 ltac:(lia) ltac:(lia) Wr false) as (B & _).
          assert (C : ast_ok lp (logical_and F D pl el pr er n3) = cond_ok T (CAnd F D l r)).
          { cbn [logical_and ast_ok cond_ok andb]. rewrite !flag_ok by auto. rewrite !andb_true_r. rewrite A, B. reflexivity. }
          rewrite C, gen_cond_ok by (apply wf_tmp; auto). cbn [ty]. rewrite TA_tmp by auto. cbn [isS].
          rewrite andb_true_r. eauto.
        - destruct (build_cond F D l n) as [[pl el] n2] eqn:E1. destruct (build_cond F D r n2) as [[pr er] n3] eqn:E2.
          intros [= <- <- <-] L L' (Wl & Wr) lp. pose proof (build_cond_le _ _ _ _ _ E1). pose proof (build_cond_le _ _ _ _ _ E2).
          assert (H3 : (n0 <= n3 < n1)%nat) by lia.
          destruct (IHl _ _ _ _ E1 L ltac:(lia) Wl false) as (A & _).
          destruct (IHr _ _ _ _ E2 ltac:(lia) ltac:(lia) Wr false) as (B & _).
          assert (C : ast_ok lp (logical_or F D pl el pr er n3) = cond_ok T (COr F D l r)).
          { cbn [logical_or ast_ok cond_ok andb]. rewrite !flag_ok by auto. rewrite !andb_true_r. rewrite A, B. reflexivity. }
          rewrite C, gen_cond_ok by (apply wf_tmp; auto). cbn [ty]. rewrite TA_tmp by auto. cbn [isS].
          rewrite andb_true_r. eauto.
        - destruct (build_cond F D c n) as [[pl el] n2] eqn:E1.
          intros [= <- <- <-] L L' W lp. pose proof (build_cond_le _ _ _ _ _ E1).
          assert (H3 : (n0 <= n2 < n1)%nat) by lia.
          destruct (IH _ _ _ _ E1 L ltac:(lia) W false) as (A & _).
          assert (C : ast_ok lp (logical_not F D pl el n2) = cond_ok T (CNot F D c)).
          { cbn [logical_not ast_ok cond_ok andb]. rewrite !int_ok by auto. rewrite !andb_true_r. exact A. }
          rewrite C, gen_cond_ok by (apply wf_tmp; auto). cbn [ty]. rewrite TA_tmp by auto. cbn [isS].
          rewrite andb_true_r. eauto.
      Qed.

      Lemma not_accept lp p e x : (n0 <= x < n1)%nat ->
        ast_ok lp (logical_not F D p e x) && isS (gen_cond F D TA n1 (EVar F D x)) = ast_ok false p && isS (gen_cond F D TA n1 e).
      Proof.
        intros H. cbn [logical_not ast_ok andb]. rewrite !int_ok by auto. rewrite !andb_true_r.
        rewrite (gen_cond_ok (EVar F D x)) by (apply wf_tmp; auto). cbn [ty]. rewrite TA_tmp by auto. cbn [isS]. rewrite andb_true_r. reflexivity.
      Qed.

      Lemma stmt_accept (s : stmt) : forall n a n', build_stmt F D s n = (a, n') -> (n0 <= n)%nat -> (n' <= n1)%nat ->
        every (well_formed T) s -> forall lp, ast_ok lp a = stmt_ok T rt lp s.
      Proof.
        induction s as [| s1 IH1 s2 IH2 | e | x c | s IH | u c s1 IH1 s2 IH2 | c s IH | i c k s IH | | | c];
          intros n a n'; cbn [build_stmt]; intros B L L' W lp.
        - injection B as <- <-. reflexivity.
        - destruct (build_stmt F D s1 n) as [a1 m1] eqn:E1. destruct (build_stmt F D s2 m1) as [a2 m2] eqn:E2.
          injection B as <- <-. pose proof (build_stmt_le _ _ _ _ E1). pose proof (build_stmt_le _ _ _ _ E2).
          destruct W as (W1 & W2). cbn [ast_ok stmt_ok]. rewrite (IH1 _ _ _ E1), (IH2 _ _ _ E2) by (auto; lia). reflexivity.
        - injection B as <- <-. cbn [ast_ok stmt_ok every] in *. rewrite gen_exp_ok, ty_A by (auto using wf_A).
          destruct (ty T e); reflexivity.
        - destruct (build_cond F D c n) as [[p e] m] eqn:E. injection B as <- <-.
          assert (K : forall We : well_formed TA (EAssign F D x e), match T x with Some _ => TA x = T x | None => True end ->
              T x <> None -> isS (Expr_model.compile F D TA n1 (EAssign F D x e)) =
              match T x with Some d => assignable TA d e | None => false end).
          { intros We _ Tx. rewrite gen_exp_ok by exact We. rewrite ty_assign, TA_ext by exact Tx. unfold assignable.
            destruct (ty TA e), (T x); try reflexivity. destruct (_ || _); reflexivity. }
          pose proof (cond_accept _ _ _ _ _ E L L') as CA.
          cbn [ast_ok stmt_ok]. destruct c as [e0 | cl cr | cl cr | c0].
          + cbn [every] in W. destruct W as (Wx & We). destruct (CA We lp) as (_ & -> & ->). cbn [ast_ok andb].
            rewrite K; try exact Wx.
            * destruct (T x); [| reflexivity]. cbn [cond_assignable]. apply assignable_A. exact We.
            * cbn [well_formed]. rewrite TA_ext by exact Wx. split; [exact Wx | apply wf_A; exact We].
            * destruct (T x) eqn:Ex; [rewrite <- Ex; apply TA_ext; congruence | exact I].
          + cbn [every] in W. destruct W as (Wx & We). destruct (CA We lp) as (_ & Cp & y & -> & Hy). rewrite Cp.
            rewrite K; try exact Wx.
            * destruct (T x) eqn:Ex; [| apply andb_false_r]. cbn [cond_assignable]. f_equal. unfold assignable. cbn [ty narrowing_literal].
              rewrite TA_tmp by auto. rewrite orb_false_r. reflexivity.
            * cbn [well_formed]. rewrite TA_ext, TA_tmp by (auto; exact Wx). split; [exact Wx | discriminate].
            * destruct (T x) eqn:Ex; [rewrite <- Ex; apply TA_ext; congruence | exact I].
          + cbn [every] in W. destruct W as (Wx & We). destruct (CA We lp) as (_ & Cp & y & -> & Hy). rewrite Cp.
            rewrite K; try exact Wx.
            * destruct (T x) eqn:Ex; [| apply andb_false_r]. cbn [cond_assignable]. f_equal. unfold assignable. cbn [ty narrowing_literal].
              rewrite TA_tmp by auto. rewrite orb_false_r. reflexivity.
            * cbn [well_formed]. rewrite TA_ext, TA_tmp by (auto; exact Wx). split; [exact Wx | discriminate].
            * destruct (T x) eqn:Ex; [rewrite <- Ex; apply TA_ext; congruence | exact I].
          + cbn [every] in W. destruct W as (Wx & We). destruct (CA We lp) as (_ & Cp & y & -> & Hy). rewrite Cp.
            rewrite K; try exact Wx.
            * destruct (T x) eqn:Ex; [| apply andb_false_r]. cbn [cond_assignable]. f_equal. unfold assignable. cbn [ty narrowing_literal].
              rewrite TA_tmp by auto. rewrite orb_false_r. reflexivity.
            * cbn [well_formed]. rewrite TA_ext, TA_tmp by (auto; exact Wx). split; [exact Wx | discriminate].
            * destruct (T x) eqn:Ex; [rewrite <- Ex; apply TA_ext; congruence | exact I].
        - destruct (build_stmt F D s n) as [a1 m1] eqn:E1. injection B as <- <-. cbn [ast_ok stmt_ok]. eapply IH; eauto.
        - destruct (build_cond F D c n) as [[p e] m] eqn:E. destruct (build_stmt F D s1 m) as [a1 m1] eqn:E1.
          destruct (build_stmt F D s2 m1) as [a2 m2] eqn:E2.
          pose proof (build_cond_le _ _ _ _ _ E). pose proof (build_stmt_le _ _ _ _ E1). pose proof (build_stmt_le _ _ _ _ E2).
          cbn [every] in W. destruct W as (Wc & W1 & W2).
          assert (M : (m <= n1 /\ m1 <= n1 /\ m2 <= n1)%nat) by (destruct u; injection B as <- <-; lia).
          destruct (cond_accept _ _ _ _ _ E L ltac:(lia) Wc false) as (CA & _).
          pose proof (IH1 _ _ _ E1 ltac:(lia) ltac:(lia) W1 lp) as A1. pose proof (IH2 _ _ _ E2 ltac:(lia) ltac:(lia) W2 lp) as A2.
          destruct u; injection B as <- <-; cbn [ast_ok stmt_ok].
          + rewrite not_accept by lia. rewrite CA, A1, A2. reflexivity.
          + rewrite CA, A1, A2. reflexivity.
        - destruct (build_cond F D c n) as [[p e] m] eqn:E. destruct (build_stmt F D s m) as [a1 m1] eqn:E1.
          injection B as <- <-. pose proof (build_cond_le _ _ _ _ _ E). pose proof (build_stmt_le _ _ _ _ E1).
          cbn [every] in W. destruct W as (Wc & W1).
          destruct (cond_accept _ _ _ _ _ E L ltac:(lia) Wc false) as (CA & _).
          pose proof (IH _ _ _ E1 ltac:(lia) ltac:(lia) W1 true) as A1. cbn [ast_ok stmt_ok andb].
          rewrite A1, <- CA, !andb_true_r. rewrite andb_comm, <- !andb_assoc.
          destruct (ast_ok false p), (isS (gen_cond F D TA n1 e)), (stmt_ok T rt true s); reflexivity.
        - destruct (build_cond F D c n) as [[p e] m] eqn:E. destruct (build_stmt F D s m) as [a1 m1] eqn:E1.
          injection B as <- <-. pose proof (build_cond_le _ _ _ _ _ E). pose proof (build_stmt_le _ _ _ _ E1).
          cbn [every] in W. destruct W as (Wi & Wc & Wk & W1).
          destruct (cond_accept _ _ _ _ _ E L ltac:(lia) Wc false) as (CA & _).
          pose proof (IH _ _ _ E1 ltac:(lia) ltac:(lia) W1 true) as A1. cbn [ast_ok stmt_ok].
          rewrite A1, <- CA, !gen_exp_ok, !ty_A by (auto using wf_A).
          destruct (ty T i), (ty T k), (ast_ok false p), (isS (gen_cond F D TA n1 e)), (stmt_ok T rt true s); reflexivity.
        - injection B as <- <-. reflexivity.
        - injection B as <- <-. reflexivity.
        - destruct (build_cond F D c n) as [[p e] m] eqn:E. injection B as <- <-.
          pose proof (cond_accept _ _ _ _ _ E L L' W lp) as (_ & CA). cbn [ast_ok stmt_ok].
          destruct c as [e0 | cl cr | cl cr | c0].
          + destruct CA as (-> & ->). cbn [ast_ok andb cond_assignable]. rewrite gen_return_ok by (apply wf_A; exact W).
            apply assignable_A. exact W.
          + destruct CA as (-> & y & -> & Hy). rewrite gen_return_ok by (apply wf_tmp; auto).
            cbn [cond_assignable]. f_equal. unfold assignable. cbn [ty narrowing_literal]. rewrite TA_tmp by auto. rewrite orb_false_r. reflexivity.
          + destruct CA as (-> & y & -> & Hy). rewrite gen_return_ok by (apply wf_tmp; auto).
            cbn [cond_assignable]. f_equal. unfold assignable. cbn [ty narrowing_literal]. rewrite TA_tmp by auto. rewrite orb_false_r. reflexivity.
          + destruct CA as (-> & y & -> & Hy). rewrite gen_return_ok by (apply wf_tmp; auto).
            cbn [cond_assignable]. f_equal. unfold assignable. cbn [ty narrowing_literal]. rewrite TA_tmp by auto. rewrite orb_false_r. reflexivity.
      Qed.
    End Accept.

    (** *** Conditions *)
    Definition rel (R : regs) (st : store) : Prop := forall x s, T x = Some s -> R s x = st x.
    Definition relA (R : regs) (sto : store) : Prop := forall x s, TA x = Some s -> R s x = sto x.
    Definition of_regs (R : regs) : store := fun x => R (vtyp TA x) x.
    Lemma relA_of R : relA R (of_regs R).
    Proof. intros x s E. unfold of_regs, vtyp. rewrite E. reflexivity. Qed.
    Lemma rel_alike R st : rel R st -> alike T st (of_regs R).
    Proof.
      intros H x Hx. destruct (T x) as [s |] eqn:E; [| congruence]. rewrite <- (H _ _ E).
      unfold of_regs, vtyp. rewrite TA_ext, E by congruence. reflexivity.
    Qed.
    Lemma alike_rel R st sto : alike T st sto -> (forall x s, T x = Some s -> R s x = sto x) -> rel R st.
    Proof. intros A H x s E. rewrite (A x) by congruence. auto. Qed.
    Lemma rset_other (R : regs) t x v s y : y <> x -> rset R t x v s y = R s y.
    Proof. intros N. unfold Expr_model.rset. rewrite (proj2 (Nat.eqb_neq y x) N), andb_false_r. reflexivity. Qed.
    Lemma rset_same (R : regs) t x v : rset R t x v t x = v.
    Proof. unfold Expr_model.rset. rewrite nty_eqb_refl, Nat.eqb_refl. reflexivity. Qed.
    Lemma rel_rset (R : regs) st t x v : rel R st -> T x = None -> rel (rset R t x v) st.
    Proof. intros H N y s E. rewrite rset_other; auto. intros ->. congruence. Qed.
    Lemma T_tmp x : (n0 <= x)%nat -> T x = None.
    Proof. apply fresh. Qed.

    Lemma gen_cond_run (e : expr) lc r R sto : well_formed TA e -> stable TA e -> not_dropped TA e ->
      gen_cond F D TA n1 e = Some (lc, r) -> relA R sto ->
      orel (fun p R' => R' TInt r = VI (fst p) /\ R' TInt FLAG = VI (fst p) /\
                        forall x s, TA x = Some s -> x <> FLAG -> R' s x = snd p x)
        (let! p := eval fl TA e sto in let! z := truth fl (typ TA e) (fst p) in Ret (z, snd p)) (lrun fl R lc).
    Proof.
      intros W S N G HR. pose proof (gen_cond_eq fl TA n1 TA_fresh e W) as H.
      destruct (ty TA e) as [t |] eqn:Y; [| congruence].
      destruct H as (c & r' & G' & C & L). rewrite G' in G. injection G as <- <-.
      rewrite (typ_eq TA _ _ Y).
      assert (Yp : ty TA (promoted t e) = Some (widen t)).
      { unfold promoted. destruct (Nat.leb_spec (rank t) (rank TInt)) as [Lt | Lt].
        - cbn [ty]. rewrite Y. destruct t; cbn in Lt; try reflexivity; lia.
        - rewrite Y. destruct t; cbn in Lt; try reflexivity; lia. }
      assert (Wp : well_formed TA (promoted t e)) by (unfold promoted; destruct (Nat.leb _ _); auto).
      assert (Sp : stable TA (promoted t e)) by (unfold promoted; destruct (Nat.leb _ _); auto).
      assert (Np : not_dropped TA (promoted t e)) by (unfold promoted; destruct (Nat.leb _ _); auto).
      pose proof (compile_correct fl TA n1 _ TA_fresh Wp c _ R sto C Yp Sp Np HR) as K.
      rewrite lrun_app, lrun_LI.
      assert (EQ : (let! p := eval fl TA e sto in let! z := truth fl t (fst p) in Ret (z, snd p)) =
        (let! q := eval fl TA (promoted t e) sto in
         let! v := cond_val F D fl (widen t) (fst q) in
         match v with Expr_model.VI _ _ z => Ret (z, snd q) | _ => UB end)).
      { unfold promoted. destruct (Nat.leb_spec (rank t) (rank TInt)) as [Lt | Lt].
        - cbn [eval]. rewrite (typ_eq TA _ _ Y), obind_assoc. destruct (eval fl TA e sto) as [[v s] | | |]; try reflexivity.
          cbn [obind fst snd]. destruct t; cbn in Lt; try lia; cbn [truth widen];
            (destruct (doc_conv fl _ TInt v) as [[z | f | f] | | |]; reflexivity).
        - destruct (eval fl TA e sto) as [[v s] | | |]; try reflexivity. cbn [obind fst snd].
          destruct t; cbn in Lt; try lia; destruct v as [z | f | f]; cbn; try reflexivity.
          + destruct (z =? 0); reflexivity.
          + destruct (f_eq F D fl f (f_of_z F D fl 0)); reflexivity.
          + destruct (d_eq F D fl f (d_of_z F D fl 0)); reflexivity. }
      rewrite EQ. clear EQ.
      eapply orel_bind; [exact K |]. intros (v & s) R1 (V & HR1). cbn [fst snd] in *.
      cbn [lrun lstep Prog_model.lstep]. rewrite V.
      assert (CV : cond_val F D fl (widen t) v = UB \/ exists z, cond_val F D fl (widen t) v = Ret (VI z)).
      { destruct t, v; try (left; reflexivity); right; eexists; reflexivity. }
      destruct CV as [-> | (z & ->)]; cbn [obind step]; [constructor |]. constructor. cbn [fst snd].
      assert (Nr : r' <> FLAG) by (unfold FLAG; lia).
      rewrite !rset_same. split; [| split; [reflexivity |]].
      - rewrite rset_other by auto. apply rset_same.
      - intros x t' E Nx. rewrite !rset_other; auto. intros ->. rewrite TA_fresh in E by auto. discriminate.
    Qed.

    Lemma truth_not_fuel t v : truth fl t v <> Fuel.
    Proof.
      assert (A : forall s d v, doc_conv fl s d v <> Fuel).
      { intros s d v0. unfold doc_conv, undefined_or. destruct v0; destruct (same s d); try discriminate;
          repeat match goal with |- context [if ?b then _ else _] => destruct b end; try discriminate;
          match goal with |- context [match ?o with Some _ => _ | None => _ end] => destruct o end; discriminate. }
      destruct t, v; cbn [truth]; try discriminate;
        match goal with |- context [doc_conv fl ?s ?d ?v] => specialize (A s d v); destruct (doc_conv fl s d v) as [[? | ? | ?] | | |] end;
        cbn; congruence.
    Qed.
    Lemma doc_conv_not_fuel s d v : doc_conv fl s d v <> Fuel.
    Proof.
      unfold doc_conv, undefined_or. destruct v; destruct (same s d); try discriminate;
          repeat match goal with |- context [if ?b then _ else _] => destruct b end; try discriminate;
          match goal with |- context [match ?o with Some _ => _ | None => _ end] => destruct o end; discriminate.
    Qed.
    Lemma obind_not_fuel {A B} (o : outcome A) (f : A -> outcome B) : o <> Fuel -> (forall a, f a <> Fuel) -> obind o f <> Fuel.
    Proof. destruct o; cbn [obind]; auto; congruence. Qed.

    (** In the machine. *)
    Section Machine.
      Variables (tbl : list linstr) (me : nat) (call_ : nat -> world -> option (Z * world)) (rt : nty).
      Local Notation P := (machine F D fl tbl).
      Local Notation sst := (sst world (option regs)).
      Local Notation sem f := (sem P me call_ f).
      Local Notation here w R := (mks w (Some R) 0 [] : sst).
      Local Notation gen_ast := (gen_ast F D TA n1 rt).

      (** The pair [p], [e] computes the condition [c]. *)
      Definition computes (p : ast) (e : expr) (c : store -> outcome (Z * store)) : Prop :=
        forall lp k np l lc r, gen_ast lp k p = Some (np, l) -> gen_cond F D TA n1 e = Some (lc, r) -> at_ tbl k (l ++ lc) ->
        forall f w R st, rel R st ->
        res false w (tested r (fun q R => R TInt FLAG = VI (fst q) /\ rel R (snd q))) (c st)
          (sem f (NSeq np (nodes F D (k + length l) lc)) (here w R)).
      (** The statements [p] leave the condition in the variable [x]. *)
      Definition leaves (p : ast) (x : nat) (c : store -> outcome (Z * store)) : Prop :=
        forall lp k np l, gen_ast lp k p = Some (np, l) -> at_ tbl k l ->
        forall f w R st, rel R st ->
        res false w (fun q R => R TInt x = VI (fst q) /\ rel R (snd q)) (c st) (sem f np (here w R)).

      Lemma plain_cond np l k : plain false np = true -> plain false (NSeq np (nodes F D k l)) = true.
      Proof. intros H. cbn [plain]. rewrite H, plain_nodes. reflexivity. Qed.

      Lemma leaves_computes p x c : (n0 <= x < n1)%nat -> (forall st, c st <> Fuel) -> leaves p x c -> computes p (EVar F D x) c.
      Proof.
        intros Hx NF H lp k np l lc r Gp Gc A f w R st HR. apply at_app in A. destruct A as (A1 & A2).
        assert (Pn : plain false (nodes F D (k + length l) lc) = true) by apply plain_nodes.
        pose proof (H lp k np l Gp A1 f w R st HR) as H1.
        replace (c st) with (let! q := c st in Ret q) by (destruct (c st); reflexivity).
        eapply res_seq; [exact H1 | | exact Pn].
        intros q R1 (V & HR1).
        pose proof (gen_cond_run (EVar F D x) lc r R1 (of_regs R1) (wf_tmp _ Hx) I I Gc (relA_of R1)) as K.
        cbn [eval obind fst snd] in K. unfold typ in K. cbn [ty] in K. rewrite TA_tmp in K by auto.
        unfold truth in K. assert (E : doc_conv fl TInt TInt (of_regs R1 x) = Ret (VI (fst q))).
        { unfold doc_conv. cbn [same rank Nat.eqb]. unfold of_regs, vtyp. rewrite TA_tmp, V by auto. reflexivity. }
        rewrite E in K. cbn [obind] in K.
        eapply res_nodes; [exact A2 | | discriminate].
        inversion K as [a R2 (K1 & K2 & K3) E1 E2 | | |]. subst a. constructor. cbn [fst snd] in *.
        split; [exact K1 | split; [exact K2 |]].
        eapply alike_rel; [apply rel_alike; exact HR1 |]. intros y s Ey.
        destruct (T_small _ _ Ey) as (Ny & _). apply K3; [rewrite TA_ext; congruence | exact Ny].
      Qed.

      Lemma set_flag_run lp k x n l w R st f z : (n0 <= x < n1)%nat -> gen_ast lp k (set_flag F D x) = Some (n, l) -> at_ tbl k l ->
        rel R st -> R TInt FLAG = VI z ->
        res false w (fun q R => R TInt x = VI (fst q) /\ rel R (snd q)) (Ret (z, st)) (sem f n (here w R)).
      Proof.
        intros Hx. cbn [set_flag Prog_model.gen_ast].
        assert (E : Expr_model.compile F D TA n1 (EAssign F D x (EVar F D FLAG)) = Some (Code F D TA [IMove F D TInt x FLAG] FLAG)).
        { unfold Expr_model.compile. cbn [build check get_type].  rewrite TA_flag, (TA_tmp x Hx). cbv iota beta. rewrite (TA_tmp x Hx). change (check_assign F D TInt TInt (OVar F D FLAG)) with (Some (OVar F D FLAG)).
          cbn [temps gen place assign_source assign_instr]. rewrite TA_tmp by auto. reflexivity. }
        rewrite E. cbn [c_instrs map]. intros [= <- <-] A HR V.
        change (NSeq (NDo k) NSkip) with (nodes F D k [LI F D (IMove F D TInt x FLAG)]).
        eapply res_nodes; [exact A | | discriminate].
        cbn [lrun Prog_model.lstep step obind]. constructor. cbn [fst snd]. rewrite rset_same. split; [exact V |].
        apply rel_rset; auto. apply fresh. lia.
      Qed.
      Lemma set_int_run lp k x n l w R st f z : (n0 <= x < n1)%nat -> z = 0 \/ z = 1 -> gen_ast lp k (set_int F D x z) = Some (n, l) -> at_ tbl k l ->
        rel R st ->
        res false w (fun q R => R TInt x = VI (fst q) /\ rel R (snd q)) (Ret (z, st)) (sem f n (here w R)).
      Proof.
        intros Hx Hz. cbn [set_int Prog_model.gen_ast].
        assert (E : Expr_model.compile F D TA n1 (EAssign F D x (EConst F D TInt (VI z))) = Some (Code F D TA [IConst F D TInt x (VI (z mod 2 ^ 32))] x)).
        { unfold Expr_model.compile. cbn [build check get_type]. rewrite (TA_tmp x Hx). cbv iota beta. rewrite (TA_tmp x Hx). change (check_assign F D TInt TInt (OConst F D TInt (VI z))) with (Some (OConst F D TInt (VI z))).
          cbn [temps to_tmp gen place assign_source assign_instr const_type encode]. rewrite TA_tmp by auto. reflexivity. }
        rewrite E. cbn [c_instrs map]. intros [= <- <-] A HR.
        change (NSeq (NDo k) NSkip) with (nodes F D k [LI F D (IConst F D TInt x (VI (z mod 2 ^ 32)))]).
        eapply res_nodes; [exact A | | discriminate].
        cbn [lrun Prog_model.lstep step obind]. constructor. cbn [fst snd]. rewrite rset_same. split.
        - destruct Hz as [-> | ->]; reflexivity.
        - apply rel_rset; auto. apply fresh. lia.
      Qed.

      Lemma decl_run k x w R st f : (n0 <= x < n1)%nat -> at_ tbl k [LZero F D TInt x] -> rel R st ->
        res false w (fun (_ : unit) R => rel R st) (Ret tt) (sem f (nodes F D k [LZero F D TInt x]) (here w R)).
      Proof.
        intros Hx A HR. eapply res_nodes; [exact A | | discriminate]. cbn [lrun Prog_model.lstep obind]. constructor.
        apply rel_rset; auto. apply fresh. lia.
      Qed.

      (** An if statement of a logical operator. *)
      Lemma gen_if lp k ns p e t g n l : gen_ast lp k (AIf F D ns p e t g) = Some (n, l) ->
        exists np lpre lc r nt lt nf lf,
          gen_ast false k p = Some (np, lpre) /\ gen_cond F D TA n1 e = Some (lc, r) /\
          gen_ast lp (k + length (lpre ++ lc)) t = Some (nt, lt) /\
          gen_ast lp (k + length (lpre ++ lc ++ lt)) g = Some (nf, lf) /\
          n = NIf ns (NSeq np (nodes F D (k + length lpre) lc)) r nt nf /\ l = (lpre ++ lc) ++ lt ++ lf.
      Proof.
        cbn [Prog_model.gen_ast].
        destruct (gen_ast false k p) as [[np lpre] |] eqn:E1; [| discriminate].
        destruct (gen_cond _ _ _ _ _) as [[lc r] |] eqn:E2; [| discriminate].
        destruct (gen_ast lp _ t) as [[nt lt] |] eqn:E3; [| discriminate].
        destruct (gen_ast lp _ g) as [[nf lf] |] eqn:E4; [| discriminate].
        intros [= <- <-]. exists np, lpre, lc, r, nt, lt, nf, lf. repeat split; auto. rewrite <- app_assoc. reflexivity.
      Qed.

      (** The if statement of a logical operator, from its three parts. *)
      Lemma if_leaves p e c x t g ct cg :
        computes p e c ->
        (forall lp k n l w R st f z, gen_ast lp k t = Some (n, l) -> at_ tbl k l -> rel R st -> R TInt FLAG = VI z -> z <> 0 ->
           res false w (fun q R => R TInt x = VI (fst q) /\ rel R (snd q)) (ct z st) (sem f n (here w R))) ->
        (forall lp k n l w R st f, gen_ast lp k g = Some (n, l) -> at_ tbl k l -> rel R st -> R TInt FLAG = VI 0 ->
           res false w (fun q R => R TInt x = VI (fst q) /\ rel R (snd q)) (cg st) (sem f n (here w R))) ->
        (forall lp k n l, gen_ast lp k g = Some (n, l) -> plain false n = true) ->
        leaves (AIf F D true p e t g) x (fun st => let! q := c st in if fst q =? 0 then cg (snd q) else ct (fst q) (snd q)).
      Proof.
        intros Hc Ht Hg Pg lp k n l G A f w R st HR.
        destruct (gen_if _ _ _ _ _ _ _ _ _ G) as (np & lpre & lc & r & nt & lt & nf & lf & G1 & G2 & G3 & G4 & -> & ->).
        apply at_app in A. destruct A as (A1 & A2). apply at_app in A2. destruct A2 as (A2 & A3).
        eapply (res_if fl tbl me call_ f false w r _ _ (c st) (fun q => ct (fst q) (snd q)) (fun q => cg (snd q))).
        - eapply (Hc false); eauto.
        - intros q R1 (V & HR1) Nz. eapply Ht; eauto.
        - intros q R1 (V & HR1) Ez. rewrite Ez in V. eapply Hg; eauto.
          rewrite !app_length in *. replace (k + (length lpre + (length lc + length lt)))%nat with (k + (length lpre + length lc) + length lt)%nat by lia. exact A3.
        - eapply Pg; eauto.
      Qed.

      Lemma decl_leaves p x y c : (n0 <= y < n1)%nat -> leaves p x c -> (forall lp k n l, gen_ast lp k p = Some (n, l) -> plain false n = true) ->
        leaves (ASeq F D (ADecl F D y) p) x c.
      Proof.
        intros Hy H Pp lp k np l. cbn [Prog_model.gen_ast].
        destruct (gen_ast lp _ p) as [[n1' l1] |] eqn:E; [| discriminate]. intros [= <- <-] A f w R st HR.
        change (LZero F D TInt y :: l1) with ([LZero F D TInt y] ++ l1) in A. apply at_app in A. destruct A as (A1 & A2).
        change (c st) with (let! _ := Ret tt in c st).
        eapply res_seq with (Q := fun (_ : unit) R => rel R st).
        - change (NSeq (NDo k) NSkip) with (nodes F D k [LZero F D TInt y]). apply decl_run; auto.
        - intros _ R1 HR1. eapply H; eauto.
        - eapply Pp; eauto.
      Qed.

      Lemma plain_if (ns : bool) p e t g :
        (forall lp k n l, gen_ast lp k t = Some (n, l) -> plain false n = true) ->
        (forall lp k n l, gen_ast lp k g = Some (n, l) -> plain false n = true) ->
        forall lp k n l, gen_ast lp k (AIf F D ns p e t g) = Some (n, l) -> plain false n = true.
      Proof.
        intros Ht Hg lp k n l G.
        destruct (gen_if _ _ _ _ _ _ _ _ _ G) as (np & lpre & lc & r & nt & lt & nf & lf & G1 & G2 & G3 & G4 & -> & ->).
        cbn [plain]. rewrite (plain_gen _ _ _ _ _ _ _ _ G1), plain_nodes, (Ht _ _ _ _ G3), (Hg _ _ _ _ G4). reflexivity.
      Qed.
      Lemma plain_exp e : forall lp k n l, gen_ast lp k (AExp F D e) = Some (n, l) -> plain false n = true.
      Proof.
        intros lp k n l. cbn [Prog_model.gen_ast]. destruct (Expr_model.compile _ _ _ _ _); [| discriminate].
        intros [= <- _]. apply plain_nodes.
      Qed.
      Local Hint Resolve plain_if plain_exp : core.

      Lemma res_eq {A} lp w (Q : A -> regs -> Prop) o o' x : res lp w Q o x -> o = o' -> res lp w Q o' x.
      Proof. intros H <-. exact H. Qed.
      Lemma leaves_eq p x c c' : leaves p x c -> (forall st, c st = c' st) -> leaves p x c'.
      Proof. intros H E lp k np l G A f w R st HR. rewrite <- E. eapply H; eauto. Qed.

      Lemma and_leaves pl l pr r cl cr x : (n0 <= x < n1)%nat -> computes pl l cl -> computes pr r cr ->
        leaves (logical_and F D pl l pr r x) x
          (fun st => let! p := cl st in if fst p =? 0 then Ret (0, snd p) else cr (snd p)).
      Proof.
        intros Hx Hl Hr. apply decl_leaves; [auto | | apply plain_if; [apply plain_if |]; apply plain_exp].
        assert (In : leaves (AIf F D true pr r (set_flag F D x) (set_flag F D x)) x cr).
        { eapply leaves_eq; [apply (if_leaves pr r cr x _ _ (fun z st => Ret (z, st)) (fun st => Ret (0, st))); auto |].
          - intros. eapply set_flag_run; eauto.
          - intros. eapply set_flag_run; eauto.
          - apply plain_exp.
          - intros st. cbv beta. destruct (cr st) as [[z s] | | |]; cbn [obind fst snd]; try reflexivity.
            destruct (Z.eqb_spec z 0); subst; reflexivity. }
        apply (if_leaves pl l cl x _ _ (fun z st => cr st) (fun st => Ret (0, st))); auto.
        - intros lp k n l0 w R st f z G A HR _ _. eapply In; eauto.
        - intros. eapply set_flag_run; eauto.
        - apply plain_exp.
      Qed.
      Lemma or_leaves pl l pr r cl cr x : (n0 <= x < n1)%nat -> computes pl l cl -> computes pr r cr ->
        leaves (logical_or F D pl l pr r x) x
          (fun st => let! p := cl st in if fst p =? 0 then cr (snd p) else Ret p).
      Proof.
        intros Hx Hl Hr. apply decl_leaves; [auto | | apply plain_if; [| apply plain_if]; apply plain_exp].
        assert (In : leaves (AIf F D true pr r (set_flag F D x) (set_flag F D x)) x cr).
        { eapply leaves_eq; [apply (if_leaves pr r cr x _ _ (fun z st => Ret (z, st)) (fun st => Ret (0, st))); auto |].
          - intros. eapply set_flag_run; eauto.
          - intros. eapply set_flag_run; eauto.
          - apply plain_exp.
          - intros st. cbv beta. destruct (cr st) as [[z s] | | |]; cbn [obind fst snd]; try reflexivity.
            destruct (Z.eqb_spec z 0); subst; reflexivity. }
        eapply leaves_eq; [apply (if_leaves pl l cl x _ _ (fun z st => Ret (z, st)) (fun st => cr st)); auto |].
        - intros. eapply set_flag_run; eauto.
        - intros lp k n l0 w R st f G A HR _. eapply In; eauto.
        - apply plain_if; apply plain_exp.
        - intros st. cbv beta. destruct (cl st) as [[z s] | | |]; reflexivity.
      Qed.
      Lemma not_leaves p e c x : (n0 <= x < n1)%nat -> computes p e c ->
        leaves (logical_not F D p e x) x
          (fun st => let! p := c st in Ret ((if fst p =? 0 then 1 else 0), snd p)).
      Proof.
        intros Hx Hc. apply decl_leaves; [auto | | apply plain_if; apply plain_exp].
        eapply leaves_eq; [apply (if_leaves p e c x _ _ (fun z st => Ret (0, st)) (fun st => Ret (1, st))); auto |].
        - intros. eapply set_int_run; eauto.
        - intros. eapply set_int_run; eauto.
        - apply plain_exp.
        - intros st. cbv beta. destruct (c st) as [[z s] | | |]; cbn [obind fst snd]; try reflexivity. destruct (z =? 0); reflexivity.
      Qed.

      Definition good_expr (e : expr) : Prop := well_formed T e /\ stable T e /\ not_dropped T e.
      Lemma good_A e : good_expr e -> well_formed TA e /\ stable TA e /\ not_dropped TA e.
      Proof.
        intros (W & S & N). split; [apply wf_A; auto | split].
        - apply (stable_ext T TA TA_ext); auto.
        - apply (not_dropped_ext T TA TA_ext); auto.
      Qed.

      Lemma truth_of_not_fuel (c : cond) : forall st, truth_of fl T c st <> Fuel.
      Proof.
        induction c; intros st; cbn [truth_of]; repeat (apply obind_not_fuel; [| intros ?]);
          auto using eval_not_fuel, truth_not_fuel; try discriminate;
          match goal with |- context [if ?b then _ else _] => destruct b end; auto; discriminate.
      Qed.

      Lemma cond_run (c : cond) : forall n p e n', build_cond F D c n = (p, e, n') -> (n0 <= n)%nat -> (n' <= n1)%nat ->
        cond_every good_expr c -> computes p e (truth_of fl T c).
      Proof.
        induction c as [e0 | l IHl r IHr | l IHl r IHr | c IH]; intros n p e n'; cbn [build_cond].
        - intros [= <- <- <-] _ _ W lp k np l lc r [= <- <-] Gc A f w R st HR. cbn [app length] in *. rewrite Nat.add_0_r.
          change (sem f (NSeq NSkip (nodes F D k lc)) (here w R)) with (sem f (nodes F D k lc) (here w R)).
          destruct (good_A _ W) as (WA & SA & NA). cbn [cond_every] in W. destruct W as (W & _).
          pose proof (gen_cond_run e0 lc r R (of_regs R) WA SA NA Gc (relA_of R)) as K.
          eapply res_nodes; [exact A | | apply truth_of_not_fuel].
          cbn [truth_of]. rewrite (typ_ext T TA TA_ext) in K by exact W.
          pose proof (eval_ext fl T TA TA_ext e0 st (of_regs R) W (rel_alike _ _ HR)) as EE.
          destruct EE as [(v & s) (v' & s') (E1 & E2) | msg | |]; cbn [obind fst snd] in *.
          + subst v'. destruct (truth fl (typ T e0) v) as [z | msg | |]; cbn [obind] in *.
            * inversion K as [a R2 (K1 & K2 & K3) X1 X2 | | |]. subst a. constructor. cbn [fst snd] in *.
              split; [exact K1 | split; [exact K2 |]].
              eapply alike_rel; [exact E2 |]. intros y t Ey.
              destruct (T_small _ _ Ey) as (Ny & _). apply K3; [rewrite TA_ext; congruence | exact Ny].
            * inversion K. constructor.
            * inversion K. constructor.
            * inversion K. constructor.
          + inversion K. constructor.
          + inversion K. constructor.
          + inversion K. constructor.
        - destruct (build_cond F D l n) as [[pl el] n2] eqn:E1. destruct (build_cond F D r n2) as [[pr er] n3] eqn:E2.
          intros [= <- <- <-] L L' (Wl & Wr). pose proof (build_cond_le _ _ _ _ _ E1). pose proof (build_cond_le _ _ _ _ _ E2).
          apply leaves_computes; [lia | apply truth_of_not_fuel |].
          apply and_leaves; [lia | eapply IHl; eauto; lia | eapply IHr; eauto; lia].
        - destruct (build_cond F D l n) as [[pl el] n2] eqn:E1. destruct (build_cond F D r n2) as [[pr er] n3] eqn:E2.
          intros [= <- <- <-] L L' (Wl & Wr). pose proof (build_cond_le _ _ _ _ _ E1). pose proof (build_cond_le _ _ _ _ _ E2).
          apply leaves_computes; [lia | apply truth_of_not_fuel |].
          apply or_leaves; [lia | eapply IHl; eauto; lia | eapply IHr; eauto; lia].
        - destruct (build_cond F D c n) as [[pl el] n2] eqn:E1.
          intros [= <- <- <-] L L' W. pose proof (build_cond_le _ _ _ _ _ E1).
          apply leaves_computes; [lia | apply truth_of_not_fuel |].
          apply not_leaves; [lia | eapply IH; eauto; lia].
      Qed.

      (** The same without the condition evaluation. *)
      Lemma pre_run (c : cond) n p e n' : build_cond F D c n = (p, e, n') -> (n0 <= n)%nat -> (n' <= n1)%nat ->
        cond_every good_expr c ->
        match c with
        | CVal _ _ e' => p = ASkip F D /\ e = e'
        | _ => exists x, e = EVar F D x /\ (n0 <= x < n1)%nat /\ leaves p x (truth_of fl T c)
        end.
      Proof.
        destruct c as [e0 | l r | l r | c]; cbn [build_cond].
        - intros [= <- <- <-]. auto.
        - destruct (build_cond F D l n) as [[pl el] n2] eqn:E1. destruct (build_cond F D r n2) as [[pr er] n3] eqn:E2.
          intros [= <- <- <-] L L' (Wl & Wr). pose proof (build_cond_le _ _ _ _ _ E1). pose proof (build_cond_le _ _ _ _ _ E2).
          exists n3. split; [reflexivity | split; [lia |]].
          apply and_leaves; [lia | eapply cond_run; eauto; lia | eapply cond_run; eauto; lia].
        - destruct (build_cond F D l n) as [[pl el] n2] eqn:E1. destruct (build_cond F D r n2) as [[pr er] n3] eqn:E2.
          intros [= <- <- <-] L L' (Wl & Wr). pose proof (build_cond_le _ _ _ _ _ E1). pose proof (build_cond_le _ _ _ _ _ E2).
          exists n3. split; [reflexivity | split; [lia |]].
          apply or_leaves; [lia | eapply cond_run; eauto; lia | eapply cond_run; eauto; lia].
        - destruct (build_cond F D c n) as [[pl el] n2] eqn:E1.
          intros [= <- <- <-] L L' W. pose proof (build_cond_le _ _ _ _ _ E1).
          exists n2. split; [reflexivity | split; [lia |]].
          apply not_leaves; [lia | eapply cond_run; eauto; lia].
      Qed.
      (** *** Statements *)
      Lemma poisoned_mono lp x : poisoned false x -> poisoned (F:=F) (D:=D) lp x.
      Proof. intros (sg & s & E & Rn & Ln & Q). exists sg, s. destruct sg; try contradiction; try discriminate Q; auto. Qed.
      Lemma res_lp {A} lp w (Q : A -> regs -> Prop) o x : res false w Q o x -> res lp w Q o x.
      Proof. intros H. eapply res_mono; [exact H | auto | discriminate]. Qed.

      Lemma after_bind {A B} (o : outcome A) (f : A -> outcome B) (g : B -> option (done (F:=F) (D:=D))) :
        after (obind o f) g = after o (fun x => after (f x) g).
      Proof. destruct o; reflexivity. Qed.

      Lemma fits_res {A} lp b w (Q : A -> regs -> Prop) o x g :
        res false w Q o x -> (forall v R, Q v R -> rel R (g v)) ->
        fits lp b w rel (after o (fun v => Some (Normal (g v)))) x.
      Proof.
        intros H K. destruct o; cbn [res after fits] in *.
        - destruct H as (R & -> & HQ). exists R. auto.
        - exact H.
        - right. apply poisoned_mono. exact H.
        - contradiction.
      Qed.

      Lemma fits_seq f lp b w d g a n s :
        fits lp b w rel d (sem f a s) -> (forall st R, rel R st -> fits lp b w rel (g st) (sem f n (here w R))) -> plain lp n = true ->
        fits lp b w rel (match d with Some (Normal st) => g st | other => other end) (sem f (NSeq a n) s).
      Proof.
        intros H K Pl. destruct d as [[st | st | st | v | msg |] |]; cbn [fits] in *; cbn [Code_spec.sem].
        - destruct H as (R & E & HR). rewrite E. auto.
        - destruct H as (L & R & E & HR). rewrite E. eauto.
        - destruct H as (L & R & E & HR). rewrite E. eauto.
        - destruct H as (R & E). rewrite E. eauto.
        - destruct H as (R & E). rewrite E. eauto.
        - destruct H as [(Eb & E) | H]; [left; rewrite E; auto | right].
          apply (poisoned_seq fl tbl me call_ f lp a n s H Pl).
        - intros Eb. rewrite (H Eb). reflexivity.
      Qed.

      Lemma fits_block f lp b w d n s : fits lp b w rel d (sem f n s) -> fits lp b w rel d (sem f (NBlock n) s).
      Proof.
        intros H. destruct d as [[st | st | st | v | msg |] |]; cbn [fits] in *; cbn [Code_spec.sem].
        - destruct H as (R & E & HR). rewrite E, leave_nil by reflexivity. eauto.
        - destruct H as (L & R & E & HR). rewrite E. eauto.
        - destruct H as (L & R & E & HR). rewrite E. eauto.
        - destruct H as (R & E). rewrite E. eauto.
        - destruct H as (R & E). rewrite E. eauto.
        - destruct H as [(Eb & E) | (sg & s1 & E & R1 & L1 & Q1)]; [left; rewrite E; auto | right].
          rewrite E. exists sg, s1. destruct sg; try contradiction; rewrite ?leave_nil by auto; auto.
        - intros Eb. rewrite (H Eb). reflexivity.
      Qed.

      Lemma exp_runA (e : expr) lp k n l f w R : well_formed TA e -> stable TA e -> not_dropped TA e ->
        gen_ast lp k (AExp F D e) = Some (n, l) -> at_ tbl k l ->
        res false w (fun q R' => relA R' (snd q)) (eval fl TA e (of_regs R)) (sem f n (here w R)).
      Proof.
        intros W S N. cbn [Prog_model.gen_ast]. destruct (Expr_model.compile F D TA n1 e) as [c |] eqn:C; [| discriminate].
        intros [= <- <-] A. pose proof (compile_accepts fl TA n1 e TA_fresh W) as Y.
        destruct (ty TA e) as [t |] eqn:Et; [| congruence].
        eapply res_nodes; [exact A | | apply eval_not_fuel]. rewrite lrun_LI.
        eapply orel_mono; [exact (compile_correct fl TA n1 e TA_fresh W c t R (of_regs R) C Et S N (relA_of R)) |].
        intros q R' (_ & H). exact H.
      Qed.
      Lemma exp_run (e : expr) lp k n l f w R st : good_expr e ->
        gen_ast lp k (AExp F D e) = Some (n, l) -> at_ tbl k l -> rel R st ->
        res false w (fun q R' => rel R' (snd q)) (eval fl T e st) (sem f n (here w R)).
      Proof.
        intros G E A HR. destruct (good_A _ G) as (W & S & N).
        pose proof (exp_runA e lp k n l f w R W S N E A) as K.
        pose proof (eval_ext fl T TA TA_ext e st (of_regs R) (proj1 G) (rel_alike _ _ HR)) as EE.
        destruct EE as [(v & s) (v' & s') (E1 & E2) | msg | |]; cbn [res fst snd] in *; try exact K.
        destruct K as (R' & -> & K). exists R'. split; [reflexivity |].
        eapply alike_rel; [exact E2 |]. intros x t Ex. apply K. rewrite TA_ext; congruence.
      Qed.

      Lemma good_ecast e t : good_expr e -> good_expr (ECast F D t e).
      Proof. intros (W & S & N). split; [| split]; assumption. Qed.

      (** The value to be returned. *)
      Lemma ret_runA (e : expr) k lc r f w R : well_formed TA e -> stable TA e -> not_dropped TA e ->
        gen_return F D TA n1 rt e = Some (lc, r) -> at_ tbl k lc ->
        res false w (fun q R' => R' rt r = fst q) (eval fl TA (ECast F D rt e) (of_regs R)) (sem f (nodes F D k lc) (here w R)).
      Proof.
        intros W S N G A. pose proof (gen_return_eq fl TA n1 TA_fresh rt e W) as H.
        destruct (assignable TA rt e) eqn:As; [| congruence]. destruct H as (c & G' & C). rewrite G' in G. injection G as <- <-.
        unfold assignable in As. destruct (ty TA e) as [t |] eqn:Et; [| discriminate].
        eapply res_nodes; [exact A | | apply eval_not_fuel]. rewrite lrun_LI.
        assert (Ec : ty TA (ECast F D rt e) = Some rt) by (cbn [ty]; rewrite Et; reflexivity).
        eapply orel_mono; [exact (compile_correct fl TA n1 (ECast F D rt e) TA_fresh W c rt R (of_regs R) C Ec S N (relA_of R)) |].
        intros q R' (H & _). exact H.
      Qed.

      Lemma return_run f w R k r lp b : nth_error tbl k = Some (LRet F D rt r) ->
        fits lp b w rel (Some (Returned (R rt r))) (sem f (NReturn k) (here w R)).
      Proof. intros E. cbn [fits Code_spec.sem machine p_return s_g s_r]. rewrite E. exists R. reflexivity. Qed.

      Lemma at_one k i : at_ tbl k [i] -> nth_error tbl k = Some i.
      Proof. intros H. apply at_cons in H. tauto. Qed.

      Lemma fits_eq lp b w d d' x : fits lp b w rel d x -> d = d' -> fits lp b w rel d' x.
      Proof. intros H <-. exact H. Qed.

      Lemma conv_supd R st x y z d v : (n0 <= y < n1)%nat -> T x = Some d -> rel R st -> R TInt y = VI z ->
        (forall R', relA R' (supd (of_regs R) x v) -> rel R' (supd st x v)).
      Proof.
        intros Hy Ex HR V R' H x' s E. rewrite (H x' s) by (rewrite TA_ext; congruence).
        unfold supd. destruct (Nat.eqb x' x); [reflexivity |].
        unfold of_regs, vtyp. rewrite TA_ext, E by congruence. apply HR. exact E.
      Qed.

      Lemma set_run (c : cond) x n p e n' lp k nd l b f w R st :
        build_cond F D c n = (p, e, n') -> (n0 <= n)%nat -> (n' <= n1)%nat -> every good_expr (TSet F D x c) ->
        gen_ast lp k (ASeq F D p (AExp F D (EAssign F D x e))) = Some (nd, l) -> at_ tbl k l -> rel R st ->
        fits lp b w rel (after (value_as fl T (vtyp T x) c st) (fun p => Some (Normal (supd (snd p) x (fst p)))))
          (sem f nd (here w R)).
      Proof.
        intros E L L' W G A HR. cbn [Prog_model.gen_ast] in G.
        destruct (gen_ast lp k p) as [[np lpre] |] eqn:Gp; [| discriminate].
        assert (G2 : exists nb lb, gen_ast lp (k + length lpre) (AExp F D (EAssign F D x e)) = Some (nb, lb) /\ nd = NSeq np nb /\ l = lpre ++ lb).
        { cbn [Prog_model.gen_ast]. destruct (Expr_model.compile _ _ _ _ _); [| discriminate]. injection G as <- <-. eauto. }
        clear G. destruct G2 as (nb & lb & G2 & -> & ->). apply at_app in A. destruct A as (A1 & A2).
        assert (Pb : plain lp nb = true) by (apply plain_mono; eapply plain_exp; eauto).
        assert (NV : forall y, (n0 <= y < n1)%nat -> e = EVar F D y -> leaves p y (truth_of fl T c) -> T x <> None ->
          fits lp b w rel
            (after (let! p := truth_of fl T c st in let! v := doc_conv fl TInt (vtyp T x) (VI (fst p)) in Ret (v, snd p))
              (fun p => Some (Normal (supd (snd p) x (fst p))))) (sem f (NSeq np nb) (here w R))).
        { intros y Hy -> Lv Tx. rewrite after_bind.
          eapply fits_after; [apply res_lp; eapply Lv; eauto | | exact Pb].
          intros (z & st1) R1 (V & HR1). cbn [fst snd] in *. rewrite after_bind.
          assert (We : well_formed TA (EAssign F D x (EVar F D y))).
          { cbn [well_formed]. rewrite TA_ext by exact Tx. split; [exact Tx | apply (wf_tmp _ Hy)]. }
          assert (Ne : not_dropped TA (EAssign F D x (EVar F D y))).
          { cbn [not_dropped nested]. rewrite andb_false_r. auto. }
          pose proof (exp_runA _ _ _ _ _ f w R1 We I Ne G2 A2) as K.
          cbn [eval obind fst snd] in K.
          assert (Ey : of_regs R1 y = VI z) by (unfold of_regs, vtyp; rewrite TA_tmp by auto; exact V).
          rewrite Ey in K. unfold typ in K. cbn [ty] in K. rewrite TA_tmp in K by auto. rewrite (vtyp_ext T TA TA_ext) in K by exact Tx.
          destruct (T x) as [d |] eqn:Ex; [| congruence].
          destruct (doc_conv fl TInt (vtyp T x) (VI z)) as [v | msg | |]; cbn [obind res after fits fst snd] in *.
          - destruct K as (R2 & -> & K). exists R2. split; [reflexivity |]. eapply conv_supd; eauto.
          - exact K.
          - right. apply poisoned_mono. exact K.
          - contradiction. }
        unfold value_as. destruct c as [e0 | cl cr | cl cr | c0].
        - cbn [every] in W.
          assert (PR' : p = ASkip F D /\ e = e0) by (cbn [build_cond] in E; injection E as <- <- _; auto).
          destruct PR' as (-> & ->). injection Gp as <- <-.
          change (sem f (NSeq NSkip nb) (here w R)) with (sem f nb (here w R)).
          pose proof (exp_run _ _ _ _ _ f w R st W G2 A2 HR) as K.
          cbn [eval] in K. rewrite after_bind.
          destruct (eval fl T e0 st) as [(v & s) | msg | |]; cbn [obind after fst snd] in *.
          + rewrite after_bind. destruct (doc_conv fl (typ T e0) (vtyp T x) v) as [v' | msg | |]; cbn [obind after res fits fst snd] in *.
            * destruct K as (R2 & -> & K). exists R2. auto.
            * exact K.
            * right. apply poisoned_mono. exact K.
            * contradiction.
          + exact K.
          + right. apply poisoned_mono. exact K.
          + contradiction.
        - cbn [every] in W. destruct W as ((Wx & _) & We). destruct (pre_run _ _ _ _ _ E L L' We) as (y & Ey & Hy & Lv).
          apply (NV y); auto.
        - cbn [every] in W. destruct W as ((Wx & _) & We). destruct (pre_run _ _ _ _ _ E L L' We) as (y & Ey & Hy & Lv).
          apply (NV y); auto.
        - cbn [every] in W. destruct W as ((Wx & _) & We). destruct (pre_run _ _ _ _ _ E L L' We) as (y & Ey & Hy & Lv).
          apply (NV y); auto.
      Qed.

      Lemma ret_run (c : cond) n p e n' lp k nd l b f w R st :
        build_cond F D c n = (p, e, n') -> (n0 <= n)%nat -> (n' <= n1)%nat -> cond_every good_expr c ->
        gen_ast lp k (AReturn F D p e) = Some (nd, l) -> at_ tbl k l -> rel R st ->
        fits lp b w rel (after (value_as fl T rt c st) (fun p => Some (Returned (fst p)))) (sem f nd (here w R)).
      Proof.
        intros E L L' W G A HR. cbn [Prog_model.gen_ast] in G.
        destruct (gen_ast lp k p) as [[np lpre] |] eqn:Gp; [| discriminate].
        destruct (gen_return F D TA n1 rt e) as [[lc r] |] eqn:Gr; [| discriminate].
        injection G as <- <-. apply at_app in A. destruct A as (A & A3). apply at_app in A. destruct A as (A1 & A2).
        apply at_one in A3.
        assert (Fin : forall d R1, R1 rt r = d -> fits lp b w rel (Some (Returned d)) (sem f (NReturn (k + length (lpre ++ lc))) (here w R1))).
        { intros d R1 <-. apply return_run. exact A3. }
        assert (NV : forall y, (n0 <= y < n1)%nat -> e = EVar F D y -> leaves p y (truth_of fl T c) ->
          fits lp b w rel
            (after (let! p := truth_of fl T c st in let! v := doc_conv fl TInt rt (VI (fst p)) in Ret (v, snd p))
              (fun p => Some (Returned (fst p))))
            (sem f (NSeq (NSeq np (nodes F D (k + length lpre) lc)) (NReturn (k + length (lpre ++ lc)))) (here w R))).
        { intros y Hy -> Lv.
          eapply fits_after with (Q := fun q R => R rt r = fst q).
          - eapply res_seq; [apply res_lp; eapply Lv; eauto | | apply plain_nodes].
            intros (z & st1) R1 (V & HR1). cbn [fst snd] in *.
            pose proof (ret_runA (EVar F D y) _ lc r f w R1 (wf_tmp _ Hy) I I Gr A2) as K.
            cbn [eval obind fst snd] in K.
            assert (Ey : of_regs R1 y = VI z) by (unfold of_regs, vtyp; rewrite TA_tmp by auto; exact V).
            rewrite Ey in K. unfold typ in K. cbn [ty] in K. rewrite TA_tmp in K by auto. apply res_lp.
            destruct (doc_conv fl TInt rt (VI z)) as [v | msg | |]; exact K.
          - intros v R1 H1. apply Fin. exact H1.
          - reflexivity. }
        unfold value_as. destruct c as [e0 | cl cr | cl cr | c0].
        - assert (PR' : p = ASkip F D /\ e = e0) by (cbn [build_cond] in E; injection E as <- <- _; auto).
          destruct PR' as (-> & ->). injection Gp as <- <-. cbn [app length] in *. rewrite Nat.add_0_r in *.
          cbn [cond_every] in W. destruct (good_A _ W) as (WA & SA & NA).
          eapply fits_after with (Q := fun q R => R rt r = fst q).
          + apply res_lp. change (sem f (NSeq NSkip (nodes F D k lc)) (here w R)) with (sem f (nodes F D k lc) (here w R)).
            pose proof (ret_runA e0 k lc r f w R WA SA NA Gr A2) as K.
            pose proof (eval_ext fl T TA TA_ext (ECast F D rt e0) st (of_regs R) (proj1 W) (rel_alike _ _ HR)) as EE.
            change (let! p := eval fl T e0 st in let! v := doc_conv fl (typ T e0) rt (fst p) in Ret (v, snd p))
              with (eval fl T (ECast F D rt e0) st).
            destruct EE as [(v & s) (v' & s') (E1 & E2) | msg | |]; cbn [res fst snd] in *; try exact K.
            destruct K as (R1 & K1 & K2). exists R1. split; [exact K1 | congruence].
          + intros v R1 H1. apply Fin. exact H1.
          + reflexivity.
        - destruct (pre_run _ _ _ _ _ E L L' W) as (y & Ey & Hy & Lv). apply (NV y); auto.
        - destruct (pre_run _ _ _ _ _ E L L' W) as (y & Ey & Hy & Lv). apply (NV y); auto.
        - destruct (pre_run _ _ _ _ _ E L L' W) as (y & Ey & Hy & Lv). apply (NV y); auto.
      Qed.

      Variables (b : bool) (f : nat).

      Lemma computes_not p e c x : (n0 <= x < n1)%nat -> computes p e c -> (forall st, c st <> Fuel) ->
        computes (logical_not F D p e x) (EVar F D x) (fun st => let! p := c st in Ret ((if fst p =? 0 then 1 else 0), snd p)).
      Proof.
        intros Hx H NF. apply leaves_computes; [exact Hx | | apply not_leaves; auto].
        intros st. apply obind_not_fuel; [auto | discriminate].
      Qed.

      Lemma tested_mono r (Q Q' : Z * store -> regs -> Prop) q R : (forall q R, Q q R -> Q' q R) -> tested r Q q R -> tested r Q' q R.
      Proof. intros H (A & B). split; auto. Qed.

      Lemma stmt_run (s : stmt) : forall n a n', build_stmt F D s n = (a, n') -> (n0 <= n)%nat -> (n' <= n1)%nat ->
        every good_expr s -> forall lp k nd l, gen_ast lp k a = Some (nd, l) -> at_ tbl k l ->
        forall w R st, rel R st -> fits lp b w rel (exec fl T rt f s st) (sem (bump b f) nd (here w R)).
      Proof.
        induction s as [| s1 IH1 s2 IH2 | e | x c | s IH | u c s1 IH1 s2 IH2 | c s IH | i c j s IH | | | c];
          intros n a n'; cbn [build_stmt]; intros B L L' W lp k nd l G A w R st HR.
        - injection B as <- <-. injection G as <- <-. cbn [exec fits]. exists R. auto.
        - destruct (build_stmt F D s1 n) as [a1 m1] eqn:E1. destruct (build_stmt F D s2 m1) as [a2 m2] eqn:E2.
          injection B as <- <-. pose proof (build_stmt_le _ _ _ _ E1). pose proof (build_stmt_le _ _ _ _ E2).
          destruct W as (W1 & W2). cbn [Prog_model.gen_ast] in G.
          destruct (gen_ast lp k a1) as [[na la] |] eqn:G1; [| discriminate].
          destruct (gen_ast lp (k + length la) a2) as [[nb lb] |] eqn:G2; [| discriminate]. injection G as <- <-.
          apply at_app in A. destruct A as (A1 & A2). cbn [exec].
          eapply fits_eq; [apply (fits_seq (bump b f) lp b w (exec fl T rt f s1 st) (exec fl T rt f s2)) |].
          + eapply IH1; eauto; lia.
          + intros. eapply IH2; eauto; lia.
          + eapply plain_gen; eauto.
          + destruct (exec fl T rt f s1 st) as [[] |]; reflexivity.
        - injection B as <- <-. cbn [exec]. eapply fits_res; [eapply exp_run; eauto |]. auto.
        - destruct (build_cond F D c n) as [[p e] m] eqn:E. injection B as <- <-. cbn [exec]. eapply set_run; eauto.
        - destruct (build_stmt F D s n) as [a1 m1] eqn:E1. injection B as <- <-. cbn [Prog_model.gen_ast] in G.
          destruct (gen_ast lp k a1) as [[na la] |] eqn:G1; [| discriminate]. injection G as <- <-.
          cbn [exec]. apply fits_block. eapply IH; eauto.
        - destruct (build_cond F D c n) as [[p e] m] eqn:E. destruct (build_stmt F D s1 m) as [a1 m1] eqn:E1.
          destruct (build_stmt F D s2 m1) as [a2 m2] eqn:E2.
          pose proof (build_cond_le _ _ _ _ _ E). pose proof (build_stmt_le _ _ _ _ E1). pose proof (build_stmt_le _ _ _ _ E2).
          cbn [every] in W. destruct W as (Wc & W1 & W2).
          assert (M : (m <= n1 /\ m1 <= n1 /\ m2 <= n1)%nat) by (destruct u; injection B as <- <-; lia).
          assert (Cc : computes p e (truth_of fl T c)) by (eapply cond_run; eauto; lia).
          destruct u; injection B as <- <-.
          + destruct (gen_if _ _ _ _ _ _ _ _ _ G) as (np & lpre & lc & r & nt & lt & nf & lf & G1 & G2 & G3 & G4 & -> & ->).
            apply at_app in A. destruct A as (A1 & A2). apply at_app in A2. destruct A2 as (A2 & A3).
            assert (Cn := computes_not p e _ m2 ltac:(lia) Cc (truth_of_not_fuel c)).
            eapply fits_eq; [eapply (fits_if fl tbl me call_ (bump b f) lp b w rel r _ _ (fun q => exec fl T rt f s1 (snd q)) (fun q => exec fl T rt f s2 (snd q))) |].
            * eapply Cn; eauto.
            * intros q R1 (_ & HR1) _. eapply (IH1 _ _ _ E1); eauto; lia.
            * intros q R1 (_ & HR1) _. eapply (IH2 _ _ _ E2); eauto; try lia.
              rewrite !app_length in *. replace (k + (length lpre + (length lc + length lt)))%nat with (k + (length lpre + length lc) + length lt)%nat by lia. exact A3.
            * eapply plain_gen; eauto.
            * cbn [exec]. rewrite after_bind. destruct (truth_of fl T c st) as [(z & s) | | |]; cbn [after fst snd]; try reflexivity.
              cbn [xorb]. destruct (z =? 0); reflexivity.
          + destruct (gen_if _ _ _ _ _ _ _ _ _ G) as (np & lpre & lc & r & nt & lt & nf & lf & G1 & G2 & G3 & G4 & -> & ->).
            apply at_app in A. destruct A as (A1 & A2). apply at_app in A2. destruct A2 as (A2 & A3).
            eapply fits_eq; [eapply (fits_if fl tbl me call_ (bump b f) lp b w rel r _ _ (fun q => exec fl T rt f s1 (snd q)) (fun q => exec fl T rt f s2 (snd q))) |].
            * eapply Cc; eauto.
            * intros q R1 (_ & HR1) _. eapply (IH1 _ _ _ E1); eauto; lia.
            * intros q R1 (_ & HR1) _. eapply (IH2 _ _ _ E2); eauto; try lia.
              rewrite !app_length in *. replace (k + (length lpre + (length lc + length lt)))%nat with (k + (length lpre + length lc) + length lt)%nat by lia. exact A3.
            * eapply plain_gen; eauto.
            * cbn [exec]. destruct (truth_of fl T c st) as [(z & s) | | |]; cbn [after fst snd]; try reflexivity.
              rewrite xorb_false_l. reflexivity.
        - destruct (build_cond F D c n) as [[p e] m] eqn:E. destruct (build_stmt F D s m) as [a1 m1] eqn:E1.
          injection B as <- <-. pose proof (build_cond_le _ _ _ _ _ E). pose proof (build_stmt_le _ _ _ _ E1).
          cbn [every] in W. destruct W as (Wc & W1). cbn [Prog_model.gen_ast] in G.
          destruct (gen_ast true _ a1) as [[nb lb] |] eqn:G1; [| discriminate].
          destruct (gen_ast false _ p) as [[np lpre] |] eqn:G2; [| discriminate].
          destruct (gen_cond F D TA n1 e) as [[lc r] |] eqn:G3; [| discriminate]. injection G as <- <-.
          cbn [app length] in *. rewrite app_nil_r in G2. rewrite !Nat.add_0_r in *.
          apply at_app in A. destruct A as (A1 & A2).
          rewrite sem_loop. cbn [Code_spec.sem exec].
          apply (fits_loop fl tbl me call_ (bump b f) lp b w rel r (truth_of fl T c) (exec fl T rt f s) (fun st => Ret st)
                   nb NSkip (NSeq np (nodes F D (k + length (lb ++ lpre)) lc)) _ _) with (again := false); auto.
          + intros st1 R1 HR1. assert (Cc : computes p e (truth_of fl T c)) by (eapply cond_run; eauto; lia).
            rewrite app_length, Nat.add_assoc. eapply res_mono; [eapply (Cc false); eauto | | auto].
            intros q R2. apply tested_mono. tauto.
          + intros st1 R1 HR1. eapply IH; eauto; lia.
          + intros st1 R1 HR1. exists R1. auto.
          + cbn [plain]. rewrite plain_nodes, (plain_gen _ _ _ _ _ _ _ _ G2). reflexivity.
        - destruct (build_cond F D c n) as [[p e] m] eqn:E. destruct (build_stmt F D s m) as [a1 m1] eqn:E1.
          injection B as <- <-. pose proof (build_cond_le _ _ _ _ _ E). pose proof (build_stmt_le _ _ _ _ E1).
          cbn [every] in W. destruct W as (Wi & Wc & Wj & W1).
          assert (GG : exists ni li nb lb nj lj np lpre lc r,
             gen_ast false k (AExp F D i) = Some (ni, li) /\ gen_ast true (k + length li) a1 = Some (nb, lb) /\
             gen_ast false (k + length (li ++ lb)) (AExp F D j) = Some (nj, lj) /\
             gen_ast false (k + length (li ++ lb ++ lj)) p = Some (np, lpre) /\ gen_cond F D TA n1 e = Some (lc, r) /\
             nd = NLoop ni nb nj (NSeq np (nodes F D (k + length (li ++ lb ++ lj ++ lpre)) lc)) r /\
             l = li ++ lb ++ lj ++ lpre ++ lc).
          { assert (GE : gen_ast lp k (ALoop F D (AExp F D i) a1 (AExp F D j) p e) =
              match gen_ast false k (AExp F D i) with
              | Some (ni, li) =>
                  match gen_ast true (k + length li) a1 with
                  | Some (nb, lb) =>
                      match gen_ast false (k + length (li ++ lb)) (AExp F D j) with
                      | Some (nn, ln) =>
                          match gen_ast false (k + length (li ++ lb ++ ln)) p with
                          | Some (np, lpre) =>
                              match gen_cond F D TA n1 e with
                              | Some (lc, r) =>
                                  Some (NLoop ni nb nn (NSeq np (nodes F D (k + length (li ++ lb ++ ln ++ lpre)) lc)) r,
                                        li ++ lb ++ ln ++ lpre ++ lc)
                              | None => None
                              end
                          | None => None
                          end
                      | None => None
                      end
                  | None => None
                  end
              | None => None
              end) by reflexivity.
            rewrite GE in G. clear GE.
            destruct (gen_ast false k (AExp F D i)) as [[ni li] |]; [| discriminate].
            destruct (gen_ast true _ a1) as [[nb lb] |] eqn:G1; [| discriminate].
            destruct (gen_ast false _ (AExp F D j)) as [[nj lj] |] eqn:G5; [| discriminate].
            destruct (gen_ast false _ p) as [[np lpre] |] eqn:G2; [| discriminate].
            destruct (gen_cond F D TA n1 e) as [[lc r] |] eqn:G3; [| discriminate]. injection G as <- <-.
            exists ni, li, nb, lb, nj, lj, np, lpre, lc, r. repeat split; auto. }
          clear G. destruct GG as (ni & li & nb & lb & nj & lj & np & lpre & lc & r & G1 & G2 & G3 & G4 & G5 & -> & ->).
          apply at_app in A. destruct A as (A1 & A2). apply at_app in A2. destruct A2 as (A2 & A3).
          apply at_app in A3. destruct A3 as (A3 & A4).
          assert (Pj : plain false nj = true) by (eapply plain_gen; eauto).
          assert (Pc : plain false (NSeq np (nodes F D (k + length (li ++ lb ++ lj ++ lpre)) lc)) = true)
            by (cbn [plain]; rewrite plain_nodes, (plain_gen _ _ _ _ _ _ _ _ G4); reflexivity).
          pose proof (exp_run i _ _ _ _ (bump b f) w R st Wi G1 A1 HR) as KI.
          rewrite sem_loop. cbn [exec].
          assert (LK : forall st1 R1 b0 b1, rel R1 st1 ->
            fits lp b w rel (loop (truth_of fl T c) (exec fl T rt f s) (fun st => let! q := eval fl T j st in Ret (snd q)) f st1)
              (sloop fl tbl me call_ nb nj (NSeq np (nodes F D (k + length (li ++ lb ++ lj ++ lpre)) lc)) r (bump b f) b0 b1 (bump b f) false (here w R1))).
          { intros st1 R1 b0 b1 HR1.
            apply (fits_loop fl tbl me call_ (bump b f) lp b w rel r (truth_of fl T c) (exec fl T rt f s)
                     (fun st => let! q := eval fl T j st in Ret (snd q))
                     nb nj (NSeq np (nodes F D (k + length (li ++ lb ++ lj ++ lpre)) lc)) _ _) with (again := false); auto.
            - intros st2 R2 HR2. assert (Cc : computes p e (truth_of fl T c)) by (eapply cond_run; eauto; lia).
              replace (k + length (li ++ lb ++ lj ++ lpre))%nat with (k + length (li ++ lb ++ lj) + length lpre)%nat by (rewrite !app_length; lia).
              eapply res_mono; [eapply (Cc false); eauto | | auto].
              + rewrite !app_length in *. replace (k + (length li + (length lb + length lj)))%nat with (k + length li + length lb + length lj)%nat by lia. exact A4.
              + intros q R3. apply tested_mono. tauto.
            - intros st2 R2 HR2. eapply IH; eauto; lia.
            - intros st2 R2 HR2.
              assert (KJ : res false w (fun q R' => rel R' (snd q)) (eval fl T j st2) (sem (bump b f) nj (here w R2))).
              { eapply exp_run; eauto. rewrite app_length, Nat.add_assoc. exact A3. }
              destruct (eval fl T j st2) as [(v & s2) | | |]; exact KJ. }
          destruct (eval fl T i st) as [(v & st1) | msg | |]; cbn [res after fst snd] in *.
          + destruct KI as (R1 & -> & HR1). apply LK. exact HR1.
          + destruct KI as (R1 & ->). exists R1. reflexivity.
          + right. destruct KI as (sg & s1 & E' & R1 & L1 & Q1). rewrite E'.
            destruct sg; try contradiction; try discriminate Q1; [| exists SReturn, s1; auto].
            apply (poison_loop fl tbl me call_); auto; intros; apply (poison fl tbl me call_); auto.
          + contradiction.
        - injection B as <- <-. cbn [Prog_model.gen_ast] in G. destruct lp; [| discriminate]. injection G as <- <-.
          cbn [exec fits]. split; [reflexivity |]. exists R. auto.
        - injection B as <- <-. cbn [Prog_model.gen_ast] in G. destruct lp; [| discriminate]. injection G as <- <-.
          cbn [exec fits]. split; [reflexivity |]. exists R. auto.
        - destruct (build_cond F D c n) as [[p e] m] eqn:E. injection B as <- <-. cbn [exec]. eapply ret_run; eauto.
      Qed.
    End Machine.
  End Types.

  (** ** Methods *)
  Lemma zero_eq rt : zero_val F D fl rt = zero_of fl rt.
  Proof. destruct rt; reflexivity. Qed.

  Section Method.
    Variables (T : nat -> option nty) (n : nat) (rt : nty) (s : stmt).
    Hypotheses (pos : (1 <= n)%nat) (T0 : T FLAG = None) (fresh : forall x, (n <= x)%nat -> T x = None).

    Lemma method_accept : every (well_formed T) s -> isS (gen_method F D T n rt s) = stmt_ok T rt false s.
    Proof.
      intros W. unfold gen_method. destruct (build_stmt F D s n) as [a n'] eqn:B.
      pose proof (build_stmt_le _ _ _ _ B) as L.
      rewrite <- (stmt_accept T n n' pos L T0 fresh rt s n a n' B (le_n _) (le_n _) W false).
      rewrite <- (ast_accept T n n' rt a false 0). unfold TA.
      destruct (gen_ast F D (all_types T n n') n' rt false 0 a) as [[b l] |]; reflexivity.
    Qed.

    Variables (nd : node) (tbl : list linstr).
    Hypothesis G : gen_method F D T n rt s = Some (nd, tbl).

    Lemma method_plain : plain false nd = true.
    Proof.
      unfold gen_method in G. destruct (build_stmt F D s n) as [a n'].
      destruct (gen_ast F D (all_types T n n') n' rt false 0 a) as [[b l] |] eqn:E; [| discriminate].
      injection G as <- _. cbn [plain]. rewrite (plain_gen _ _ _ _ _ _ _ _ E). reflexivity.
    Qed.

    Lemma method_run me call_ b f w R st : every (good_expr T) s -> rel T R st ->
      fits false b w (rel T) (call fl T rt f s st)
        (sem (machine F D fl tbl) me call_ (bump b f) nd (mks w (Some R) 0 [])).
    Proof.
      intros W HR. pose proof method_plain as MP. revert G MP. unfold gen_method.
      destruct (build_stmt F D s n) as [a n'] eqn:B.
      pose proof (build_stmt_le _ _ _ _ B) as L.
      destruct (gen_ast F D (all_types T n n') n' rt false 0 a) as [[nb l] |] eqn:E; [| discriminate].
      intros [= <- <-] MP. set (tl := l ++ [LZero F D rt n'; LRet F D rt n']).
      assert (A : at_ tl 0 l).
      { intros j Hj. cbn [Nat.add]. unfold tl. rewrite nth_error_app1 by exact Hj. reflexivity. }
      assert (A2 : at_ tl (length l) [LZero F D rt n']).
      { intros j Hj. cbn [length] in Hj. assert (j = 0)%nat by lia. subst j. unfold tl.
        rewrite nth_error_app2 by lia. rewrite Nat.add_0_r, Nat.sub_diag. reflexivity. }
      assert (A3 : nth_error tl (S (length l)) = Some (LRet F D rt n')).
      { unfold tl. rewrite nth_error_app2 by lia. replace (S (length l) - length l)%nat with 1%nat by lia. reflexivity. }
      pose proof (stmt_run T n n' pos L T0 fresh tl me call_ rt b f s n a n' B (le_n _) (le_n _) W false 0%nat nb l E A w R st HR) as K.
      unfold call.
      eapply fits_eq; [apply (fits_seq T tl me call_ (bump b f) false b w (exec fl T rt f s st)
        (fun _ => Some (Returned (zero_of fl rt)))) |].
      - exact K.
      - intros st1 R1 HR1.
        eapply fits_eq; [eapply (fits_after fl tl me call_ (bump b f) false b w (rel T) (fun (_ : unit) R => R rt n' = zero_of fl rt) (Ret tt)
          (fun _ => Some (Returned (zero_of fl rt)))) |].
        + change (NSeq (NDo (length l)) NSkip) with (nodes F D (length l) [LZero F D rt n']).
          eapply res_nodes; [exact A2 | | discriminate]. cbn [lrun Prog_model.lstep obind]. constructor.
          rewrite (rset_same). apply zero_eq.
        + intros _ R2 V. rewrite <- V. apply return_run. exact A3.
        + reflexivity.
        + reflexivity.
      - cbn [plain] in *. apply andb_true_iff in MP. apply MP.
      - destruct (exec fl T rt f s st) as [[] |]; reflexivity.
    Qed.
  End Method.
End Float.
