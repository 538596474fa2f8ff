(** * The virtual machine runs the structured semantics: the simulation *)

From Verif Require Import Code_model Code_spec Code_gen Code_sim.
Import ListNotations.

Definition code_at (C : list (op nat)) (b : nat) (L : list (op nat)) : Prop :=
  forall i o, nth_error L i = Some o -> nth_error C (b + i) = Some o.
Lemma code_app : forall C b L1 L2, code_at C b (L1 ++ L2) -> code_at C b L1 /\ code_at C (b + length L1) L2.
Proof.
  intros C b L1 L2 H. split; intros i o N.
  - apply H. rewrite nth_error_app1; [assumption |]. apply nth_error_Some. congruence.
  - rewrite <- Nat.add_assoc. apply H. rewrite nth_error_app2 by lia.
    now replace (length L1 + i - length L1) with i by lia.
Qed.
Lemma code_cons : forall C b o L, code_at C b (o :: L) -> nth_error C b = Some o /\ code_at C (b + 1) L.
Proof.
  intros C b o L H. split.
  - specialize (H 0 o eq_refl). now rewrite Nat.add_0_r in H.
  - intros i x N. rewrite <- Nat.add_assoc. now apply H.
Qed.
Lemma code_self : forall C, code_at C 0 C.
Proof. intros C i o H. exact H. Qed.
Lemma code_pos : forall C b b' L, code_at C b L -> b = b' -> code_at C b' L.
Proof. intros; now subst. Qed.

Section Simulate.
Variables G R : Type.
Variable P : prims G R.
Variable cprog : nat -> option (list (op nat) * nat).
Variables nest me : nat.
Variable C : list (op nat).
Variable cap : nat.
Variable d : Z.
Variable call : nat -> G -> option (Z * G).
Variable f : nat.

Notation run k := (exec P cprog k nest me C cap).
Notation LEADS := (leads G R P cprog nest me C cap).
Notation LATE := (late G R P cprog nest me C cap).
Notation ONE := (one G R P cprog nest me C cap).
Notation SEM := (sem P me call f).
Notation SEMC := (sem_cases P me call f).

(* the machine state of a structured state *)
Definition V (p : nat) (s : sst G R) : vst G R := mkv p d (s_g s) (s_r s) 0%Z (s_err s) (s_live s).

(* what is assumed about method calls *)
Hypothesis HC : forall p m s, nth_error C p = Some (OCall m) ->
  match call m (s_g s) with
  | None => LATE f (V p s)
  | Some (e, g) => LEADS (V p s) (mkv (S p) d g (s_r s) e (s_err s) (s_live s))
  end.

Definition exit (ine : bool) (E : env) (b' : nat) (sig : signal) (s : sst G R) : vst G R :=
  match sig with
  | SNormal => V b' s
  | SNext => V (e_next E) s
  | SLast => V (e_last E) s
  | SBreak => V (e_brk E) s
  | SReturn => V (e_ret E) s
  | SThrow e =>
      if ine then mkv (e_exce E) d (s_g s) (s_r s) 0%Z e (s_live s)
      else mkv (e_excm E) d (s_g s) (s_r s) e (s_err s) (s_live s)
  end.

Lemma leave_step : forall E need m p s base, code_at C p (rs E (lv need m)) ->
  (need = true -> base = m) -> base <= lives s -> (need = false -> lives s = base) ->
  LEADS (V p s) (V (p + length (lv need m)) (leave P base s)).
Proof.
  intros E need m p s base K N L F. destruct need; cbn [lv map map_op length] in *.
  - rewrite (N eq_refl) in *. apply code_cons in K as [K _].
    apply leads_one. intros k. cbn [exec V pc]. rewrite K. cbn [V mort gl rg].
    destruct (Nat.leb_spec m (length (s_live s))) as [_ | X]; [| unfold lives in L; lia].
    unfold leave. destruct (release_all _ _ _ _) as [g r]. cbn.
    rewrite Nat.add_1_r. reflexivity.
  - rewrite Nat.add_0_r, leave_same by auto. apply leads_refl.
Qed.

Lemma goto_step : forall p t s, nth_error C p = Some (OGoto t) -> ONE (V p s) (V t s).
Proof. intros p t s K k. cbn [exec V pc]. now rewrite K. Qed.

Lemma exc_step : forall ine E line p g (s : sst G R) e, nth_error C p = Some (map_op (res E) (exc ine line)) ->
  ONE (mkv p d g (s_r s) e (s_err s) (s_live s))
      (if Z.eqb e 0 then V (S p) (mks g (s_r s) (s_err s) (s_live s))
       else exit ine E 0 (SThrow e) (mks (p_trace P me line g) (s_r s) (s_err s) (s_live s))).
Proof.
  intros ine E line p g s e K k. cbn [exec pc]. rewrite K. unfold exc, exit, V.
  destruct ine; cbn [map_op err]; destruct (Z.eqb_spec e 0) as [-> | N]; reflexivity.
Qed.

Definition sim_n (n : node) : Prop := forall il isw ine E b m x s,
  code_at C b (rs E (comp n ine b m)) ->
  flow_ok il isw n = true ->
  fst (scope_ok x n) = true -> (x = true -> lives s = m) -> lives s + npush n <= cap ->
  match SEM n s with
  | None => LATE f (V b s)
  | Some (sig, s') =>
      LEADS (V b s) (exit ine E (b + length (comp n ine b m)) sig s') /\
      (sig = SNormal -> snd (scope_ok x n) = true -> lives s' = m + decls n)
  end.

Definition entry (b : nat) (v : Z) (found : bool) (tbl : list (Z * nat)) (dd : nat) : nat :=
  if found then b else find_case v tbl dd.

Definition sim_c (cs : cases) : Prop := forall il ine E b m x v found s kk tbl dd,
  comp_cases cs ine b m = (kk, tbl, dd) ->
  code_at C b (rs E kk) -> e_brk E = b + length kk ->
  flow_ok_cases il cs = true ->
  scope_ok_cases x cs = true -> negb (has_decl_cases cs) || x = true ->
  (x = true -> lives s = m) -> lives s + npush_cases cs <= cap ->
  match SEMC v found cs s with
  | None => LATE f (V (entry b v found tbl dd) s)
  | Some (sig, s') =>
      match sig with
      | SNormal | SBreak => exists s'', LEADS (V (entry b v found tbl dd) s) (V (e_brk E) s'') /\
          leave P (lives s) s'' = leave P (lives s) s' /\ lives s <= lives s'' <= lives s'
      | _ => LEADS (V (entry b v found tbl dd) s) (exit ine E 0 sig s')
      end
  end.

Lemma V_pos : forall p p' s, p = p' -> V p s = V p' s.
Proof. now intros; subst. Qed.

Ltac grow H := apply (proj1 (sem_grows G R P me call f)) in H; apply grows_lives in H.

Lemma sim_seq : forall a b, sim_n a -> sim_n b -> sim_n (NSeq a b).
Proof.
  intros a c IHa IHb il isw ine E b m x s K F S Y Q.
  cbn [comp] in K. cbn [flow_ok] in F. cbn [scope_ok npush decls] in *.
  destruct (scope_ok x a) as [oka x1] eqn:Sa. destruct (scope_ok x1 c) as [okb x2] eqn:Sb. cbn [fst snd] in *.
  apply andb3 in F as [Fa Fb]. apply andb3 in S as [S1 S2].
  rewrite map_app in K. apply code_app in K as [Ka Kb]. rewrite map_length in Kb.
  assert (lives s + npush a <= cap) as Qa by lia.
  pose proof (IHa _ _ _ _ _ _ x s Ka Fa (eq_trans (f_equal fst Sa) S1) Y Qa) as A.
  cbn [sem]. destruct (SEM a s) as [[sg s1] |] eqn:E1; [| exact A].
  destruct A as [A1 A2]. rewrite Sa in A2. cbn [snd] in A2.
  grow E1.
  destruct sg; try (split; [| discriminate]; exact A1).
  assert (lives s1 + npush c <= cap) as Qb by lia.
  pose proof (IHb _ _ _ _ _ _ x1 s1 Kb Fb (eq_trans (f_equal fst Sb) S2) (A2 eq_refl) Qb) as B.
  destruct (SEM c s1) as [[sg s2] |] eqn:E2.
  - destruct B as [B1 B2]. rewrite Sb in B2. cbn [snd] in B2. split.
    + eapply leads_trans; [exact A1 |]. cbn [comp]. rewrite app_length, Nat.add_assoc. exact B1.
    + intros N X. rewrite (B2 N X). lia.
  - eapply late_leads; [exact A1 | exact B].
Qed.

Lemma sim_leaf_do : forall a, sim_n (NDo a).
Proof.
  intros a il isw ine E b m x s K F S Y Q. apply code_cons in K as [K _]. cbn [sem comp length].
  destruct (p_do P a (s_g s) (s_r s)) as [g r] eqn:D. split.
  - apply leads_one. intros k. cbn [exec V pc]. rewrite K. cbn [map_op gl rg V]. rewrite D. cbn. now rewrite Nat.add_1_r.
  - intros _ X. cbn [decls]. rewrite Nat.add_0_r. now apply Y.
Qed.

Lemma sim_leaf_try : forall a line, sim_n (NTry a line).
Proof.
  intros a line il isw ine E b m x s K F S Y Q. apply code_cons in K as [K K2]. apply code_cons in K2 as [K2 _]. cbn [sem comp length].
  destruct (p_try P a (s_g s) (s_r s)) as [[g r] e] eqn:D.
  assert (ONE (V b s) (mkv (b + 1) d g r e (s_err s) (s_live s))) as O1.
  { intros k. cbn [exec V pc]. rewrite K. cbn [map_op gl rg V]. rewrite D. cbn. rewrite Nat.add_1_r.
    destruct (Z.eqb_spec e 0) as [-> | N]; reflexivity. }
  pose proof (exc_step ine E line (b + 1) g (mks g r (s_err s) (s_live s)) e K2) as O2. cbn [s_r s_err s_live] in O2.
  unfold throw. destruct (Z.eqb e 0).
  - split; [| intros _ X; cbn [decls]; rewrite Nat.add_0_r; now apply Y].
    eapply leads_trans; [apply leads_one, O1 |]. eapply leads_trans; [apply leads_one, O2 |].
    cbn [exit]. rewrite <- Nat.add_succ_r. apply leads_refl.
  - split; [| discriminate].
    eapply leads_trans; [apply leads_one, O1 |]. eapply leads_trans; [apply leads_one, O2 |].
    destruct ine; apply leads_refl.
Qed.

Lemma sim_leaf_call : forall a line, sim_n (NCall a line).
Proof.
  intros a line il isw ine E b m x s K F S Y Q. apply code_cons in K as [K K2]. apply code_cons in K2 as [K2 _]. cbn [sem comp length].
  pose proof (HC b a s K) as H. destruct (call a (s_g s)) as [[e g] |] eqn:D; [| exact H].
  rewrite <- Nat.add_1_r in H.
  pose proof (exc_step ine E line (b + 1) g s e K2) as O2.
  unfold throw. cbn [s_r s_err s_live]. destruct (Z.eqb e 0).
  - split; [| intros _ X; cbn [decls]; rewrite Nat.add_0_r; now apply Y].
    eapply leads_trans; [exact H |]. eapply leads_trans; [apply leads_one, O2 |].
    cbn [exit]. rewrite <- Nat.add_succ_r. apply leads_refl.
  - split; [| discriminate].
    eapply leads_trans; [exact H |]. eapply leads_trans; [apply leads_one, O2 |].
    destruct ine; apply leads_refl.
Qed.

Lemma sim_leaf_decl : forall v, sim_n (NDecl v).
Proof.
  intros v il isw ine E b m x s K F S Y Q. apply code_cons in K as [K _]. cbn [sem comp length npush] in *. split.
  - apply leads_one. intros k. cbn [exec V pc]. rewrite K. cbn [V map_op mort].
    destruct (Nat.ltb_spec (length (s_live s)) cap) as [_ | N]; [| unfold lives in Q; lia]. cbn. now rewrite Nat.add_1_r.
  - intros _ X. unfold lives. cbn [s_live decls]. rewrite app_length. cbn. rewrite <- (Y X). reflexivity.
Qed.

Lemma sim_leaf_geterr : forall v, sim_n (NGetErr v).
Proof.
  intros v il isw ine E b m x s K F S Y Q. apply code_cons in K as [K _]. cbn [sem comp length]. split.
  - apply leads_one. intros k. cbn [exec V pc]. rewrite K. cbn. now rewrite Nat.add_1_r.
  - intros _ X. cbn [decls]. rewrite Nat.add_0_r. now apply Y.
Qed.

Lemma sim_leaf_return : forall a, sim_n (NReturn a).
Proof.
  intros a il isw ine E b m x s K F S Y Q. apply code_cons in K as [K _]. cbn [sem comp length].
  destruct (p_return P a (s_g s) (s_r s)) as [g r] eqn:D. split; [| discriminate].
  apply leads_one. intros k. cbn [exec V pc]. rewrite K. cbn [map_op gl rg V]. rewrite D. reflexivity.
Qed.

Lemma sim_block : forall n, sim_n n -> sim_n (NBlock n).
Proof.
  intros n IH il isw ine E b m x s K F S Y Q.
  cbn [comp] in K. cbn [flow_ok scope_ok npush decls] in *. cbn [fst snd] in *.
  apply andb3 in S as [S1 S2].
  rewrite map_app in K. apply code_app in K as [Ka Kb]. rewrite map_length in Kb.
  pose proof (IH _ _ _ _ _ _ x s Ka F S2 Y Q) as A.
  cbn [sem comp]. destruct (SEM n s) as [[sg s1] |] eqn:E1; [| exact A].
  destruct A as [A1 _]. grow E1.
  destruct sg; try (split; [exact A1 | discriminate]). split.
  - eapply leads_trans; [exact A1 |]. cbn [exit]. rewrite app_length, Nat.add_assoc.
    eapply leave_step; [exact Kb | | lia |].
    + intros HD. apply Y. rewrite HD in S1. exact S1.
    + intros HD. apply (proj1 has_decl_npush) in HD. lia.
  - intros _ X. rewrite lives_leave by lia. rewrite Nat.add_0_r. now apply Y.
Qed.

Lemma sim_eval : forall n, sim_n n -> sim_n (NEval n).
Proof.
  intros n IH il isw ine E b m x s K F S Y Q.
  cbn [comp] in K. cbn [flow_ok scope_ok npush decls] in *. cbn [fst snd] in *.
  apply andb3 in S as [S1 S2].
  rewrite !map_app in K. apply code_app in K as [K0 K]. apply code_app in K as [Ka Kb].
  rewrite rs_exce in Ka. rewrite !map_length, length_subst in Kb.
  apply code_cons in K0 as [K0 K1]. apply code_cons in K1 as [K1 _].
  change (b + length (map (map_op (res E)) [OClearErr; OExcUndef])) with (b + 2) in Ka.
  change (b + length [OClearErr; OExcUndef]) with (b + 2) in Kb.
  set (s0 := mks (p_clear_exc P (s_g s)) (s_r s) 0%Z (s_live s)).
  assert (LEADS (V b s) (V (b + 2) s0)) as L0.
  { eapply leads_trans.
    - apply (leads_one _ _ _ _ _ _ _ _ _ (V (b + 1) (mks (s_g s) (s_r s) 0%Z (s_live s)))). intros k. cbn [exec V pc]. rewrite K0. cbn. now rewrite Nat.add_1_r.
    - apply leads_one. intros k. cbn [exec V pc]. rewrite K1. replace (b + 2) with (S (b + 1)) by lia. reflexivity. }
  pose proof (IH _ _ _ _ _ _ x s0 Ka F S2 Y Q) as A.
  change (SEM (NEval n) s) with (match SEM n s0 with
      | Some (SNormal, s') => Some (SNormal, leave P (lives s) s')
      | Some (SThrow e, s') =>
          Some (SNormal, leave P (lives s) (mks (s_g s') (s_r s') e (s_live s')))
      | other => other
      end).
  destruct (SEM n s0) as [[sg s1] |] eqn:E1.
  2: { eapply late_leads; [exact L0 | exact A]. }
  destruct A as [A1 _]. grow E1. change (lives s0) with (lives s) in E1.
  assert (forall s2, lives s2 = lives s1 -> LEADS (V (b + 2 + length (comp n true (b + 2) m)) s2)
            (V (b + length (comp (NEval n) ine b m)) (leave P (lives s) s2))) as LL.
  { intros s2 Z2. cbn [comp]. rewrite !app_length, length_subst, !Nat.add_assoc. cbn [length].
    eapply leave_step; [exact Kb | | lia |].
    - intros HD. apply Y. rewrite HD in S1. exact S1.
    - intros HD. apply (proj1 has_decl_npush) in HD. lia. }
  assert (forall s2, lives s2 = lives s1 -> lives (leave P (lives s) s2) = lives s) as LV
    by (intros s2 Z2; rewrite lives_leave; [reflexivity | lia]).
  destruct sg; try (split; [eapply leads_trans; [exact L0 |]; exact A1 | discriminate]);
    (split; [| intros _ X; rewrite LV by reflexivity; rewrite Nat.add_0_r; now apply Y]);
    (eapply leads_trans; [exact L0 |]; eapply leads_trans; [exact A1 |]).
  - cbn [exit]. now apply LL.
  - cbn [exit e_exce]. apply (LL (mks (s_g s1) (s_r s1) e (s_live s1))). reflexivity.
Qed.

Lemma sim_if : forall ns c r t e, sim_n c -> sim_n t -> sim_n e -> sim_n (NIf ns c r t e).
Proof.
  intros ns c r t e IHc IHt IHe il isw ine E b m x s K F S Y Q.
  cbn [flow_ok scope_ok npush decls] in *.
  destruct (scope_ok x c) as [okc x1] eqn:Sc. cbn [fst snd] in *.
  apply andb3 in F as [F Fe]. apply andb3 in F as [Fc Ft].
  apply andb3 in S as [S Sx]. apply andb3 in S as [S Se]. apply andb3 in S as [S1 St].
  cbn [comp] in *. cbv zeta in K |- *.
  set (cc := comp c ine b m) in *. set (m1 := m + decls c) in *.
  set (tt := comp t ine (b + length cc + 1) m1) in *.
  set (lt := lv (has_decl t && negb ns) m1) in *.
  set (tl := b + length cc + 1 + length tt + 1) in *.
  set (ee := comp e ine (tl + length lt) m1) in *.
  set (le := lv (has_decl e && negb ns) m1) in *.
  rewrite !map_app in K.
  apply code_app in K as [Kc K]. rewrite map_length in K.
  apply code_app in K as [Ki K]. apply code_cons in Ki as [Ki _].
  change (length (map (map_op (res E)) [OIfEq (TAbs tl) r])) with 1 in K.
  apply code_app in K as [Kt K]. rewrite map_length in K.
  apply code_app in K as [Kg K]. apply code_cons in Kg as [Kg _].
  change (length (map (map_op (res E)) [OGoto (TAbs (tl + length lt + length ee))])) with 1 in K. fold tl in K.
  apply code_app in K as [Klt K]. rewrite map_length in K.
  apply code_app in K as [Ke Kle]. rewrite map_length in Kle.
  cbn [map_op res] in Ki, Kg.
  assert (lives s + npush c <= cap) as Qc by lia.
  pose proof (IHc _ _ _ _ _ _ x s Kc Fc (eq_trans (f_equal fst Sc) S1) Y Qc) as A.
  cbn [sem]. fold cc in A. destruct (SEM c s) as [[sg s1] |] eqn:E1; [| exact A].
  destruct A as [A1 A2]. rewrite Sc in A2. cbn [snd] in A2.
  pose proof (proj1 (sem_flow G R P me call f) _ _ _ _ _ _ Fc E1) as FL.
  grow E1.
  destruct sg; try (split; [exact A1 | discriminate]). clear FL. specialize (A2 eq_refl).
  cbn [exit] in A1. fold m1 in A2.
  assert (negb ns && (has_decl t || has_decl e) = true -> lives s1 = m1) as SY
    by (intros HX; apply A2; rewrite HX in Sx; exact Sx).
  set (fin := b + length (cc ++ [OIfEq (TAbs tl) r] ++ tt ++ [OGoto (TAbs (tl + length lt + length ee))] ++ lt ++ ee ++ le)).
  assert (fin = tl + length lt + length ee + length le) as FIN.
  { unfold fin, tl. rewrite !app_length. cbn [length]. lia. }
  (* the last LEAVE_SCOPE *)
  assert (forall s2, lives s1 <= lives s2 ->
            LEADS (V (tl + length lt + length ee) s2)
                  (V fin (if has_decl e && negb ns then leave P (lives s1) s2 else s2))) as LL.
  { intros s2 G2. rewrite FIN. destruct (has_decl e && negb ns) eqn:HE; unfold le; rewrite ?HE.
    - eapply leave_step; [unfold le in Kle; rewrite ?HE in Kle; exact Kle | | lia | discriminate].
      intros _. apply SY. apply andb3 in HE as [-> ->]. now rewrite orb_true_r.
    - cbn [lv length]. rewrite Nat.add_0_r. apply leads_refl. }
  destruct (p_test P r (s_r s1)) eqn:TS.
  - (* true *)
    assert (ONE (V (b + length cc) s1) (V (b + length cc + 1) s1)) as O1.
    { intros k. cbn [exec V pc]. rewrite Ki. cbn [V rg]. rewrite TS. cbn. now rewrite Nat.add_1_r. }
    assert (lives s1 + npush t <= cap) as Qt by lia.
    pose proof (IHt _ _ _ _ _ _ x1 s1 Kt Ft St A2 Qt) as B.
    destruct (SEM t s1) as [[sg s2] |] eqn:E2.
    2: { eapply late_leads; [exact A1 |]. eapply late_leads; [apply leads_one, O1 | exact B]. }
    destruct B as [B1 _]. grow E2. fold tt in B1.
    assert (LEADS (V b s) (exit ine E (b + length cc + 1 + length tt) sg s2)) as L
      by (eapply leads_trans; [exact A1 |]; eapply leads_trans; [apply leads_one, O1 | exact B1]).
    destruct sg; try (split; [exact L | discriminate]). cbn [exit] in L.
    split.
    + eapply leads_trans; [exact L |]. eapply leads_trans; [eapply leads_one, goto_step, Kg |].
      apply LL. lia.
    + intros _ X. apply andb3 in X as [X X3]. apply andb3 in X as [X1 X2]. specialize (A2 X1).
      destruct (has_decl e && negb ns) eqn:HE; [rewrite lives_leave by lia; exact A2 |].
      rewrite orb_false_r in X2. apply negb_true in X2. apply (proj1 has_decl_npush) in X2. lia.
  - (* false *)
    assert (ONE (V (b + length cc) s1) (V tl s1)) as O1.
    { intros k. cbn [exec V pc]. rewrite Ki. cbn [V rg]. now rewrite TS. }
    assert (LEADS (V tl s1) (V (tl + length lt) s1)) as O2.
    { assert (leave P (lives s1) s1 = s1) as LS by (now apply leave_same). rewrite <- LS at 2.
      eapply leave_step; [exact Klt | | lia | reflexivity].
      intros HX. apply SY. apply andb3 in HX as [-> ->]. reflexivity. }
    assert (lives s1 + npush e <= cap) as Qe by lia.
    pose proof (IHe _ _ _ _ _ _ x1 s1 Ke Fe Se A2 Qe) as B.
    destruct (SEM e s1) as [[sg s2] |] eqn:E2.
    2: { eapply late_leads; [exact A1 |]. eapply late_leads; [apply leads_one, O1 |].
         eapply late_leads; [exact O2 | exact B]. }
    destruct B as [B1 _]. grow E2. fold ee in B1.
    assert (LEADS (V b s) (exit ine E (tl + length lt + length ee) sg s2)) as L
      by (eapply leads_trans; [exact A1 |]; eapply leads_trans; [apply leads_one, O1 |];
          eapply leads_trans; [exact O2 | exact B1]).
    destruct sg; try (split; [exact L | discriminate]). cbn [exit] in L.
    split.
    + eapply leads_trans; [exact L |]. apply LL. lia.
    + intros _ X. apply andb3 in X as [X X3]. apply andb3 in X as [X1 X2]. specialize (A2 X1).
      destruct (has_decl e && negb ns) eqn:HE; [rewrite lives_leave by lia; exact A2 |].
      destruct (has_decl e) eqn:HD; [cbn in X3, HE; congruence |].
      apply (proj1 has_decl_npush) in HD. lia.
Qed.

Lemma sim_switch : forall c r cs, sim_n c -> sim_c cs -> sim_n (NSwitch c r cs).
Proof.
  intros c r cs IHc IHs il isw ine E b m x s K F S Y Q.
  cbn [flow_ok scope_ok npush decls] in *.
  destruct (scope_ok x c) as [okc x1] eqn:Sc. cbn [fst snd] in *.
  apply andb3 in F as [Fc Fs]. apply andb3 in S as [S Sx]. apply andb3 in S as [S1 Ss].
  assert (comp (NSwitch c r cs) ine b m =
      let cc := comp c ine b m in
      let m1 := m + decls c in
      let st := b + length cc + 1 + count_cases cs in
      let '(kk, tbl, d) := comp_cases cs ine st m1 in
      cc ++ [OSwitch r d tbl] ++ repeat OCaseInfo (count_cases cs)
         ++ subst TBrk (st + length kk) kk ++ lv (has_decl_cases cs) m1) as EC by reflexivity.
  rewrite EC in *. clear EC. cbv zeta in K |- *.
  set (cc := comp c ine b m) in *. set (m1 := m + decls c) in *.
  set (st := b + length cc + 1 + count_cases cs) in *.
  destruct (comp_cases cs ine st m1) as [[kk tbl] dd] eqn:CC.
  rewrite !map_app in K.
  apply code_app in K as [Kc K]. rewrite map_length in K.
  apply code_app in K as [Ki K]. apply code_cons in Ki as [Ki _].
  change (length (map (map_op (res E)) [OSwitch r dd tbl])) with 1 in K.
  apply code_app in K as [_ K]. rewrite map_length, repeat_length in K. fold st in K.
  apply code_app in K as [Kk Kl]. rewrite map_length, length_subst in Kl. rewrite rs_brk in Kk.
  cbn [map_op] in Ki.
  assert (lives s + npush c <= cap) as Qc by lia.
  pose proof (IHc _ _ _ _ _ _ x s Kc Fc (eq_trans (f_equal fst Sc) S1) Y Qc) as A.
  rewrite sem_switch. fold cc in A. destruct (SEM c s) as [[sg s1] |] eqn:E1; [| exact A].
  destruct A as [A1 A2]. rewrite Sc in A2. cbn [snd] in A2.
  pose proof (proj1 (sem_flow G R P me call f) _ _ _ _ _ _ Fc E1) as FL.
  grow E1.
  destruct sg; try (split; [exact A1 | discriminate]). clear FL. specialize (A2 eq_refl).
  cbn [exit] in A1. fold m1 in A2.
  set (v := p_sel P r (s_r s1)).
  assert (ONE (V (b + length cc) s1) (V (find_case v tbl dd) s1)) as O1.
  { intros k. cbn [exec V pc]. now rewrite Ki. }
  set (fin := b + length (cc ++ [OSwitch r dd tbl] ++ repeat OCaseInfo (count_cases cs)
         ++ subst TBrk (st + length kk) kk ++ lv (has_decl_cases cs) m1)).
  assert (fin = st + length kk + length (lv (has_decl_cases cs) m1)) as FIN.
  { unfold fin, st. rewrite !app_length, repeat_length, length_subst. cbn [length]. lia. }
  assert (lives s1 + npush_cases cs <= cap) as Qs by lia.
  set (E' := mkenv (e_last E) (e_next E) (st + length kk) (e_ret E) (e_exce E) (e_excm E)) in *.
  pose proof (IHs _ _ E' _ _ x1 v false s1 _ _ _ CC Kk eq_refl Fs Ss Sx A2 Qs) as B.
  cbn [entry] in B.
  destruct (SEMC v false cs s1) as [[sg s2] |] eqn:E2.
  2: { eapply late_leads; [exact A1 |]. eapply late_leads; [apply leads_one, O1 | exact B]. }
  apply (proj2 (sem_grows G R P me call f)) in E2. apply grows_lives in E2.
  assert ((sg = SNormal \/ sg = SBreak) \/ ~ (sg = SNormal \/ sg = SBreak)) as [CS | CS]
    by (destruct sg; [left; left | right | right | left; right | right | right]; try reflexivity; intros [|]; discriminate).
  - assert (exists s'', LEADS (V (find_case v tbl dd) s1) (V (e_brk E') s'') /\
          leave P (lives s1) s'' = leave P (lives s1) s2 /\ lives s1 <= lives s'' <= lives s2) as (s3 & B1 & B2 & B3)
      by (destruct CS; subst sg; exact B).
    assert (LEADS (V b s) (V fin (leave P (lives s1) s2)) /\ (x1 = true -> lives (leave P (lives s1) s2) = m1)) as W.
    { split.
      - eapply leads_trans; [exact A1 |]. eapply leads_trans; [apply leads_one, O1 |].
        eapply leads_trans; [exact B1 |]. rewrite <- B2, FIN.
        eapply leave_step; [exact Kl | | lia |].
        + intros HD. rewrite HD in Sx. now apply A2.
        + intros HD. apply (proj2 has_decl_npush) in HD. lia.
      - intros X. rewrite lives_leave by lia. now apply A2. }
    destruct CS; subst sg; (split; [apply W | intros _; apply W]).
  - destruct sg; try (exfalso; apply CS; auto; fail);
      (split; [| discriminate]; eapply leads_trans; [exact A1 |]; eapply leads_trans; [apply leads_one, O1 | exact B]).
Qed.

Lemma sim_default : forall n, sim_n n -> sim_c (CDefault n).
Proof.
  intros n IH il ine E b m x v found s kk tbl dd CC K EB F S HX Y Q.
  cbn [comp_cases] in CC. injection CC as <- <- <-.
  cbn [flow_ok_cases scope_ok_cases npush_cases has_decl_cases] in *.
  rewrite map_app in K. apply code_app in K as [Ka Kb]. rewrite map_length in Kb.
  pose proof (IH _ _ _ _ _ _ x s Ka F S Y Q) as A.
  change (SEMC v found (CDefault n) s) with (SEM n s).
  assert (entry b v found [] b = b) as -> by (now destruct found).
  destruct (SEM n s) as [[sg s1] |] eqn:E1; [| exact A].
  destruct A as [A1 _]. grow E1.
  destruct sg; try exact A1.
  - exists (leave P (lives s) s1). split; [| split; [apply leave_leave; lia | rewrite lives_leave; lia]].
    eapply leads_trans; [exact A1 |]. cbn [exit]. rewrite EB, app_length, Nat.add_assoc.
    eapply leave_step; [exact Kb | | lia |].
    + intros HD. apply Y. rewrite HD in HX. exact HX.
    + intros HD. apply (proj1 has_decl_npush) in HD. lia.
  - exists s1. split; [exact A1 | split; [reflexivity | lia]].
Qed.

Lemma sim_label : forall w cs, sim_c cs -> sim_c (CLabel w cs).
Proof.
  intros w cs IH il ine E b m x v found s kk tbl dd CC K EB F S HX Y Q.
  cbn [comp_cases] in CC. destruct (comp_cases cs ine b m) as [[kk' tbl'] dd'] eqn:CC'. injection CC as <- <- <-.
  change (SEMC v found (CLabel w cs) s) with (SEMC v (found || Z.eqb v w) cs s).
  assert (entry b v found ((w, b) :: tbl') dd' = entry b v (found || Z.eqb v w) tbl' dd') as ->
    by (unfold entry; cbn [find_case]; destruct found, (Z.eqb v w); reflexivity).
  eapply IH; eauto.
Qed.

Lemma sim_case : forall w n cs, sim_n n -> sim_c cs -> sim_c (CCase w n cs).
Proof.
  intros w n cs IHn IH il ine E b m x v found s kk tbl dd CC K EB F S HX Y Q.
  cbn [comp_cases] in CC. cbv zeta in CC.
  set (xx := comp n ine b m ++ _) in CC.
  destruct (comp_cases cs ine (b + length xx) m) as [[kk' tbl'] dd'] eqn:CC'. injection CC as <- <- <-.
  cbn [flow_ok_cases scope_ok_cases npush_cases has_decl_cases] in *.
  apply andb3 in F as [Fn Fs]. apply andb3 in S as [Sn Ss].
  rewrite map_app in K. apply code_app in K as [Kx Kk]. rewrite map_length in Kk.
  change (SEMC v found (CCase w n cs) s) with (if found || Z.eqb v w then SEM n s else SEMC v found cs s).
  assert (entry b v found ((w, b) :: tbl') dd' = if found || Z.eqb v w then b else entry (b + length xx) v found tbl' dd') as ->
    by (unfold entry; cbn [find_case]; destruct found, (Z.eqb v w); reflexivity).
  destruct (found || Z.eqb v w) eqn:FW.
  - unfold xx in Kx. rewrite !map_app in Kx. apply code_app in Kx as [Kn Kx]. rewrite map_length in Kx.
    apply code_app in Kx as [Kb _].
    assert (lives s + npush n <= cap) as Qn by lia.
    pose proof (IHn _ _ _ _ _ _ x s Kn Fn Sn Y Qn) as A.
    destruct (SEM n s) as [[sg s1] |] eqn:E1; [| exact A].
    destruct A as [A1 _]. pose proof E1 as E1'. grow E1.
    destruct sg; try exact A1.
    + destruct (ends_break n) eqn:EBR; [exfalso; eapply ends_break_sem; eauto |].
      exists s1. split; [| split; [reflexivity | lia]].
      eapply leads_trans; [exact A1 |]. cbn [exit]. apply leads_one, goto_step.
      apply code_cons in Kb as [Kb _]. exact Kb.
    + exists s1. split; [exact A1 | split; [reflexivity | lia]].
  - assert (e_brk E = b + length xx + length kk') as EB' by (rewrite EB, app_length; lia).
    assert (negb (has_decl_cases cs) || x = true) as HX'.
    { destruct (has_decl_cases cs); [| reflexivity]. rewrite orb_true_r in HX. exact HX. }
    assert (lives s + npush_cases cs <= cap) as Qs by lia.
    exact (IH _ _ _ _ _ x v found s _ _ _ CC' Kk EB' Fs Ss HX' Y Qs).
Qed.

Lemma sim_loop : forall i x n c r, sim_n i -> sim_n x -> sim_n n -> sim_n c -> sim_n (NLoop i x n c r).
Proof.
  intros i y n c r IHi IHx IHn IHc il isw ine E b m x s K F S Y Q.
  cbn [flow_ok scope_ok npush decls] in *.
  destruct (scope_ok x i) as [oki x1] eqn:Si. cbn [fst snd] in *.
  apply andb3 in F as [F Fc]. apply andb3 in F as [F Fn]. apply andb3 in F as [Fi Fx].
  apply andb3 in S as [S Snc]. apply andb3 in S as [S Sb]. apply andb3 in S as [S Sall].
  apply andb3 in S as [S Sc]. apply andb3 in S as [S Sn]. apply andb3 in S as [S1 Sx].
  set (inner := x1 && negb (has_decl n) && negb (has_decl c)) in *.
  cbn [comp] in *. cbv zeta in K |- *.
  set (ii := comp i ine b m) in *. set (m1 := m + decls i) in *. set (g0 := b + length ii) in *.
  set (bb := comp y ine (g0 + 1) m1) in *. set (nt := g0 + 1 + length bb) in *.
  set (lb := lv (has_decl y) m1) in *.
  set (nn := comp n ine (nt + length lb) m1) in *. set (ct := nt + length lb + length nn) in *.
  set (cc := comp c ine ct (m1 + decls n)) in *. set (lt := ct + length cc + 1) in *.
  set (any := has_decl i || has_decl y || has_decl n || has_decl c) in *.
  set (le := lv any m) in *.
  rewrite map_app, rs_last in K.
  set (EL := mkenv lt (e_next E) (e_brk E) (e_ret E) (e_exce E) (e_excm E)) in *.
  rewrite !map_app in K. rewrite rs_next in K.
  set (EN := mkenv (e_last EL) nt (e_brk EL) (e_ret EL) (e_exce EL) (e_excm EL)) in *.
  apply code_app in K as [K Kle].
  rewrite !app_length, !map_length in Kle. cbn [length] in Kle.
  apply code_app in K as [Ki K]. rewrite map_length in K. fold g0 in K.
  apply code_app in K as [Kg K]. apply code_cons in Kg as [Kg _].
  change (length (map (map_op (res EL)) [OGoto (TAbs ct)])) with 1 in K.
  apply code_app in K as [Kb K]. rewrite map_length in K. fold nt in K.
  apply code_app in K as [Klb K]. rewrite map_length in K.
  apply code_app in K as [Kn K]. rewrite map_length in K. fold ct in K.
  apply code_app in K as [Kc K]. rewrite map_length in K.
  apply code_cons in K as [Kw _].
  cbn [map_op res] in Kg, Kw.
  eapply code_pos in Kle; [| instantiate (1 := lt); unfold lt, ct, nt, g0; lia].
  set (fin := b + length (_ ++ le)).
  assert (fin = lt + length le) as FIN.
  { unfold fin. rewrite app_length, length_subst, !app_length, length_subst. unfold lt, ct, nt, g0. cbn [length]. lia. }
  assert (lives s + npush i <= cap) as Qi by lia.
  pose proof (IHi _ _ _ _ _ _ x s Ki Fi (eq_trans (f_equal fst Si) S1) Y Qi) as A.
  cbn [sem]. fold ii in A.
  destruct (SEM i s) as [[sg s1] |] eqn:E1; [| exact A].
  destruct A as [A1 A2]. rewrite Si in A2. cbn [snd] in A2.
  pose proof (proj1 (sem_flow G R P me call f) _ _ _ _ _ _ Fi E1) as FL.
  grow E1.
  destruct sg; try (cbn in FL; discriminate FL); try (split; [exact A1 | discriminate]).
  clear FL. specialize (A2 eq_refl). cbn [exit] in A1. fold g0 in A1. fold m1 in A2.
  pose proof (goto_step g0 ct s1 Kg) as O0.
  (* the end of the loop *)
  assert (forall s2, lives s <= lives s2 -> (any = false -> lives s2 = lives s) ->
            LEADS (V lt s2) (V fin (leave P (lives s) s2))) as LL.
  { intros s2 G1 G2. rewrite FIN. eapply leave_step; [exact Kle | | exact G1 | exact G2].
    intros HA. apply Y. rewrite HA in Sall. exact Sall. }
  assert (any = false -> npush i = 0 /\ npush y = 0 /\ npush n = 0 /\ npush c = 0) as ANY.
  { unfold any. intros HA. apply orb_false_elim in HA as [HA ?]. apply orb_false_elim in HA as [HA ?].
    apply orb_false_elim in HA as [? ?]. repeat split; now apply (proj1 has_decl_npush). }
  assert (has_decl y = false -> npush y = 0 /\ npush n = 0 /\ npush c = 0) as NOB.
  { intros HA. rewrite HA, orb_false_r in Snc. apply negb_true in Snc. apply orb_false_elim in Snc as [? ?].
    repeat split; now apply (proj1 has_decl_npush). }
  assert (inner = true -> x1 = true /\ npush n = 0 /\ npush c = 0) as INN.
  { unfold inner. intros HI. apply andb3 in HI as [HI Hc]. apply andb3 in HI as [HI Hn].
    apply negb_true in Hc, Hn. repeat split; auto; now apply (proj1 has_decl_npush). }
  match goal with |- context [?F f false s1] => set (iter := F) end.
  assert (forall k ag si, k <= f -> lives si = lives s1 ->
    match iter k ag si with
    | None => LATE k (V (if ag then nt + length lb else ct) si)
    | Some (sig, s') => LEADS (V (if ag then nt + length lb else ct) si) (exit ine E fin sig s') /\
                        (sig = SNormal -> lives s' = lives s)
    end) as IT.
  { intros k; induction k as [k IHk] using lt_wf_ind. intros ag si KF LV.
    assert (iter k ag si =
        match (if ag then SEM n si else Some (SNormal, si)) with
            | Some (SNormal, si) =>
                match SEM c si with
                | Some (SNormal, si) =>
                    if p_test P r (s_r si) then
                      match SEM y si with
                      | Some (SNormal, s') | Some (SNext, s') =>
                          match k with
                          | O => None
                          | S k => iter k true (leave P (lives s1) s')
                          end
                      | Some (SLast, s') => Some (SNormal, leave P (lives s) s')
                      | other => other
                      end
                    else Some (SNormal, leave P (lives s) si)
                | other => other
                end
            | other => other
            end) as U by (destruct k; reflexivity).
    rewrite U. clear U.
    (* increment *)
    assert (match (if ag then SEM n si else Some (SNormal, si)) with
            | None => LATE f (V (if ag then nt + length lb else ct) si)
            | Some (sig, s') => LEADS (V (if ag then nt + length lb else ct) si) (exit ine EL ct sig s') /\
                 lives s1 <= lives s' <= lives s1 + npush n /\ sigok false false sig
            end) as B.
    { destruct ag.
      - assert (inner = true -> lives si = m1) as YI by (intros HI; rewrite LV; apply A2, INN, HI).
        assert (lives si + npush n <= cap) as Qn by lia.
        pose proof (IHn _ _ _ _ _ _ inner si Kn Fn Sn YI Qn) as B.
        fold nn in B. fold ct in B.
        destruct (SEM n si) as [[sg s2] |] eqn:E2; [| exact B]. destruct B as [B _].
        pose proof (proj1 (sem_flow G R P me call f) _ _ _ _ _ _ Fn E2) as FL. grow E2.
        split; [exact B | split; [lia | exact FL]].
      - split; [apply leads_refl | split; [lia | exact I]]. }
    destruct (if ag then SEM n si else Some (SNormal, si)) as [[sg s2] |].
    2: { eapply late_le; [exact KF | exact B]. }
    destruct B as (B1 & B2 & B3).
    destruct sg; cbn in B3; try discriminate B3; try (split; [exact B1 | discriminate]). clear B3. cbn [exit] in B1.
    (* condition *)
    assert (inner = true -> lives s2 = m1 + decls n) as YI.
    { intros HI. pose proof (INN HI) as (X1 & N0 & C0). pose proof (A2 X1).
      assert (decls n = 0) as ->; [| lia].
      clear -N0. induction n; cbn [decls npush] in *; lia. }
    assert (lives s2 + npush c <= cap) as Qc by lia.
    pose proof (IHc _ _ _ _ _ _ inner s2 Kc Fc Sc YI Qc) as D. fold cc in D.
    destruct (SEM c s2) as [[sg s3] |] eqn:E3.
    2: { eapply late_le; [exact KF |]. eapply late_leads; [exact B1 | exact D]. }
    destruct D as [D1 _].
    pose proof (proj1 (sem_flow G R P me call f) _ _ _ _ _ _ Fc E3) as FL. grow E3.
    assert (LEADS (V (if ag then nt + length lb else ct) si) (exit ine EL (ct + length cc) sg s3)) as L3
      by (eapply leads_trans; [exact B1 | exact D1]).
    destruct sg; cbn in FL; try discriminate FL; try (split; [exact L3 | discriminate]). clear FL. cbn [exit] in L3.
    destruct (p_test P r (s_r s3)) eqn:TS.
    2: { (* the loop ends *)
      assert (ONE (V (ct + length cc) s3) (V lt s3)) as O1.
      { intros k0. cbn [exec V pc]. rewrite Kw. cbn [V rg]. rewrite TS. cbn. unfold lt. now rewrite Nat.add_1_r. }
      split; [| intros _; apply lives_leave; lia].
      eapply leads_trans; [exact L3 |]. eapply leads_trans; [apply leads_one, O1 |].
      cbn [exit]. apply LL; [lia |]. intros HA. apply ANY in HA. lia. }
    (* body *)
    assert (ONE (V (ct + length cc) s3) (V (g0 + 1) s3)) as O1.
    { intros k0. cbn [exec V pc]. rewrite Kw. cbn [V rg]. now rewrite TS. }
    assert (inner = true -> lives s3 = m1) as YB.
    { intros HI. pose proof (INN HI) as (X1 & N0 & C0). pose proof (A2 X1). lia. }
    assert (lives s3 + npush y <= cap) as Qb by lia.
    pose proof (IHx _ _ _ _ _ _ inner s3 Kb Fx Sx YB Qb) as D. fold bb in D. fold nt in D.
    destruct (SEM y s3) as [[sg s4] |] eqn:E4.
    2: { eapply late_le; [exact KF |]. eapply late_leads; [exact L3 |]. eapply late_leads; [apply leads_one, O1 | exact D]. }
    destruct D as [D4 _]. grow E4.
    assert (sg = SNormal \/ sg = SNext ->
      match (match k with O => None | S k => iter k true (leave P (lives s1) s4) end) with
      | None => LATE k (V (if ag then nt + length lb else ct) si)
      | Some (sig, s') => LEADS (V (if ag then nt + length lb else ct) si) (exit ine E fin sig s') /\
                        (sig = SNormal -> lives s' = lives s)
      end) as AGAIN.
    { intros SG.
      assert (LEADS (V (g0 + 1) s3) (V nt s4)) as D5 by (destruct SG; subst sg; exact D4).
      assert (LEADS (V nt s4) (V (nt + length lb) (leave P (lives s1) s4))) as D6.
      { eapply leave_step; [exact Klb | | lia |].
        - intros HD. rewrite HD in Sb. now apply A2.
        - intros HD. apply NOB in HD. lia. }
      destruct k as [| k].
      - intros k0 K0. assert (k0 = 0) as -> by lia. reflexivity.
      - assert (lives (leave P (lives s1) s4) = lives s1) as LV4 by (apply lives_leave; lia).
        assert (k < S k) as KS by lia. assert (k <= f) as KF' by lia.
        pose proof (IHk k KS true (leave P (lives s1) s4) KF' LV4) as Z.
        cbn [negb] in Z.
        destruct (iter k true (leave P (lives s1) s4)) as [[sg' s5] |].
        + destruct Z as [Z1 Z2]. split; [| exact Z2].
          eapply leads_trans; [exact L3 |]. eapply leads_trans; [apply leads_one, O1 |].
          eapply leads_trans; [exact D5 |]. eapply leads_trans; [exact D6 | exact Z1].
        + eapply late_leads; [exact L3 |]. eapply late_one; [exact O1 |].
          eapply late_leads; [exact D5 |]. eapply late_leads; [exact D6 | exact Z]. }
    assert (LEADS (V (if ag then nt + length lb else ct) si) (exit ine EN nt sg s4)) as L4
      by (eapply leads_trans; [exact L3 |]; eapply leads_trans; [apply leads_one, O1 | exact D4]).
    destruct sg; try (split; [exact L4 | discriminate]); try (apply AGAIN; auto; fail).
    (* last *)
    split; [| intros _; apply lives_leave; lia].
    eapply leads_trans; [exact L4 |]. cbn [exit]. change (e_last EN) with lt.
    apply LL; [lia |]. intros HA. apply ANY in HA. lia. }
  pose proof (IT f false s1 (le_n f) eq_refl) as Z. cbn [negb] in Z.
  destruct (iter f false s1) as [[sg s2] |].
  - destruct Z as [Z1 Z2]. split.
    + eapply leads_trans; [exact A1 |]. eapply leads_trans; [apply leads_one, O0 | exact Z1].
    + intros N X. rewrite (Z2 N), Nat.add_0_r. now apply Y.
  - eapply late_leads; [exact A1 |]. eapply late_leads; [apply leads_one, O0 | exact Z].
Qed.

Lemma sim_all : (forall n, sim_n n) /\ (forall cs, sim_c cs).
Proof.
  apply node_cases_ind.
  - intros il isw ine E b m x s K F S Y Q. cbn [sem comp length exit]. split; [rewrite Nat.add_0_r; apply leads_refl |].
    intros _ X. cbn [decls]. rewrite Nat.add_0_r. now apply Y.
  - intros; now apply sim_seq.
  - apply sim_leaf_do.
  - apply sim_leaf_try.
  - apply sim_leaf_call.
  - apply sim_leaf_decl.
  - apply sim_leaf_geterr.
  - apply sim_leaf_return.
  - intros il isw ine E b m x s K F S Y Q. apply code_cons in K as [K _]. cbn [sem exit]. split; [| discriminate].
    apply leads_one, goto_step, K.
  - intros il isw ine E b m x s K F S Y Q. apply code_cons in K as [K _]. cbn [sem exit]. split; [| discriminate].
    apply leads_one, goto_step, K.
  - intros il isw ine E b m x s K F S Y Q. apply code_cons in K as [K _]. cbn [sem exit]. split; [| discriminate].
    apply leads_one, goto_step, K.
  - intros; now apply sim_block.
  - intros; now apply sim_if.
  - intros; now apply sim_loop.
  - intros; now apply sim_eval.
  - intros; now apply sim_switch.
  - intros; now apply sim_default.
  - intros; now apply sim_label.
  - intros; now apply sim_case.
Qed.
End Simulate.

(** ** Whole programs *)
Section Program.
Variables G R : Type.
Variable P : prims G R.
Variable prog : nat -> option node.
Hypothesis SUP : forall m b, prog m = Some b -> supported b = true.

Definition cprog_of (m : nat) : option (list (op nat) * nat) := option_map compile (prog m).

(* the frame of a compiled method, from its first opcode to the result *)
Lemma frame_ok : forall f d nest m b g C cap,
  prog m = Some b -> compile b = (C, cap) ->
  (forall p m' s, nth_error C p = Some (OCall m') ->
    match sem_call P prog f d m' (s_g s) with
    | None => late G R P cprog_of nest m C cap f (V G R d p s)
    | Some (e, g) => leads G R P cprog_of nest m C cap (V G R d p s) (mkv (S p) d g (s_r s) e (s_err s) (s_live s))
    end) ->
  match sem P m (sem_call P prog f d) f b (mks g (p_frame P m g) 0 []) with
  | None => forall k, k <= f -> exec P cprog_of k nest m C cap (mkv 0 d g (p_frame P m g) 0 0 []) = VFuel
  | Some (sig, s) =>
      let e := match sig with SThrow e => e | _ => 0%Z end in
      (forall k, exec P cprog_of k nest m C cap (mkv 0 d g (p_frame P m g) 0 0 []) = VFuel \/
                 exec P cprog_of k nest m C cap (mkv 0 d g (p_frame P m g) 0 0 []) = VRet e d (p_leave P m e (s_g (leave P 0 s)))) /\
      (exists k, exec P cprog_of k nest m C cap (mkv 0 d g (p_frame P m g) 0 0 []) = VRet e d (p_leave P m e (s_g (leave P 0 s))))
  end.
Proof.
  intros f d nest m b g C cap PM CO HC.
  pose proof (SUP m b PM) as SU. unfold supported in SU.
  apply andb3 in SU as [SU SC]. apply andb3 in SU as [FL EV].
  rewrite (compile_comp b EV) in CO. injection CO as EC <-.
  set (L := comp b false 0 0) in *. set (E := menv b) in *.
  assert (code_at C 0 C) as K by apply code_self. rewrite <- EC in K at 2.
  rewrite map_app in K. rewrite <- app_assoc in K. apply code_app in K as [KL K]. rewrite map_length in K.
  apply code_app in K as [KV KE]. rewrite map_length in KE. apply code_cons in KE as [KE _]. cbn [Nat.add] in *.
  set (s0 := mks g (p_frame P m g) 0%Z []).
  change (mkv 0 d g (p_frame P m g) 0%Z 0%Z []) with (V G R d 0 s0).
  assert (lives s0 + npush b <= npush b + 1) as Q by (cbn; lia).
  pose proof (proj1 (sim_all G R P cprog_of nest m C (npush b + 1) d (sem_call P prog f d) f HC) b
    false false false E 0 0 true s0 KL FL SC (fun _ => eq_refl) Q) as A. fold L in A.
  pose proof (proj1 (sem_flow G R P m (sem_call P prog f d) f) b false false s0) as FLW.
  pose proof (proj1 (sem_grows G R P m (sem_call P prog f d) f) b s0) as GR.
  destruct (sem P m (sem_call P prog f d) f b s0) as [[sig s] |]; [| exact A].
  specialize (FLW sig s FL eq_refl). specialize (GR sig s eq_refl). apply grows_lives in GR.
  destruct A as [A _]. cbv zeta. set (e := match sig with SThrow e => e | _ => 0%Z end).
  assert (leads G R P cprog_of nest m C (npush b + 1) (V G R d 0 s0)
            (mkv (length L) d (s_g s) (s_r s) e (s_err s) (s_live s))) as A1.
  { destruct sig; cbn in FLW; try discriminate FLW; exact A. }
  clear A.
  (* the end of the method, whatever error_id is *)
  assert (leads G R P cprog_of nest m C (npush b + 1) (mkv (length L) d (s_g s) (s_r s) e (s_err s) (s_live s))
            (mkv (length L + length (lv (has_decl b) 0)) d (s_g (leave P 0 s)) (s_r (leave P 0 s)) e (s_err s) (s_live (leave P 0 s)))) as A2.
  { destruct (has_decl b) eqn:HD; cbn [lv length map map_op] in *.
    - apply code_cons in KV as [KV _]. apply leads_one. intros k. cbn [exec pc]. rewrite KV. cbn [mort gl rg].
      cbn [Nat.leb]. unfold leave. destruct (release_all _ _ _ _) as [g' r']. cbn.
      now rewrite (Nat.add_1_r (length L)).
    - apply (proj1 has_decl_npush) in HD. rewrite leave_same by (cbn in GR; lia). rewrite Nat.add_0_r. apply leads_refl. }
  pose proof (leads_trans _ _ _ _ _ _ _ _ _ _ _ A1 A2) as [B1 (j & B2)].
  set (fs := mkv _ _ _ _ _ _ _) in B1, B2.
  assert (forall k, exec P cprog_of (S k) nest m C (npush b + 1) fs = VRet e d (p_leave P m e (s_g (leave P 0 s)))) as FIN.
  { intros k. unfold fs. cbn [exec pc]. rewrite KE. reflexivity. }
  split.
  - intros k. destruct (exec P cprog_of k nest m C (npush b + 1) (V G R d 0 s0)) eqn:X; auto; right;
      (apply B1 in X; [| discriminate]; destruct k; [discriminate X |]; rewrite FIN in X; congruence).
  - exists (j + 1). apply B2; [discriminate | apply FIN].
Qed.

Lemma call_ok : forall f d nest me C cap, (MAX_DEPTH - d <= Z.of_nat nest)%Z ->
  forall p m s, nth_error C p = Some (OCall m) ->
    match sem_call P prog f d m (s_g s) with
    | None => late G R P cprog_of nest me C cap f (V G R d p s)
    | Some (e, g) => leads G R P cprog_of nest me C cap (V G R d p s) (mkv (S p) d g (s_r s) e (s_err s) (s_live s))
    end.
Proof.
  induction f as [| f IH]; intros d nest me C cap N p m s K.
  - (* no fuel *)
    cbn [sem_call].
    destruct (Z.ltb_spec MAX_DEPTH (d + 1)) as [D | D].
    { apply leads_one. intros k. cbn [exec V pc]. rewrite K. cbn [dep V].
      destruct (Z.ltb_spec MAX_DEPTH (d + 1)) as [_ | ?]; [| lia]. cbn. now rewrite Z.add_simpl_r. }
    destruct (p_enter P m (s_g s)) as [g [e |]] eqn:PE.
    { apply leads_one. intros k. cbn [exec V pc]. rewrite K. cbn [dep V].
      destruct (Z.ltb_spec MAX_DEPTH (d + 1)) as [? | _]; [lia |]. cbn [gl V]. rewrite PE. cbn. now rewrite Z.add_simpl_r. }
    destruct (prog m) as [b |] eqn:PM.
    { intros k K0. assert (k = 0) as -> by lia. reflexivity. }
    destruct (p_native P m g) as [g' e] eqn:PN.
    apply leads_one. intros k. cbn [exec V pc]. rewrite K. cbn [dep V].
    destruct (Z.ltb_spec MAX_DEPTH (d + 1)) as [? | _]; [lia |]. cbn [gl V]. rewrite PE. unfold cprog_of at 1. rewrite PM. cbn [option_map].
    rewrite PN. cbn. now rewrite Z.add_simpl_r.
  - cbn [sem_call].
    destruct (Z.ltb_spec MAX_DEPTH (d + 1)) as [D | D].
    { apply leads_one. intros k. cbn [exec V pc]. rewrite K. cbn [dep V].
      destruct (Z.ltb_spec MAX_DEPTH (d + 1)) as [_ | ?]; [| lia]. cbn. now rewrite Z.add_simpl_r. }
    destruct (p_enter P m (s_g s)) as [g [e |]] eqn:PE.
    { apply leads_one. intros k. cbn [exec V pc]. rewrite K. cbn [dep V].
      destruct (Z.ltb_spec MAX_DEPTH (d + 1)) as [? | _]; [lia |]. cbn [gl V]. rewrite PE. cbn. now rewrite Z.add_simpl_r. }
    destruct (prog m) as [b |] eqn:PM.
    2: { destruct (p_native P m g) as [g' e] eqn:PN.
      apply leads_one. intros k. cbn [exec V pc]. rewrite K. cbn [dep V].
      destruct (Z.ltb_spec MAX_DEPTH (d + 1)) as [? | _]; [lia |]. cbn [gl V]. rewrite PE. unfold cprog_of at 1. rewrite PM. cbn [option_map].
      rewrite PN. cbn. now rewrite Z.add_simpl_r. }
    destruct nest as [| nest]; [lia |].
    destruct (compile b) as [C' cap'] eqn:CO.
    assert (MAX_DEPTH - (d + 1) <= Z.of_nat nest)%Z as N' by lia.
    pose proof (frame_ok f (d + 1) nest m b g C' cap' PM CO (IH (d + 1)%Z nest m C' cap' N')) as A.
    (* one step of the caller *)
    assert (forall k, exec P cprog_of (S k) (S nest) me C cap (V G R d p s) =
              match exec P cprog_of k nest m C' cap' (mkv 0 (d + 1) g (p_frame P m g) 0 0 []) with
              | VRet e d' g' => exec P cprog_of k (S nest) me C cap (mkv (S p) (d' - 1) g' (s_r s) e (s_err s) (s_live s))
              | bad => bad
              end) as STEP.
    { intros k. cbn [exec V pc]. rewrite K. cbn [dep V].
      destruct (Z.ltb_spec MAX_DEPTH (d + 1)) as [? | _]; [lia |]. cbn [gl V]. rewrite PE. unfold cprog_of at 1. rewrite PM. cbn [option_map].
      rewrite CO. reflexivity. }
    destruct (sem P m (sem_call P prog f (d + 1)) f b (mks g (p_frame P m g) 0%Z [])) as [[sig s'] |].
    + cbv zeta in A. destruct A as [A1 (j & A2)]. set (e := match sig with SThrow e => e | _ => 0%Z end) in *.
      set (g' := p_leave P m e (s_g (leave P 0 s'))) in *.
      set (nx := mkv (S p) d g' (s_r s) e (s_err s) (s_live s)).
      split.
      * intros k r NF H. destruct k as [| k]; [cbn in H; congruence |]. rewrite STEP in H.
        destruct (A1 k) as [X | X]; rewrite X in H; [congruence |].
        rewrite Z.add_simpl_r in H. eapply exec_mono; [| exact NF | exact H]. lia.
      * exists (S j). intros k r NF H. cbn [Nat.add]. rewrite STEP.
        assert (VRet e (d + 1) g' <> VFuel) as ND by discriminate.
        rewrite (exec_mono _ _ P cprog_of j (j + k) nest m C' cap' _ _ (Nat.le_add_r j k) ND A2).
        rewrite Z.add_simpl_r. eapply exec_mono; [| exact NF | exact H]. lia.
    + intros k KK. destruct k as [| k]; [reflexivity |]. rewrite STEP, A by lia. reflexivity.
Qed.

Theorem vm_call_ok : forall d nest m g, (MAX_DEPTH - d <= Z.of_nat nest)%Z ->
  (forall f, sem_call P prog f d m g = None ->
     forall k, S k <= f -> vm_call P cprog_of k nest d m g = VFuel) /\
  (forall f e g', sem_call P prog f d m g = Some (e, g') ->
     (exists k, vm_call P cprog_of k nest d m g = VRet e d g') /\
     (forall k, vm_call P cprog_of k nest d m g = VFuel \/ vm_call P cprog_of k nest d m g = VRet e d g')).
Proof.
  intros d nest m g N. unfold vm_call.
  assert (forall f, sem_call P prog f d m g =
    if Z.ltb MAX_DEPTH (d + 1) then Some (ERROR_ID, p_deep P g)
    else
    let '(g, pre) := p_enter P m g in
    match pre with
    | Some e => Some (e, g)
    | None =>
        match prog m with
        | None => let '(g, e) := p_native P m g in Some (e, g)
        | Some b =>
            match f with
            | O => None
            | S fuel =>
                match sem P m (sem_call P prog fuel (d + 1)) fuel b (mks g (p_frame P m g) 0%Z []) with
                | None => None
                | Some (sig, s) =>
                    let s := leave P 0 s in
                    let e := match sig with SThrow e => e | _ => 0%Z end in
                    Some (e, p_leave P m e (s_g s))
                end
            end
        end
    end) as U by (destruct f; reflexivity).
  destruct (Z.ltb_spec MAX_DEPTH (d + 1)) as [D | D].
  { split; [intros f H; rewrite U in H; discriminate |]. intros f e g' H. rewrite U in H. injection H as <- <-.
    rewrite Z.add_simpl_r. split; [exists 0; reflexivity | intros k; right; reflexivity]. }
  destruct (p_enter P m g) as [g1 [e |]] eqn:PE.
  { split; [intros f H; rewrite U in H; discriminate |]. intros f e' g' H. rewrite U in H. injection H as <- <-.
    rewrite Z.add_simpl_r. split; [exists 0; reflexivity | intros k; right; reflexivity]. }
  assert (cprog_of m = option_map compile (prog m)) as CP by reflexivity. rewrite CP. clear CP.
  destruct (prog m) as [b |] eqn:PM; cbn [option_map].
  2: { destruct (p_native P m g1) as [g2 e] eqn:PN.
    split; [intros f H; rewrite U in H; discriminate |]. intros f e' g' H. rewrite U in H. injection H as <- <-.
    rewrite Z.add_simpl_r. split; [exists 0; reflexivity | intros k; right; reflexivity]. }
  destruct nest as [| nest]; [lia |].
  destruct (compile b) as [C' cap'] eqn:CO.
  assert (MAX_DEPTH - (d + 1) <= Z.of_nat nest)%Z as N' by lia.
  split.
  - intros f H k KK. destruct f as [| f]; [lia |]. rewrite U in H.
    pose proof (frame_ok f (d + 1) nest m b g1 C' cap' PM CO (call_ok f (d + 1)%Z nest m C' cap' N')) as A.
    destruct (sem P m _ f b _) as [[sig s'] |]; [discriminate |].
    rewrite A by lia. reflexivity.
  - intros f e g' H. rewrite U in H. destruct f as [| f]; [discriminate |].
    pose proof (frame_ok f (d + 1) nest m b g1 C' cap' PM CO (call_ok f (d + 1)%Z nest m C' cap' N')) as A.
    destruct (sem P m _ f b _) as [[sig s'] |]; [| discriminate]. cbv zeta in A, H. injection H as <- <-.
    destruct A as [A1 (j & A2)]. split.
    + exists j. rewrite A2. now rewrite Z.add_simpl_r.
    + intros k. destruct (A1 k) as [X | X]; rewrite X; [now left | right; now rewrite Z.add_simpl_r].
Qed.
End Program.
