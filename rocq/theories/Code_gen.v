(** * The patched code is the code with resolved jumps *)

From Verif Require Import Code_model Code_spec.
Import ListNotations.

(** ** Code with symbolic jump targets *)
Inductive tgt := TAbs (n : nat) | TLast | TNext | TBrk | TRet | TExcE | TExcM.

Definition tgt_eqb (a b : tgt) : bool :=
  match a, b with
  | TLast, TLast | TNext, TNext | TBrk, TBrk | TRet, TRet | TExcE, TExcE | TExcM, TExcM => true
  | _, _ => false
  end.

Definition conc (t : tgt) : nat := match t with TAbs n => n | _ => 0 end.
Definition subst (k : tgt) (n : nat) (l : list (op tgt)) : list (op tgt) :=
  map (map_op (fun t => if tgt_eqb k t then TAbs n else t)) l.

Definition lv (need : bool) (m : nat) : list (op tgt) := if need then [OLeave m] else [].
Definition exc (ine : bool) (line : nat) : op tgt :=
  if ine then OExcEval TExcE line else OExcMethod TExcM line.

Fixpoint decls (n : node) : nat :=
  match n with
  | NDecl _ => 1
  | NSeq a b => decls a + decls b
  | NIf _ c _ _ _ | NSwitch c _ _ => decls c
  | _ => 0
  end.

Fixpoint npush (n : node) : nat :=
  match n with
  | NDecl _ => 1
  | NSeq a b => npush a + npush b
  | NBlock b | NEval b => npush b
  | NIf _ c _ t e => npush c + npush t + npush e
  | NLoop i b n c _ => npush i + npush b + npush n + npush c
  | NSwitch c _ cs => npush c + npush_cases cs
  | _ => 0
  end
with npush_cases (cs : cases) : nat :=
  match cs with
  | CDefault b => npush b
  | CLabel _ cs => npush_cases cs
  | CCase _ b cs => npush b + npush_cases cs
  end.

Fixpoint comp (n : node) (ine : bool) (b m : nat) {struct n} : list (op tgt) :=
  match n with
  | NSkip => []
  | NSeq x y =>
      let cx := comp x ine b m in
      cx ++ comp y ine (b + length cx) (m + decls x)
  | NDo a => [ODo a]
  | NTry a line => [OTry a; exc ine line]
  | NCall f line => [OCall f; exc ine line]
  | NDecl v => [OPush v]
  | NGetErr v => [OGetErr v]
  | NReturn a => [OReturn TRet a]
  | NNext => [OGoto TNext]
  | NLast => [OGoto TLast]
  | NBreak => [OGoto TBrk]
  | NBlock x => comp x ine b m ++ lv (has_decl x) m
  | NIf ns c r t e =>
      let cc := comp c ine b m in
      let m1 := m + decls c in
      let tt := comp t ine (b + length cc + 1) m1 in
      let lt := lv (has_decl t && negb ns) m1 in
      let tl := b + length cc + 1 + length tt + 1 in
      let ee := comp e ine (tl + length lt) m1 in
      let el := tl + length lt + length ee in
      cc ++ [OIfEq (TAbs tl) r] ++ tt ++ [OGoto (TAbs el)] ++ lt ++ ee
         ++ lv (has_decl e && negb ns) m1
  | NLoop i x n c r =>
      let ii := comp i ine b m in
      let m1 := m + decls i in
      let g0 := b + length ii in
      let bb := comp x ine (g0 + 1) m1 in
      let nt := g0 + 1 + length bb in
      let lb := lv (has_decl x) m1 in
      let nn := comp n ine (nt + length lb) m1 in
      let ct := nt + length lb + length nn in
      let cc := comp c ine ct (m1 + decls n) in
      let lt := ct + length cc + 1 in
      subst TLast lt (ii ++ [OGoto (TAbs ct)] ++ subst TNext nt bb ++ lb ++ nn ++ cc ++ [OIfNe (TAbs (g0 + 1)) r])
        ++ lv (has_decl i || has_decl x || has_decl n || has_decl c) m
  | NEval x =>
      let bb := comp x true (b + 2) m in
      [OClearErr; OExcUndef] ++ subst TExcE (b + 2 + length bb) bb ++ lv (has_decl x) m
  | NSwitch c r cs =>
      let cc := comp c ine b m in
      let m1 := m + decls c in
      let st := b + length cc + 1 + count_cases cs in
      let '(kk, tbl, d) := comp_cases cs ine st m1 in
      cc ++ [OSwitch r d tbl] ++ repeat OCaseInfo (count_cases cs)
         ++ subst TBrk (st + length kk) kk ++ lv (has_decl_cases cs) m1
  end
with comp_cases (cs : cases) (ine : bool) (b m : nat) {struct cs} : list (op tgt) * list (Z * nat) * nat :=
  match cs with
  | CDefault x => (comp x ine b m ++ lv (has_decl x) m, [], b)
  | CLabel v cs =>
      let '(kk, tbl, d) := comp_cases cs ine b m in (kk, (v, b) :: tbl, d)
  | CCase v x cs =>
      let xx := comp x ine b m ++ (if ends_break x then [] else [OGoto TBrk]) ++ lv (has_decl x) m in
      let '(kk, tbl, d) := comp_cases cs ine (b + length xx) m in
      (xx ++ kk, (v, b) :: tbl, d)
  end.

(** ** Positions of symbolic targets *)
Definition target {T} (o : op T) : option T :=
  match o with
  | OGoto t | OIfEq t _ | OIfNe t _ | OExcEval t _ | OExcMethod t _ | OReturn t _ => Some t
  | _ => None
  end.
Definition is_k (k : tgt) (o : op tgt) : bool :=
  match target o with Some t => tgt_eqb k t | None => false end.

(** in descending order, as on the stacks *)
Fixpoint rposs (k : tgt) (l : list (op tgt)) (o : nat) : list nat :=
  match l with
  | [] => []
  | x :: l => rposs k l (S o) ++ (if is_k k x then [o] else [])
  end.

Lemma rposs_app : forall k a b o, rposs k (a ++ b) o = rposs k b (o + length a) ++ rposs k a o.
Proof.
  intros k a; induction a; intros b o; cbn [rposs app length].
  - now rewrite app_nil_r, Nat.add_0_r.
  - rewrite IHa, app_assoc. do 3 f_equal. lia.
Qed.

Lemma rposs_bound : forall k a o i, In i (rposs k a o) -> o <= i < o + length a.
Proof.
  intros k a; induction a as [| x a IH]; intros o i H; cbn [rposs length] in *; [easy |].
  apply in_app_or in H. destruct H as [H | H].
  - apply IH in H. lia.
  - destruct (is_k k x); cbn in H; [destruct H; lia | easy].
Qed.

Lemma rposs_In : forall k a o i x, nth_error a i = Some x ->
  (In (o + i) (rposs k a o) <-> is_k k x = true).
Proof.
  intros k a; induction a as [| y a IH]; intros o i x H; [destruct i; discriminate |].
  cbn [rposs]. rewrite in_app_iff. destruct i as [| i]; cbn in H.
  - injection H as ->. rewrite Nat.add_0_r. split.
    + intros [Q | Q]; [apply rposs_bound in Q; lia |]. now destruct (is_k k x).
    + intros ->. right. now left.
  - specialize (IH (S o) i x H). replace (o + S i) with (S o + i) by lia. split.
    + intros [Q | Q]; [now apply IH |]. destruct (is_k k y); cbn in Q; [destruct Q; lia | easy].
    + intros Q. left. now apply IH.
Qed.

Definition none_k (k : tgt) (l : list (op tgt)) : Prop := forallb (fun o => negb (is_k k o)) l = true.
Lemma rposs_none : forall k l o, none_k k l -> rposs k l o = [].
Proof.
  unfold none_k. intros k l; induction l as [| x l IH]; intros o H; [easy |]. cbn in H |- *.
  apply andb_prop in H. destruct H as [H1 H2]. rewrite IH by assumption.
  now destruct (is_k k x).
Qed.
Lemma none_app : forall k a b, none_k k (a ++ b) <-> none_k k a /\ none_k k b.
Proof. unfold none_k. intros. rewrite forallb_app, andb_true_iff. tauto. Qed.

Lemma length_subst : forall k n l, length (subst k n l) = length l.
Proof. intros. unfold subst. now rewrite map_length. Qed.

Lemma is_k_subst : forall k n o j, is_k j (map_op (fun t => if tgt_eqb k t then TAbs n else t) o) = true ->
  is_k j o = true /\ is_k k o = false.
Proof.
  intros k n o j H. destruct o; cbn in *; try discriminate;
    (destruct (tgt_eqb k t) eqn:E; [destruct j; discriminate | split; [assumption | reflexivity]]).
Qed.

Lemma is_k_subst_eq : forall k n o j,
  is_k j (map_op (fun t => if tgt_eqb k t then TAbs n else t) o) = is_k j o && negb (is_k k o).
Proof.
  intros k n o j. destruct o; cbn; try reflexivity;
    (destruct (tgt_eqb k t) eqn:E; [destruct j; cbn; now rewrite ?andb_false_r | now rewrite andb_true_r]).
Qed.

Lemma rposs_subst_other : forall k j n l o, tgt_eqb k j = false -> rposs j (subst k n l) o = rposs j l o.
Proof.
  intros k j n l. induction l as [| x l IH]; intros o E; cbn; [easy |].
  rewrite IH by assumption. rewrite is_k_subst_eq.
  assert (is_k j x && negb (is_k k x) = is_k j x) as ->; [| reflexivity].
  unfold is_k. destruct (target x) as [t |]; [| reflexivity].
  destruct j, t, k; cbn in *; congruence.
Qed.

Lemma rposs_subst_same : forall k n l o, rposs k (subst k n l) o = [].
Proof.
  intros k n l o. apply rposs_none. unfold none_k, subst. rewrite forallb_forall.
  intros x I. apply in_map_iff in I. destruct I as (y & <- & I).
  rewrite is_k_subst_eq. now destruct (is_k k y).
Qed.

(** ** Patching *)
Lemma length_upd : forall {A} (l : list A) i f, length (upd l i f) = length l.
Proof. intros A l; induction l; intros [| i] f; cbn; auto. Qed.

Lemma nth_upd : forall {A} (l : list A) i f j,
  nth_error (upd l i f) j = if Nat.eqb i j then option_map f (nth_error l j) else nth_error l j.
Proof.
  intros A l; induction l; intros [| i] f [| j]; cbn; try reflexivity; try apply IHl.
  now destruct (Nat.eqb i j).
Qed.

Lemma upd_mid : forall {A} (a b : list A) x f i, i = length a -> upd (a ++ x :: b) i f = a ++ f x :: b.
Proof. intros A a; induction a; intros b x f i ->; cbn; [easy | f_equal; auto]. Qed.

Definition patch_all (t : nat) (c : list (op nat)) (l : list nat) : list (op nat) :=
  fold_left (patch1 t) l c.

Lemma nth_patch_all : forall l t c j,
  nth_error (patch_all t c l) j =
    if existsb (Nat.eqb j) l then option_map (set_target t) (nth_error c j) else nth_error c j.
Proof.
  intros l; induction l as [| i l IH]; intros t c j; [easy |].
  change (patch_all t c (i :: l)) with (patch_all t (patch1 t c i) l). cbn [existsb].
  rewrite IH. unfold patch1. rewrite nth_upd. rewrite (Nat.eqb_sym j i).
  destruct (Nat.eqb i j); cbn [orb]; [| reflexivity].
  destruct (existsb (Nat.eqb j) l); [| reflexivity].
  destruct (nth_error c j) as [o |]; cbn; [| reflexivity]. now destruct o.
Qed.

Lemma patch_pop_all : forall n l1 l2 t c, n = length l1 ->
  patch_pop n (l1 ++ l2) t c = (l2, patch_all t c l1).
Proof.
  intros n l1; revert n; induction l1 as [| i l1 IH]; intros n l2 t c ->; [now destruct l2 |].
  cbn [length patch_pop app]. rewrite IH by reflexivity. reflexivity.
Qed.

Lemma nth_error_ext : forall {A} (a b : list A), (forall i, nth_error a i = nth_error b i) -> a = b.
Proof.
  intros A a; induction a as [| x a IH]; intros [| y b] H.
  - reflexivity.
  - specialize (H 0); discriminate.
  - specialize (H 0); discriminate.
  - f_equal; [specialize (H 0); now injection H | apply IH; intros i; exact (H (S i))].
Qed.

Lemma patch_subst : forall k t pre s o, o = length pre ->
  tgt_eqb k (TAbs 0) = false ->
  patch_all t (pre ++ map (map_op conc) s) (rposs k s o) = pre ++ map (map_op conc) (subst k t s).
Proof.
  intros k t pre s o -> _. apply nth_error_ext. intros j.
  rewrite nth_patch_all.
  destruct (Nat.lt_ge_cases j (length pre)) as [L | L].
  - rewrite !nth_error_app1 by assumption.
    destruct (existsb _ _) eqn:E; [| reflexivity].
    apply existsb_exists in E. destruct E as (i & I & Q). apply Nat.eqb_eq in Q. subst i.
    apply rposs_bound in I. lia.
  - rewrite !nth_error_app2 by assumption. unfold subst. rewrite !nth_error_map.
    destruct (nth_error s (j - length pre)) as [x |] eqn:E; cbn [option_map]; [| now destruct (existsb _ _)].
    pose proof (rposs_In k s (length pre) _ _ E) as Q.
    replace (length pre + (j - length pre)) with j in Q by lia.
    destruct (existsb _ _) eqn:X.
    + apply existsb_exists in X. destruct X as (i & I & X). apply Nat.eqb_eq in X. subst i.
      apply Q in I. unfold is_k in I. f_equal.
      destruct x; cbn in *; try discriminate; now rewrite I.
    + f_equal.
      assert (is_k k x = false) as F.
      { destruct (is_k k x) eqn:F; [| reflexivity]. exfalso.
        assert (existsb (Nat.eqb j) (rposs k s (length pre)) = true); [| congruence].
        apply existsb_exists. exists j. rewrite Nat.eqb_refl. now split; [apply Q |]. }
      unfold is_k in F. destruct x; cbn in *; try reflexivity; now rewrite F.
Qed.

(** ** The state of the builder after some code *)
Definition ext (g : gs) (s : list (op tgt)) (dm dt : nat) : gs :=
  let o := here g in
  mkgs (code g ++ map (map_op conc) s) (ifeq g) (ifend g) (loopgoto g)
    (lastb g) (rposs TLast s o ++ lasts g) (nextb g) (rposs TNext s o ++ nexts g)
    (brkb g) (rposs TBrk s o ++ brks g) (evals g) (rposs TExcE s o ++ exce g)
    (rposs TExcM s o ++ excm g) (rposs TRet s o ++ rets g) (mortal g + dm) (total g + dt).

Lemma here_ext : forall g s dm dt, here (ext g s dm dt) = here g + length s.
Proof. intros. unfold here, ext. cbn [code]. now rewrite app_length, map_length. Qed.

Lemma ext_nil : forall g, ext g [] 0 0 = g.
Proof. intros []. unfold ext. cbn. rewrite app_nil_r. f_equal; lia. Qed.

Lemma ext_ext : forall g s1 a1 b1 s2 a2 b2,
  ext (ext g s1 a1 b1) s2 a2 b2 = ext g (s1 ++ s2) (a1 + a2) (b1 + b2).
Proof.
  intros. unfold ext at 1. rewrite here_ext. unfold ext.
  cbn [code ifeq ifend loopgoto lastb lasts nextb nexts brkb brks evals exce excm rets mortal total].
  rewrite !rposs_app, map_app, !app_assoc. f_equal; lia.
Qed.

Lemma emit_ext : forall g o, (forall k, is_k k o = false) -> emit (map_op conc o) g = ext g [o] 0 0.
Proof.
  intros [] o H. unfold emit, ext, w_code. cbn. rewrite !H. cbn. f_equal; lia.
Qed.

Lemma emit_exc_ext : forall g line ine, ine = match evals g with [] => false | _ => true end ->
  emit_exc line g = ext g [exc ine line] 0 0.
Proof.
  intros g line ine ->. unfold emit_exc. destruct g. cbn.
  destruct evals; cbn; unfold ext, w_exce, w_excm, emit, w_code; cbn; f_equal; lia.
Qed.

Lemma end_block_ext : forall need g s m0 d0 dm dt, m0 = mortal g + d0 -> d0 <= dm ->
  end_block need m0 (ext g s dm dt) = ext g (s ++ lv need m0) d0 dt.
Proof.
  intros need g s m0 d0 dm dt -> L. unfold end_block.
  assert (forall x, w_mortal (Nat.min (mortal g + d0) (mortal (ext g x dm dt))) (total (ext g x dm dt)) (ext g x dm dt)
                    = ext g x d0 dt) as E.
  { intros x. unfold w_mortal, ext. cbn. f_equal. lia. }
  destruct need; cbn [lv].
  - change (@OLeave nat (mortal g + d0)) with (map_op conc (OLeave (mortal g + d0))).
    rewrite emit_ext by reflexivity. rewrite ext_ext. rewrite !Nat.add_0_r. apply E.
  - rewrite app_nil_r. apply E.
Qed.

(** changing the other stacks before or after *)
Lemma ext_w_ifeq : forall x g s a b, ext (w_ifeq x g) s a b = w_ifeq x (ext g s a b). Proof. reflexivity. Qed.
Lemma ext_w_ifend : forall x g s a b, ext (w_ifend x g) s a b = w_ifend x (ext g s a b). Proof. reflexivity. Qed.
Lemma ext_w_loopgoto : forall x g s a b, ext (w_loopgoto x g) s a b = w_loopgoto x (ext g s a b). Proof. reflexivity. Qed.
Lemma ext_w_evals : forall x g s a b, ext (w_evals x g) s a b = w_evals x (ext g s a b). Proof. reflexivity. Qed.
Definition w_lastb b g := w_last b (lasts g) g.
Definition w_nextb b g := w_next b (nexts g) g.
Definition w_brkb b g := w_brk b (brks g) g.
Lemma ext_w_lastb : forall x g s a b, ext (w_lastb x g) s a b = w_lastb x (ext g s a b). Proof. reflexivity. Qed.
Lemma ext_w_nextb : forall x g s a b, ext (w_nextb x g) s a b = w_nextb x (ext g s a b). Proof. reflexivity. Qed.
Lemma ext_w_brkb : forall x g s a b, ext (w_brkb x g) s a b = w_brkb x (ext g s a b). Proof. reflexivity. Qed.

Definition retarget (n : nat) (o : op tgt) : op tgt := map_op (fun _ => TAbs n) o.

Lemma rposs_retarget : forall k s1 o s2 n p, (forall k, is_k k o = false) ->
  rposs k (s1 ++ retarget n o :: s2) p = rposs k (s1 ++ o :: s2) p.
Proof.
  intros. rewrite !rposs_app. cbn [rposs]. rewrite H.
  assert (is_k k (retarget n o) = false) as ->; [| reflexivity].
  destruct o; cbn; try reflexivity; destruct k; reflexivity.
Qed.

Lemma patch1_ext : forall g s1 o s2 a b t i, (forall k, is_k k o = false) -> i = here g + length s1 ->
  w_code (patch1 t (code (ext g (s1 ++ o :: s2) a b)) i) (ext g (s1 ++ o :: s2) a b)
  = ext g (s1 ++ retarget t o :: s2) a b.
Proof.
  intros g s1 o s2 a b t i H ->. unfold w_code, ext.
  cbn [code ifeq ifend loopgoto lastb lasts nextb nexts brkb brks evals exce excm rets mortal total].
  rewrite !(rposs_retarget _ _ _ _ _ _ H).
  f_equal. unfold patch1. rewrite !map_app. cbn [map]. rewrite !app_assoc.
  rewrite upd_mid by (unfold here; now rewrite app_length, map_length).
  f_equal. f_equal. unfold set_target, retarget. now destruct o.
Qed.

Lemma ext_subst : forall k g s t a b, tgt_eqb k (TAbs 0) = false ->
  ext g (subst k t s) a b =
  mkgs (code g ++ map (map_op conc) (subst k t s)) (ifeq g) (ifend g) (loopgoto g)
    (lastb g) ((if tgt_eqb k TLast then [] else rposs TLast s (here g)) ++ lasts g)
    (nextb g) ((if tgt_eqb k TNext then [] else rposs TNext s (here g)) ++ nexts g)
    (brkb g) ((if tgt_eqb k TBrk then [] else rposs TBrk s (here g)) ++ brks g)
    (evals g) ((if tgt_eqb k TExcE then [] else rposs TExcE s (here g)) ++ exce g)
    ((if tgt_eqb k TExcM then [] else rposs TExcM s (here g)) ++ excm g)
    ((if tgt_eqb k TRet then [] else rposs TRet s (here g)) ++ rets g) (mortal g + a) (total g + b).
Proof.
  intros k g s t a b H. unfold ext.
  destruct k; cbn in H; try discriminate; cbn [tgt_eqb];
    rewrite ?rposs_subst_same; rewrite !rposs_subst_other by reflexivity; reflexivity.
Qed.

Lemma pop_len : forall (a b : list nat), length (a ++ b) - length b = length a.
Proof. intros. rewrite app_length. lia. Qed.

Ltac fld := cbn [code ifeq ifend loopgoto lastb lasts nextb nexts brkb brks evals exce excm rets mortal total].

Lemma pop_last : forall g s a b t,
  (let g1 := ext g s a b in
   let '(stk, c) := patch_pop (length (lasts g1) - length (lasts g)) (lasts g1) t (code g1) in
   w_code c (w_last (lastb g) stk g1)) = ext g (subst TLast t s) a b.
Proof.
  intros. cbv zeta. rewrite ext_subst by reflexivity. unfold ext. fld.
  rewrite pop_len, patch_pop_all by reflexivity.
  rewrite patch_subst by reflexivity. reflexivity.
Qed.
Lemma pop_next : forall g s a b t,
  (let g1 := ext g s a b in
   let '(stk, c) := patch_pop (length (nexts g1) - length (nexts g)) (nexts g1) t (code g1) in
   w_code c (w_next (nextb g) stk g1)) = ext g (subst TNext t s) a b.
Proof.
  intros. cbv zeta. rewrite ext_subst by reflexivity. unfold ext. fld.
  rewrite pop_len, patch_pop_all by reflexivity.
  rewrite patch_subst by reflexivity. reflexivity.
Qed.
Lemma pop_brk : forall g s a b t,
  (let g1 := ext g s a b in
   let '(stk, c) := patch_pop (length (brks g1) - length (brks g)) (brks g1) t (code g1) in
   w_code c (w_brk (brkb g) stk g1)) = ext g (subst TBrk t s) a b.
Proof.
  intros. cbv zeta. rewrite ext_subst by reflexivity. unfold ext. fld.
  rewrite pop_len, patch_pop_all by reflexivity.
  rewrite patch_subst by reflexivity. reflexivity.
Qed.
Lemma pop_exce : forall g s a b t, exce g = [] ->
  (let g1 := ext g s a b in
   let '(stk, c) := patch_pop (length (exce g1)) (exce g1) t (code g1) in
   w_code c (w_exce stk g1)) = ext g (subst TExcE t s) a b.
Proof.
  intros g s a b t H. cbv zeta. rewrite ext_subst by reflexivity. unfold ext. fld. rewrite H.
  rewrite patch_pop_all by now rewrite app_nil_r.
  rewrite patch_subst by reflexivity. reflexivity.
Qed.

(** ** The builder produces [comp] *)
Scheme node_mut := Induction for node Sort Prop
  with cases_mut := Induction for cases Sort Prop.
Combined Scheme node_cases_ind from node_mut, cases_mut.

Lemma none_subst : forall k j n l, none_k k l -> none_k k (subst j n l).
Proof.
  unfold none_k, subst. intros k j n l H. rewrite forallb_forall in *. intros x I.
  apply in_map_iff in I. destruct I as (y & <- & I). rewrite is_k_subst_eq.
  specialize (H y I). now destruct (is_k k y).
Qed.
Lemma none_subst_same : forall k n l, none_k k (subst k n l).
Proof.
  unfold none_k, subst. intros. rewrite forallb_forall. intros x I.
  apply in_map_iff in I. destruct I as (y & <- & I). rewrite is_k_subst_eq.
  now destruct (is_k k y).
Qed.
Lemma none_lv : forall k b m, none_k k (lv b m).
Proof. intros k [] m; reflexivity. Qed.
Lemma none_cons : forall k o l, none_k k (o :: l) <-> is_k k o = false /\ none_k k l.
Proof. intros. unfold none_k. cbn. rewrite andb_true_iff, negb_true_iff. tauto. Qed.
Lemma none_nil : forall k, none_k k [].
Proof. reflexivity. Qed.
Lemma none_repeat : forall k n, none_k k (repeat OCaseInfo n).
Proof. intros k n. induction n; [reflexivity | now apply none_cons]. Qed.

Ltac nones := match goal with
  | |- none_k ?k (subst ?k _ _) => apply none_subst_same
  | |- none_k _ (subst _ _ _) => apply none_subst; nones
  | |- none_k _ (_ ++ _) => apply none_app; split; nones
  | |- none_k _ (_ :: _) => apply none_cons; split; [try reflexivity | nones]
  | |- none_k _ [] => reflexivity
  | |- none_k _ (lv _ _) => apply none_lv
  | |- none_k _ (repeat _ _) => apply none_repeat
  | _ => auto
  end.

Lemma orb_and_false : forall i a b, i && (a || b) = false -> i && a = false /\ i && b = false.
Proof. intros [] [] []; cbn; auto. Qed.

Lemma no_exce_all :
  (forall n ine b m, ine && can_fail n = false -> none_k TExcE (comp n ine b m)) /\
  (forall cs ine b m, ine && can_fail_cases cs = false -> none_k TExcE (fst (fst (comp_cases cs ine b m)))).
Proof.
  apply node_cases_ind; intros; cbn [comp comp_cases can_fail can_fail_cases] in *; cbv zeta;
    repeat match goal with
    | H : _ && (_ || _) = false |- _ => apply orb_and_false in H; destruct H
    end; try solve [cbn [fst]; nones].
  - destruct ine; [discriminate | nones].
  - destruct ine; [discriminate | nones].
  - match goal with |- context[comp_cases ?cs ?i ?b ?m] =>
      specialize (H0 i b m ltac:(assumption)); destruct (comp_cases cs i b m) as [[kk tbl] d]; cbn in H0 end.
    nones.
  - match goal with |- context[comp_cases ?cs ?i ?b ?m] =>
      specialize (H i b m ltac:(assumption)); destruct (comp_cases cs i b m) as [[kk tbl] d]; cbn in H end.
    assumption.
  - match goal with |- context[comp_cases ?cs ?i ?b ?m] =>
      specialize (H0 i b m ltac:(assumption)); destruct (comp_cases cs i b m) as [[kk tbl] d]; cbn in H0 end.
    cbn [fst]. nones. destruct (ends_break _); reflexivity.
Qed.
Definition no_exce := proj1 no_exce_all.
Definition no_exce_cases := proj2 no_exce_all.

(** The steps at the boundaries of the blocks. *)
Lemma tabs_k : forall k n, tgt_eqb k (TAbs n) = false.
Proof. intros k n; destruct k; reflexivity. Qed.

Lemma cond_if_ext : forall r g s a b,
  cond_if r (ext g s a b) = w_ifeq (here g + length s :: ifeq g) (ext g (s ++ [OIfEq (TAbs 0) r]) a b).
Proof.
  intros. unfold cond_if. rewrite here_ext.
  change (@OIfEq nat 0 r) with (map_op conc (OIfEq (TAbs 0) r)).
  rewrite emit_ext by (intros k; destruct k; reflexivity). now rewrite ext_ext, !Nat.add_0_r.
Qed.

Lemma end_true_ext : forall need m0 g s1 o s2 d0 a b x, m0 = mortal g + d0 -> d0 <= a -> (forall k, is_k k o = false) ->
  end_true need m0 (ext (w_ifeq (here g + length s1 :: x) g) (s1 ++ o :: s2) a b)
  = ext (w_ifend (here g + length (s1 ++ o :: s2) :: ifend g) (w_ifeq x g))
      (s1 ++ retarget (here g + length (s1 ++ o :: s2) + 1) o :: s2 ++ OGoto (TAbs 0) :: lv need m0) d0 b.
Proof.
  intros need m0 g s1 o s2 d0 a b x -> L H. unfold end_true.
  set (g1 := w_ifeq _ g). change (mortal g) with (mortal g1).
  rewrite here_ext. change (@OGoto nat 0) with (map_op conc (OGoto (TAbs 0))).
  rewrite emit_ext by (intros k; destruct k; reflexivity). rewrite ext_ext, !Nat.add_0_r.
  set (s := s1 ++ o :: s2).
  set (g2 := w_ifend _ _). cbv zeta.
  assert (here g2 = here g + length s + 1) as ->.
  { subst g2. change (here (ext g1 (s ++ [OGoto (TAbs 0)]) a b) = here g + length s + 1).
    rewrite here_ext, app_length. change (here g1) with (here g). cbn [length]. lia. }
  subst g2.
  change (top (ifeq _)) with (here g + length s1).
  change (tl (ifeq _)) with x.
  rewrite <- ext_w_ifend. subst s. rewrite <- app_assoc.
  change ((o :: s2) ++ [OGoto (TAbs 0)]) with (o :: (s2 ++ [OGoto (TAbs 0)])).
  rewrite patch1_ext by (auto; reflexivity).
  rewrite <- ext_w_ifeq. rewrite end_block_ext with (d0 := d0) by (auto; reflexivity).
  rewrite <- !app_assoc, <- app_comm_cons, <- app_assoc. reflexivity.
Qed.

Lemma end_else_ext : forall need m0 g s1 o s2 d0 a b x, m0 = mortal g + d0 -> d0 <= a -> (forall k, is_k k o = false) ->
  end_else need m0 (ext (w_ifend (here g + length s1 :: x) g) (s1 ++ o :: s2) a b)
  = ext (w_ifend x g)
      (s1 ++ retarget (here g + length (s1 ++ o :: s2)) o :: s2 ++ lv need m0) d0 b.
Proof.
  intros need m0 g s1 o s2 d0 a b x -> L H. unfold end_else.
  set (g1 := w_ifend _ g). change (mortal g) with (mortal g1).
  rewrite here_ext. cbv zeta.
  change (top (ifend _)) with (here g + length s1).
  change (tl (ifend _)) with x.
  rewrite patch1_ext by (auto; reflexivity).
  rewrite <- ext_w_ifend. rewrite end_block_ext with (d0 := d0) by (auto; reflexivity).
  rewrite <- !app_assoc, <- app_comm_cons. reflexivity.
Qed.

Lemma start_body_ext : forall g s a b,
  start_body (ext g s a b)
  = ext (w_nextb (length (rposs TNext s (here g) ++ nexts g) :: nextb g)
          (w_loopgoto (here g + length s :: loopgoto g) g)) (s ++ [OGoto (TAbs 0)]) a b.
Proof.
  intros. unfold start_body. cbv zeta.
  change (w_next (length (nexts (ext g s a b)) :: nextb (ext g s a b)) (nexts (ext g s a b)) (ext g s a b))
    with (ext (w_nextb (length (rposs TNext s (here g) ++ nexts g) :: nextb g) g) s a b).
  rewrite here_ext. change (@OGoto nat 0) with (map_op conc (OGoto (TAbs 0))).
  rewrite emit_ext by (intros k; destruct k; reflexivity). rewrite ext_ext, !Nat.add_0_r.
  reflexivity.
Qed.

Lemma end_body_ext : forall need m0 g s d0 a b x, m0 = mortal g + d0 -> d0 <= a ->
  end_body need m0 (ext (w_nextb (length (nexts g) :: x) g) s a b)
  = ext (w_nextb x g) (subst TNext (here g + length s) s ++ lv need m0) d0 b.
Proof.
  intros need m0 g s d0 a b x -> L. unfold end_body. rewrite here_ext.
  change (top (nextb _)) with (length (nexts g)).
  change (tl (nextb _)) with x.
  set (t := here _ + _).
  pose proof (pop_next (w_nextb x g) s a b t) as Q. cbv zeta in Q.
  change (length (nexts (ext (w_nextb x g) s a b)) - length (nexts (w_nextb x g)))
    with (length (nexts (ext (w_nextb (length (nexts g) :: x) g) s a b)) - length (nexts g)) in Q.
  change (nexts (ext (w_nextb x g) s a b)) with (nexts (ext (w_nextb (length (nexts g) :: x) g) s a b)) in Q.
  change (code (ext (w_nextb x g) s a b)) with (code (ext (w_nextb (length (nexts g) :: x) g) s a b)) in Q.
  destruct (patch_pop _ _ _ _) as [stk c].
  change (end_block need (mortal g + d0) (w_code c (w_next (nextb (w_nextb x g)) stk (ext (w_nextb x g) s a b)))
    = ext (w_nextb x g) (subst TNext t s ++ lv need (mortal g + d0)) d0 b).
  rewrite Q. now apply end_block_ext.
Qed.

Lemma end_inc_ext : forall g s1 o s2 a b x, (forall k, is_k k o = false) ->
  end_inc (ext (w_loopgoto (here g + length s1 :: x) g) (s1 ++ o :: s2) a b)
  = ext (w_loopgoto (here g + length s1 :: x) g)
      (s1 ++ retarget (here g + length (s1 ++ o :: s2)) o :: s2) a b.
Proof.
  intros. unfold end_inc. rewrite here_ext.
  change (top (loopgoto _)) with (here g + length s1).
  rewrite patch1_ext by (auto; reflexivity). reflexivity.
Qed.

Lemma cond_loop_ext : forall r g s a b x j,
  cond_loop r (ext (w_loopgoto (j :: x) g) s a b)
  = ext (w_loopgoto x g) (s ++ [OIfNe (TAbs (j + 1)) r]) a b.
Proof.
  intros. unfold cond_loop. cbv zeta. change (top (loopgoto _)) with j. change (tl (loopgoto _)) with x.
  change (@OIfNe nat (j + 1) r) with (map_op conc (OIfNe (TAbs (j + 1)) r)).
  rewrite <- ext_w_loopgoto. rewrite emit_ext by (intros k; destruct k; reflexivity).
  rewrite ext_ext, !Nat.add_0_r. reflexivity.
Qed.

Lemma end_loop_ext : forall need m0 g s d0 a b x, m0 = mortal g + d0 -> d0 <= a ->
  end_loop need m0 (ext (w_lastb (length (lasts g) :: x) g) s a b)
  = ext (w_lastb x g) (subst TLast (here g + length s) s ++ lv need m0) d0 b.
Proof.
  intros need m0 g s d0 a b x -> L. unfold end_loop. rewrite here_ext.
  change (top (lastb _)) with (length (lasts g)).
  change (tl (lastb _)) with x.
  set (t := here _ + _).
  pose proof (pop_last (w_lastb x g) s a b t) as Q. cbv zeta in Q.
  change (length (lasts (ext (w_lastb x g) s a b)) - length (lasts (w_lastb x g)))
    with (length (lasts (ext (w_lastb (length (lasts g) :: x) g) s a b)) - length (lasts g)) in Q.
  change (lasts (ext (w_lastb x g) s a b)) with (lasts (ext (w_lastb (length (lasts g) :: x) g) s a b)) in Q.
  change (code (ext (w_lastb x g) s a b)) with (code (ext (w_lastb (length (lasts g) :: x) g) s a b)) in Q.
  destruct (patch_pop _ _ _ _) as [stk c].
  change (end_block need (mortal g + d0) (w_code c (w_last (lastb (w_lastb x g)) stk (ext (w_lastb x g) s a b)))
    = ext (w_lastb x g) (subst TLast t s ++ lv need (mortal g + d0)) d0 b).
  rewrite Q. now apply end_block_ext.
Qed.

Lemma end_switch_ext : forall need m0 g s d0 a b x, m0 = mortal g + d0 -> d0 <= a ->
  end_switch need m0 (ext (w_brkb (length (brks g) :: x) g) s a b)
  = ext (w_brkb x g) (subst TBrk (here g + length s) s ++ lv need m0) d0 b.
Proof.
  intros need m0 g s d0 a b x -> L. unfold end_switch. rewrite here_ext.
  change (top (brkb _)) with (length (brks g)).
  change (tl (brkb _)) with x.
  set (t := here _ + _).
  pose proof (pop_brk (w_brkb x g) s a b t) as Q. cbv zeta in Q.
  change (length (brks (ext (w_brkb x g) s a b)) - length (brks (w_brkb x g)))
    with (length (brks (ext (w_brkb (length (brks g) :: x) g) s a b)) - length (brks g)) in Q.
  change (brks (ext (w_brkb x g) s a b)) with (brks (ext (w_brkb (length (brks g) :: x) g) s a b)) in Q.
  change (code (ext (w_brkb x g) s a b)) with (code (ext (w_brkb (length (brks g) :: x) g) s a b)) in Q.
  destruct (patch_pop _ _ _ _) as [stk c].
  change (end_block need (mortal g + d0) (w_code c (w_brk (brkb (w_brkb x g)) stk (ext (w_brkb x g) s a b)))
    = ext (w_brkb x g) (subst TBrk t s ++ lv need (mortal g + d0)) d0 b).
  rewrite Q. now apply end_block_ext.
Qed.

Lemma start_eval_ext : forall g,
  start_eval g = ext (w_evals (here g :: evals g) g) [OClearErr; OExcUndef] 0 0.
Proof.
  intros. unfold start_eval.
  change (@OClearErr nat) with (map_op conc OClearErr).
  change (@OExcUndef nat) with (map_op conc OExcUndef).
  rewrite !emit_ext by reflexivity. now rewrite ext_ext.
Qed.

Lemma end_eval_ext : forall need m0 g s d0 a b x y, m0 = mortal g + d0 -> d0 <= a -> exce g = [] ->
  end_eval need m0 (ext (w_evals (y :: x) g) s a b)
  = ext (w_evals x g) (subst TExcE (here g + length s) s ++ lv need m0) d0 b.
Proof.
  intros need m0 g s d0 a b x y -> L E. unfold end_eval. rewrite here_ext.
  set (t := here _ + _).
  pose proof (pop_exce (w_evals (y :: x) g) s a b t E) as Q. cbv zeta in Q.
  destruct (patch_pop _ _ _ _) as [stk c].
  change (tl (evals _)) with x. rewrite Q. rewrite <- ext_w_evals.
  rewrite end_block_ext with (d0 := d0) by (auto; reflexivity). reflexivity.
Qed.

Lemma map_op_repeat : forall n, map (map_op conc) (repeat OCaseInfo n) = repeat OCaseInfo n.
Proof. intros n. induction n; cbn; congruence. Qed.

Lemma start_switch_ext : forall r n g s a b,
  start_switch r n (ext g s a b)
  = w_brkb (length (rposs TBrk s (here g) ++ brks g) :: brkb g)
      (ext g (s ++ OSwitch r 0 [] :: repeat OCaseInfo n) a b).
Proof.
  intros. unfold start_switch. cbv zeta.
  change (@OSwitch nat r 0 []) with (map_op conc (OSwitch r 0 [])).
  rewrite emit_ext by reflexivity. rewrite ext_ext, !Nat.add_0_r.
  assert (forall g' s', (forall k, none_k k s') -> w_code (code g' ++ map (map_op conc) s') g' = ext g' s' 0 0) as E.
  { intros g' s' N. unfold ext. rewrite !rposs_none by apply N. destruct g'. unfold w_code. cbn. f_equal; lia. }
  rewrite <- map_op_repeat. rewrite E by (intros; apply none_repeat).
  rewrite ext_ext, !Nat.add_0_r, <- app_assoc. unfold w_brkb. f_equal.
  f_equal. f_equal. cbn [app]. unfold ext. fld. rewrite rposs_app.
  rewrite (rposs_none TBrk (OSwitch r 0 [] :: _)); [reflexivity |].
  apply none_cons. split; [reflexivity | apply none_repeat].
Qed.

Lemma gen_break_ext : forall g s a b, gen_break (ext g s a b) = ext g (s ++ [OGoto TBrk]) a b.
Proof.
  intros. unfold gen_break, ext, emit, w_code, w_brk. fld.
  rewrite !rposs_app. cbn. rewrite map_app, <- !app_assoc. cbn. f_equal.
  f_equal. unfold here. cbn. now rewrite app_length, map_length.
Qed.

Definition ineval (g : gs) : bool := match evals g with [] => false | _ => true end.

Lemma andb3 : forall a b, a && b = true -> a = true /\ b = true.
Proof. intros [] []; cbn; auto. Qed.
Lemma negb_true : forall b, negb b = true -> b = false.
Proof. intros []; cbn; auto. Qed.
Lemma and3_false : forall i c h, negb (i && c && h) = true -> h = true -> i && c = false.
Proof. intros [] [] []; cbn; auto; discriminate. Qed.

Lemma gen_comp_all :
  (forall n g, eval_ok (ineval g) n = true -> (has_eval n = true -> exce g = []) ->
     gen n g = ext g (comp n (ineval g) (here g) (mortal g)) (decls n) (npush n)) /\
  (forall cs g, eval_ok_cases (ineval g) cs = true -> (has_eval_cases cs = true -> exce g = []) ->
     gen_cases cs g =
       (ext g (fst (fst (comp_cases cs (ineval g) (here g) (mortal g)))) 0 (npush_cases cs),
        snd (fst (comp_cases cs (ineval g) (here g) (mortal g))),
        snd (comp_cases cs (ineval g) (here g) (mortal g)))).
Proof.
  apply node_cases_ind.
  - (* NSkip *) intros g _ _. cbn. now rewrite ext_nil.
  - (* NSeq *) intros a IHa b IHb g OK HE. cbn [eval_ok has_eval gen comp decls npush] in *. cbv zeta.
    repeat (apply andb3 in OK; destruct OK as [OK ?]).
    rewrite IHa by (auto; intros; apply HE; now rewrite H1).
    rewrite IHb.
    + rewrite ext_ext, here_ext. reflexivity.
    + assumption.
    + intros X. unfold ext. fld.
      rewrite rposs_none by (apply no_exce; eapply and3_false; eauto). cbn. apply HE. now rewrite X, orb_true_r.
  - (* NDo *) intros a g _ _. cbn [gen comp decls npush].
    change (ODo a) with (map_op conc (ODo a)) at 1. apply emit_ext. reflexivity.
  - (* NTry *) intros a line g _ _. cbn [gen comp decls npush].
    change (@OTry nat a) with (map_op conc (OTry a)).
    rewrite emit_ext by reflexivity. rewrite emit_exc_ext with (ine := ineval g) by reflexivity.
    now rewrite ext_ext.
  - (* NCall *) intros m line g _ _. cbn [gen comp decls npush].
    change (@OCall nat m) with (map_op conc (OCall m)).
    rewrite emit_ext by reflexivity. rewrite emit_exc_ext with (ine := ineval g) by reflexivity.
    now rewrite ext_ext.
  - (* NDecl *) intros v g _ _. cbn [gen comp decls npush].
    unfold ext, emit, w_code, w_mortal. fld. cbn. f_equal; lia.
  - (* NGetErr *) intros v g _ _. cbn [gen comp decls npush].
    change (@OGetErr nat v) with (map_op conc (OGetErr v)). now apply emit_ext.
  - (* NReturn *) intros a g _ _. cbn [gen comp decls npush].
    unfold ext, emit, w_code, w_rets. fld. cbn. f_equal; lia.
  - (* NNext *) intros g _ _. cbn [gen comp decls npush].
    unfold ext, emit, w_code, w_next. fld. cbn. f_equal; lia.
  - (* NLast *) intros g _ _. cbn [gen comp decls npush].
    unfold ext, emit, w_code, w_last. fld. cbn. f_equal; lia.
  - (* NBreak *) intros g _ _. cbn [gen comp decls npush].
    rewrite <- (ext_nil g) at 1. rewrite gen_break_ext. reflexivity.
  - (* NBlock *) intros b IH g OK HE. cbn [eval_ok has_eval gen comp decls npush] in *. cbv zeta.
    rewrite IH by assumption. rewrite end_block_ext with (d0 := 0) by lia. reflexivity.
  - (* NIf *) intros ns c IHc r t IHt e IHe g OK HE. cbn [eval_ok has_eval gen comp decls npush] in *.
    repeat (apply andb3 in OK; destruct OK as [OK ?]).
    rewrite IHc by (auto; intros X; apply HE; now rewrite X).
    set (cc := comp c (ineval g) (here g) (mortal g)).
    rewrite cond_if_ext, <- ext_w_ifeq.
    set (g1 := ext _ _ _ _).
    assert (exce g1 = rposs TExcE cc (here g) ++ exce g) as E1.
    { unfold g1, ext. fld. rewrite rposs_app. reflexivity. }
    assert (here g1 = here g + length cc + 1) as L1.
    { unfold g1. rewrite here_ext, app_length. cbn [length]. unfold here; cbn [code w_ifeq]; lia. }
    cbv zeta.
    rewrite (IHt g1).
    2: assumption.
    2: { intros X. rewrite E1, rposs_none.
         - apply HE. now rewrite X, orb_true_r.
         - apply no_exce. eapply and3_false; [eassumption |]. now rewrite X. }
    change (ineval g1) with (ineval g). change (mortal g1) with (mortal g + decls c).
    rewrite L1. set (m1 := mortal g + decls c).
    set (tt := comp t (ineval g) _ m1).
    set (lt := lv (has_decl t && negb ns) m1).
    set (tl := here g + length cc + 1 + length tt + 1).
    assert (end_true (has_decl t && negb ns) m1 (ext g1 tt (decls t) (npush t))
      = ext (w_ifend (here g + length (cc ++ OIfEq (TAbs tl) r :: tt) :: ifend g) g)
          ((cc ++ OIfEq (TAbs tl) r :: tt) ++ OGoto (TAbs 0) :: lt) (decls c) (npush c + npush t)) as E2.
    { unfold g1. rewrite ext_ext, <- app_assoc. cbn [app].
      rewrite end_true_ext with (d0 := decls c) by (auto with arith; intros []; reflexivity).
      rewrite <- app_assoc. cbn [app]. unfold retarget. cbn [map_op].
      replace (here g + length (cc ++ OIfEq (TAbs 0) r :: tt) + 1) with tl
        by (unfold tl; rewrite app_length; cbn [length]; lia).
      replace (length (cc ++ OIfEq (TAbs tl) r :: tt)) with (length (cc ++ OIfEq (TAbs 0) r :: tt))
        by (rewrite !app_length; reflexivity).
      destruct g; reflexivity. }
    rewrite E2.
    set (g2 := ext _ _ _ _).
    assert (exce g2 = rposs TExcE tt (here g + length cc + 1) ++ rposs TExcE cc (here g) ++ exce g) as X2.
    { unfold g2, ext. fld. rewrite !rposs_app. cbn [rposs is_k target tgt_eqb].
      rewrite (rposs_none TExcE lt) by apply none_lv.
      cbn [app]. rewrite !app_nil_r, <- app_assoc. do 2 f_equal. unfold here; cbn [code w_ifend]. lia. }
    assert (here g2 = tl + length lt) as L2.
    { unfold g2. rewrite here_ext, !app_length. cbn [length]. unfold tl, here. cbn [code w_ifend]. lia. }
    rewrite (IHe g2).
    2: assumption.
    2: { intros X. rewrite X2, rposs_none, rposs_none.
         - apply HE. now rewrite X, !orb_true_r.
         - apply no_exce. eapply and3_false; [eassumption |]. now rewrite X, orb_true_r.
         - apply no_exce. eapply and3_false; eassumption. }
    change (ineval g2) with (ineval g). change (mortal g2) with m1. rewrite L2.
    set (ee := comp e (ineval g) _ m1).
    unfold g2. rewrite ext_ext, <- app_assoc. cbn [app].
    rewrite end_else_ext with (d0 := decls c) by (auto with arith; intros []; reflexivity).
    unfold retarget. cbn [map_op].
    replace (here g + length ((cc ++ OIfEq (TAbs tl) r :: tt) ++ OGoto (TAbs 0) :: lt ++ ee))
      with (tl + length lt + length ee)
      by (unfold tl; rewrite !app_length; cbn [length]; rewrite !app_length; lia).
    rewrite <- !app_assoc. cbn [app]. rewrite <- ?app_assoc. destruct g; reflexivity.
  - (* NLoop *) intros i IHi x IHx n IHn c IHc r g OK HE.
    cbn [eval_ok has_eval gen comp decls npush] in *.
    repeat (apply andb3 in OK; destruct OK as [OK ?]).
    set (g0 := start_loop g).
    rewrite (IHi g0); [| assumption | intros X; apply HE; now rewrite X].
    change (ineval g0) with (ineval g). change (here g0) with (here g). change (mortal g0) with (mortal g).
    set (ii := comp i (ineval g) (here g) (mortal g)).
    rewrite start_body_ext.
    set (g1 := ext _ _ _ _).
    assert (exce g1 = rposs TExcE ii (here g) ++ exce g) as X1.
    { unfold g1, ext. fld. rewrite rposs_app. reflexivity. }
    assert (here g1 = here g + length ii + 1) as L1.
    { unfold g1. rewrite here_ext, (app_length ii). cbn [length]. change (here g + (length ii + 1) = here g + length ii + 1). lia. }
    cbv zeta.
    rewrite (IHx g1).
    2: assumption.
    2: { intros X. rewrite X1, rposs_none.
         - apply HE. now rewrite X, !orb_true_r.
         - apply no_exce. eapply and3_false; [eassumption |]. now rewrite X. }
    change (ineval g1) with (ineval g). change (mortal g1) with (mortal g + decls i).
    rewrite L1. set (m1 := mortal g + decls i).
    set (bb := comp x (ineval g) _ m1).
    set (lb := lv (has_decl x) m1).
    set (nt := here g + length ii + 1 + length bb).
    assert (end_body (has_decl x) m1 (ext g1 bb (decls x) (npush x))
      = ext (w_loopgoto (here g + length ii :: loopgoto g) g0)
          ((ii ++ OGoto (TAbs 0) :: subst TNext nt bb) ++ lb) (decls i) (npush i + npush x)) as E2.
    { set (gi := ext (w_loopgoto (here g + length ii :: loopgoto g) g0) (ii ++ [OGoto (TAbs 0)]) (decls i) (npush i)).
      change (ext g1 bb (decls x) (npush x))
        with (ext (w_nextb (length (rposs TNext ii (here g) ++ nexts g) :: nextb g) gi) bb (decls x) (npush x)).
      replace (length (rposs TNext ii (here g) ++ nexts g)) with (length (nexts gi))
        by (unfold gi, ext; fld; rewrite rposs_app; reflexivity).
      rewrite end_body_ext with (d0 := 0) by (auto with arith; unfold gi, ext, m1; fld; cbn; lia).
      replace (here gi + length bb) with nt
        by (unfold nt, gi; rewrite here_ext, app_length; cbn [length];
            change (here g + length ii + 1 + length bb = here g + (length ii + 1) + length bb); lia).
      change (w_nextb (nextb g) gi) with gi.
      unfold gi. rewrite ext_ext, Nat.add_0_r, <- app_assoc. cbn [app]. rewrite <- app_assoc. reflexivity. }
    rewrite E2.
    set (g2 := ext _ _ _ _).
    assert (exce g2 = rposs TExcE bb (here g + length ii + 1) ++ rposs TExcE ii (here g) ++ exce g) as X2.
    { unfold g2, ext. fld. rewrite !rposs_app. cbn [rposs is_k target tgt_eqb].
      rewrite (rposs_none TExcE lb) by apply none_lv. rewrite rposs_subst_other by reflexivity.
      cbn [app]. rewrite !app_nil_r, <- app_assoc. f_equal. f_equal.
      change (S (here g + length ii) = here g + length ii + 1). lia. }
    assert (here g2 = nt + length lb) as L2.
    { unfold g2. rewrite here_ext, !app_length. cbn [length]. rewrite length_subst. unfold nt.
      change (here g + (length ii + S (length bb) + length lb) = here g + length ii + 1 + length bb + length lb). lia. }
    rewrite (IHn g2).
    2: assumption.
    2: { intros X. rewrite X2, rposs_none, rposs_none.
         - apply HE. now rewrite X, !orb_true_r.
         - apply no_exce. eapply and3_false; [eassumption |]. now rewrite X, !orb_true_r.
         - apply no_exce. eapply and3_false; [eassumption |]. now rewrite X. }
    change (ineval g2) with (ineval g). change (mortal g2) with m1. rewrite L2.
    set (nn := comp n (ineval g) _ m1).
    set (ct := nt + length lb + length nn).
    set (body := subst TNext nt bb) in *.
    assert (end_inc (ext g2 nn (decls n) (npush n))
      = ext (w_loopgoto (here g + length ii :: loopgoto g) g0)
          (ii ++ OGoto (TAbs ct) :: body ++ lb ++ nn) (decls i + decls n) (npush i + npush x + npush n)) as E3.
    { unfold g2. rewrite ext_ext, <- !app_assoc. cbn [app]. rewrite <- ?app_assoc.
      change (here g + length ii) with (here g0 + length ii).
      rewrite end_inc_ext by (intros []; reflexivity). unfold retarget. cbn [map_op].
      replace (here g0 + length (ii ++ OGoto (TAbs 0) :: body ++ lb ++ nn)) with ct; [reflexivity |].
      unfold ct, nt, body. rewrite !app_length. cbn [length]. rewrite !app_length, length_subst.
      change (here g0) with (here g). lia. }
    rewrite E3.
    set (g3 := ext _ _ _ _).
    assert (exce g3 = rposs TExcE nn (nt + length lb) ++ rposs TExcE bb (here g + length ii + 1) ++ rposs TExcE ii (here g) ++ exce g) as X3.
    { unfold g3, ext. fld. rewrite rposs_app. cbn [rposs is_k target tgt_eqb]. rewrite !rposs_app.
      rewrite (rposs_none TExcE lb) by apply none_lv. unfold body. rewrite rposs_subst_other by reflexivity.
      cbn [app]. rewrite !app_nil_r, <- !app_assoc. f_equal; [f_equal; rewrite length_subst; unfold nt | f_equal; f_equal].
      - change (S (here g + length ii) + length bb + length lb = here g + length ii + 1 + length bb + length lb). lia.
      - change (S (here g + length ii) = here g + length ii + 1). lia. }
    assert (here g3 = ct) as L3.
    { unfold g3. rewrite here_ext, !app_length. cbn [length]. rewrite !app_length. unfold body. rewrite length_subst. unfold ct, nt.
      change (here g + (length ii + S (length bb + (length lb + length nn))) = here g + length ii + 1 + length bb + length lb + length nn). lia. }
    rewrite (IHc g3).
    2: assumption.
    2: { intros X. rewrite X3, rposs_none, rposs_none, rposs_none.
         - apply HE. now rewrite X, !orb_true_r.
         - apply no_exce. eapply and3_false; [eassumption |]. now rewrite X, !orb_true_r.
         - apply no_exce. eapply and3_false; [eassumption |]. now rewrite X, !orb_true_r.
         - apply no_exce. eapply and3_false; [eassumption |]. now rewrite X. }
    change (ineval g3) with (ineval g).
    replace (mortal g3) with (m1 + decls n) by (unfold g3, ext, m1; fld; cbn; lia).
    rewrite L3. set (cc := comp c (ineval g) ct _).
    unfold g3. rewrite ext_ext, cond_loop_ext.
    change (w_loopgoto (loopgoto g) g0) with (w_lastb (length (lasts g) :: lastb g) g).
    rewrite end_loop_ext with (d0 := 0) by lia.
    assert (forall z, w_lastb (lastb g) g = g -> ext (w_lastb (lastb g) g) z = ext g z) as W by (intros z ->; reflexivity).
    rewrite W by (destruct g; reflexivity). clear W.
    replace (here g + length ii + 1) with (here g + length ii + 1) by reflexivity.
    rewrite <- !app_assoc. cbn [app]. rewrite <- !app_assoc.
    match goal with |- ext _ (subst _ ?a ?s ++ _) _ _ = ext _ (subst _ ?b _ ++ _) _ _ => replace b with a; [reflexivity |] end.
    unfold ct, nt, body. rewrite !app_length. cbn [length]. rewrite !app_length, length_subst. cbn [length]. lia.
  - (* NEval *) intros x IH g OK HE. cbn [eval_ok has_eval gen comp decls npush] in *.
    rewrite start_eval_ext.
    set (g1 := ext _ _ _ _).
    rewrite (IH g1).
    2: exact OK.
    2: { intros _. change (exce g1) with (exce g). now apply HE. }
    change (ineval g1) with true. change (mortal g1) with (mortal g + 0).
    replace (here g1) with (here g + 2) by (unfold g1; rewrite here_ext; reflexivity).
    rewrite Nat.add_0_r. set (bb := comp x true _ _).
    unfold g1. rewrite ext_ext.
    rewrite end_eval_ext with (d0 := 0) by (auto with arith; now apply HE).
    replace (w_evals (evals g) g) with g by (destruct g; reflexivity).
    cbv zeta.
    replace (here g + length ([OClearErr; OExcUndef] ++ bb)) with (here g + 2 + length bb)
      by (rewrite app_length; cbn [length]; lia).
    unfold subst at 1. rewrite map_app, <- app_assoc. reflexivity.
  - (* NSwitch *) intros c IHc r cs IHcs g OK HE.
    cbn [eval_ok has_eval gen comp decls npush] in *.
    repeat (apply andb3 in OK; destruct OK as [OK ?]).
    rewrite IHc by (auto; intros X; apply HE; now rewrite X).
    set (cc := comp c (ineval g) (here g) (mortal g)). cbv zeta.
    rewrite start_switch_ext, here_ext.
    set (g1 := w_brkb _ _).
    assert (exce g1 = rposs TExcE cc (here g) ++ exce g) as X1.
    { unfold g1, w_brkb, w_brk, ext. fld. rewrite rposs_app.
      rewrite (rposs_none TExcE (OSwitch r 0 [] :: _)); [reflexivity |].
      apply none_cons. split; [reflexivity | apply none_repeat]. }
    assert (here g1 = here g + length cc + 1 + count_cases cs) as L1.
    { unfold g1. change (here (ext g (cc ++ OSwitch r 0 [] :: repeat OCaseInfo (count_cases cs)) (decls c) (npush c))
        = here g + length cc + 1 + count_cases cs).
      rewrite here_ext, app_length. cbn [length]. rewrite repeat_length. lia. }
    rewrite (IHcs g1).
    2: assumption.
    2: { intros X. rewrite X1, rposs_none.
         - apply HE. now rewrite X, orb_true_r.
         - apply no_exce. eapply and3_false; eassumption. }
    change (ineval g1) with (ineval g). change (mortal g1) with (mortal g + decls c). rewrite L1.
    destruct (comp_cases cs (ineval g) _ _) as [[kk tbl] d]. cbn [fst snd].
    set (m1 := mortal g + decls c).
    change (mortal (ext g cc (decls c) (npush c))) with m1.
    set (gi := ext g (cc ++ OSwitch r 0 [] :: repeat OCaseInfo (count_cases cs)) (decls c) (npush c)).
    unfold g1. fold gi.
    replace (length (rposs TBrk cc (here g) ++ brks g)) with (length (brks gi)).
    2: { unfold gi, ext. fld. rewrite rposs_app. rewrite (rposs_none TBrk (OSwitch r 0 [] :: _)); [reflexivity |].
         apply none_cons. split; [reflexivity | apply none_repeat]. }
    rewrite end_switch_ext with (d0 := 0) by (auto with arith; unfold gi, ext, m1; fld; lia).
    change (w_brkb (brkb g) gi) with gi.
    assert (here gi = here g + length cc + 1 + count_cases cs) as Li by exact L1.
    rewrite Li. unfold gi. rewrite ext_ext, !Nat.add_0_r, <- app_assoc. cbn [app].
    set (rest := repeat OCaseInfo (count_cases cs) ++ _ ++ _).
    unfold w_code, ext. fld.
    assert (forall k, rposs k (cc ++ OSwitch r 0 [] :: rest) (here g) = rposs k (cc ++ OSwitch r d tbl :: rest) (here g)) as R.
    { intros k. rewrite !rposs_app. reflexivity. }
    rewrite !R. f_equal. rewrite !map_app. cbn [map]. rewrite !app_assoc.
    rewrite upd_mid by (now rewrite app_length, map_length). reflexivity.
  - (* CDefault *) intros b IH g OK HE. cbn [eval_ok_cases has_eval_cases gen_cases comp_cases npush_cases fst snd] in *.
    rewrite IH by assumption. rewrite end_block_ext with (d0 := 0) by lia. reflexivity.
  - (* CLabel *) intros v cs IH g OK HE. cbn [eval_ok_cases has_eval_cases gen_cases comp_cases npush_cases] in *.
    rewrite IH by assumption.
    destruct (comp_cases cs _ _ _) as [[kk tbl] d]. reflexivity.
  - (* CCase *) intros v b IHb cs IHcs g OK HE. cbn [eval_ok_cases has_eval_cases gen_cases comp_cases npush_cases] in *.
    repeat (apply andb3 in OK; destruct OK as [OK ?]).
    rewrite IHb by (auto; intros X; apply HE; now rewrite X).
    set (bb := comp b (ineval g) (here g) (mortal g)).
    assert ((if ends_break b then ext g bb (decls b) (npush b) else gen_break (ext g bb (decls b) (npush b)))
      = ext g (bb ++ (if ends_break b then [] else [OGoto TBrk])) (decls b) (npush b)) as E.
    { destruct (ends_break b); [now rewrite app_nil_r | apply gen_break_ext]. }
    cbv zeta. rewrite E. rewrite end_block_ext with (d0 := 0) by lia. rewrite <- app_assoc.
    set (xx := bb ++ _ ++ _). set (g1 := ext _ _ _ _).
    assert (exce g1 = rposs TExcE bb (here g) ++ exce g) as X1.
    { unfold g1, xx, ext. fld. rewrite !rposs_app.
      rewrite (rposs_none TExcE (lv _ _)) by apply none_lv.
      destruct (ends_break b); reflexivity. }
    rewrite (IHcs g1).
    2: assumption.
    2: { intros X. rewrite X1, rposs_none.
         - apply HE. now rewrite X, orb_true_r.
         - apply no_exce. eapply and3_false; eassumption. }
    change (ineval g1) with (ineval g).
    replace (mortal g1) with (mortal g) by (unfold g1, ext; fld; lia).
    replace (here g1) with (here g + length xx) by (unfold g1; now rewrite here_ext).
    destruct (comp_cases cs _ _ _) as [[kk tbl] d]. cbn [fst snd].
    unfold g1. rewrite ext_ext. reflexivity.
Qed.
