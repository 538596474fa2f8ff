(** * The parser reads by the grammar: proofs *)
From Coq Require Import NArith PArith Lia.
From Verif Require Import Base YaccTables_model Yacc_model Yacc_spec YaccCert_proofs YaccCheck_proofs.
Local Open Scope Z_scope.

Scheme tree_mind := Induction for tree Sort Prop with trees_mind := Induction for trees Sort Prop.
Combined Scheme tree_trees_ind from tree_mind, trees_mind.

Definition next (s x q : Z) : Prop := if x <? 137 then action s x = Shift q else goto s x = Some q.
(** What the automaton reads from the state [s], before the terminal [b]. *)
Fixpoint goodt (t : tree) (s b : Z) : Prop :=
  match t with
  | Leaf c _ => exists q, action s (kind c) = Shift q
  | Node k ts => exists q q', goodl ts s b q /\ action q b = Reduce k /\ goto s (lhs k) = Some q'
  end
with goodl (ts : trees) (s b q : Z) : Prop :=
  match ts with
  | Nil => s = q
  | Cons t ts => goodt t s (first_of (yields ts) b) /\ exists q1, next s (root t) q1 /\ goodl ts q1 b q
  end.

Lemma root_leaf c v : root (Leaf c v) <? 137 = true.
Proof. cbn. apply Z.ltb_lt. pose proof (kind_range c). lia. Qed.
Lemma lhs_range k : rule k <> None -> 137 <= lhs k < 233.
Proof. intros H. unfold lhs. destruct (rule k) as [[l r] |] eqn:Er; [| congruence]. now apply rule_facts in Er. Qed.
Lemma first_of_range w b : 0 <= b < 137 -> 0 <= first_of w b < 137.
Proof. destruct w as [| [c v] w]; cbn; [auto |]. pose proof (kind_range c). lia. Qed.
Lemma first_of_app w w' b : first_of (w ++ w') b = first_of w (first_of w' b).
Proof. destruct w as [| [c v] w]; reflexivity. Qed.

(** ** First tokens *)
Lemma mem_single x : 0 <= x -> mem x (N.shiftl 1 (Z.to_N x)) = true.
Proof. intros H. unfold mem. rewrite N.shiftl_spec_high by lia. rewrite N.sub_diag. reflexivity. Qed.
Lemma firsts_cons x xs L : firsts (x :: xs) L = if nullable x then N.lor (fst (first_at x)) (firsts xs L) else fst (first_at x).
Proof. cbn [firsts]. unfold nullable. destruct (first_at x) as [f e]. reflexivity. Qed.
Lemma mem_lor x a b : mem x (N.lor a b) = mem x a || mem x b.
Proof. unfold mem. apply N.lor_spec. Qed.
Lemma first_sets :
  (forall t, derivation t ->
     match yield t with [] => nullable (root t) = true | (c, _) :: _ => mem (kind c) (fst (first_at (root t))) = true end) /\
  (forall ts, derivations ts -> (yields ts = [] -> forallb nullable (roots ts) = true) /\
     forall L b, mem b L = true \/ yields ts <> [] -> mem (first_of (yields ts) b) (firsts (roots ts) L) = true).
Proof.
  apply tree_trees_ind.
  - intros c v _. cbn [yield root]. unfold first_at. pose proof (kind_range c).
    destruct (Z.ltb_spec (kind c) 137); [| lia]. cbn [fst]. apply mem_single. lia.
  - intros k ts IH (Hr & He & Hd). destruct (IH Hd) as (I1 & I2). destruct (firsts_facts k Hr) as (F1 & F2).
    rewrite <- He in F1, F2. cbn [yield root]. destruct (yields ts) as [| [c v] w] eqn:Ey.
    + apply F2. apply I1. reflexivity.
    + pose proof (I2 0%N 0) as Q. eapply subset_mem; [exact F1 |]. apply Q. right. discriminate.
  - intros _. split; [reflexivity |]. cbn. intros L b [H | H]; [exact H | congruence].
  - intros t IHt ts IHs (Hd & Hds). specialize (IHt Hd). destruct (IHs Hds) as (I1 & I2). split.
    + cbn [yields roots forallb]. intros H. apply app_eq_nil in H. destruct H as (H1 & H2). rewrite H1 in IHt. rewrite IHt. cbn. now apply I1.
    + intros L b H. cbn [yields roots] in *. rewrite first_of_app, firsts_cons. destruct (yield t) as [| [c v] w] eqn:Ey.
      * rewrite IHt, mem_lor. cbn [first_of]. rewrite I2 by exact H. apply orb_true_r.
      * cbn [first_of]. destruct (nullable (root t)); [| exact IHt]. rewrite mem_lor, IHt. reflexivity.
Qed.
Lemma first_mem ts L b : derivations ts -> mem b L = true -> mem (first_of (yields ts) b) (firsts (roots ts) L) = true.
Proof. intros H M. apply (proj2 first_sets ts H). now left. Qed.

(** ** A tree that fits is read *)
Lemma walk_shift s x pl pm xs l m L q :
  walk s ((x, pl, pm) :: xs) l m L = Some q ->
  if x <? 137 then exists q1, action s x = Shift q1 /\ 0 <= s < 558 /\ 0 <= x /\ walk q1 xs l m L = Some q
  else exists L' q1, want s x = Some (inherit pl l, inherit pm m, L', q1) /\
       subset (firsts (map (fun e => fst (fst e)) xs) L) L' = true /\ walk q1 xs l m L = Some q.
Proof.
  cbn [walk]. destruct (Z.ltb_spec x 137).
  - destruct (act_at s x) as [q1 | | |] eqn:Ea; try discriminate. intros W. exists q1.
    destruct (act_at_range _ _ _ Ea ltac:(discriminate)) as (R1 & R2). rewrite act_at_action in Ea by lia. repeat split; auto; lia.
  - destruct (want s x) as [[[[l' m'] L'] q1] |]; [| discriminate].
    destruct (_ && _ && _) eqn:C; [| discriminate]. apply andb_true_iff in C. destruct C as (C & C3).
    apply andb_true_iff in C. destruct C as (C1 & C2). apply Nat.eqb_eq in C1. apply Bool.eqb_prop in C2. subst.
    intros W. exists L', q1. auto.
Qed.
Lemma walk_states xs : forall s l m L q, walk s xs l m L = Some q -> 0 <= s < 558 -> 0 <= q < 558.
Proof.
  induction xs as [| [[x pl] pm] xs IH]; intros s l m L q H Hs; [cbn in H; injection H as <-; exact Hs |].
  apply walk_shift in H. destruct (Z.ltb_spec x 137) as [Hx | Hx].
  - destruct H as (q1 & A & _ & X0 & W). eapply IH; [exact W |].
    apply (edge_facts s x q1). apply shift_edge; [lia | lia | exact A].
  - destruct H as (L' & q1 & Wn & _ & W). eapply IH; [exact W |]. apply (want_facts _ _ _ _ _ _ Wn).
Qed.
Lemma node_fits_eq k a m b : node_fits k a m b = leq a (open_left k) && end_fits k m b.
Proof. unfold node_fits, end_fits. now rewrite !andb_assoc. Qed.
Lemma plan_cons k i x xs : plan k i (x :: xs) = (x, plan_level k i x, plan_mark k i x) :: plan k (S i) xs.
Proof. reflexivity. Qed.

Lemma fits_good :
  (forall t s b, derivation t -> 0 <= b < 137 ->
     (root t < 137 -> exists q, action s (root t) = Shift q) ->
     (137 <= root t -> exists l m L q, want s (root t) = Some (l, m, L, q) /\ mem b L = true /\ fits l m t b) ->
     goodt t s b) /\
  (forall ts s k i l m L b q, derivations ts -> 0 <= b < 137 ->
     walk s (plan k i (roots ts)) l m L = Some q -> mem b L = true -> all_fit k l m i ts b -> goodl ts s b q).
Proof.
  apply tree_trees_ind.
  - intros c v s b _ _ H _. cbn [goodt]. apply H. cbn [root]. pose proof (kind_range c). lia.
  - intros k ts IH s b (Hr & He & Hd) Hb _ H. cbn [root] in H. pose proof (lhs_range k Hr) as Hl.
    destruct (H ltac:(lia)) as (l & m & L & q & Hw & Hm & (Hn & Hf)).
    destruct (want_facts _ _ _ _ _ _ Hw) as (Hs & _ & Hq & Hg & Hc & _).
    specialize (Hc k Hr eq_refl). apply rule_check_facts in Hc; [| exact Hr].
    rewrite node_fits_eq in Hn. apply andb_true_iff in Hn. destruct Hn as (Hn1 & Hn2). rewrite Hn1 in Hc.
    destruct Hc as (q1 & Hwk & Hend). rewrite <- He in Hwk.
    specialize (Hend (walk_states _ _ _ _ _ _ Hwk Hs) b Hb). destruct Hend as (Hend & _).
    cbn [goodt]. exists q1, q. split; [eapply IH; eassumption |]. split; [auto | exact Hg].
  - intros s k i l m L b q _ _ H _ _. cbn in H. injection H as ->. reflexivity.
  - intros t IHt ts IHs s k i l m L b q (Hd & Hds) Hb Hw Hm (Hf & Hfs). cbn [roots] in Hw. rewrite plan_cons in Hw.
    apply walk_shift in Hw. cbn [goodl]. destruct (Z.ltb_spec (root t) 137) as [Hx | Hx].
    + destruct Hw as (q1 & Ha & Hs & H0 & Hw). split.
      * apply IHt; [exact Hd | now apply first_of_range | eauto | lia].
      * exists q1. split; [unfold next; destruct (Z.ltb_spec (root t) 137); [exact Ha | lia] |]. eapply IHs; eassumption.
    + destruct Hw as (L' & q1 & Hn & Hsub & Hw). rewrite plan_symbols in Hsub. split.
      * apply IHt; [exact Hd | now apply first_of_range | lia |]. intros _.
        exists (inherit (plan_level k i (root t)) l), (inherit (plan_mark k i (root t)) m), L', q1.
        split; [exact Hn |]. split; [eapply subset_mem; [exact Hsub | now apply first_mem] |].
        rewrite <- plan_level_eq, <- plan_mark_eq. exact Hf.
      * exists q1. split; [unfold next; destruct (Z.ltb_spec (root t) 137); [lia | now apply (want_facts _ _ _ _ _ _ Hn)] |].
        eapply IHs; eassumption.
Qed.

(** ** What is read fits *)
Lemma next_det s x q q' : next s x q -> next s x q' -> q = q'.
Proof. unfold next. destruct (x <? 137); congruence. Qed.
Lemma good_fits :
  (forall t s b l m L q, derivation t -> 0 <= b < 137 -> goodt t s b ->
     137 <= root t -> want s (root t) = Some (l, m, L, q) -> fits l m t b) /\
  (forall ts s k i l m L b q qw, derivations ts -> 0 <= b < 137 ->
     walk s (plan k i (roots ts)) l m L = Some qw -> goodl ts s b q -> q = qw /\ all_fit k l m i ts b).
Proof.
  apply tree_trees_ind.
  - intros c v s b l m L q _ _ _ H. cbn [root] in H. pose proof (kind_range c). lia.
  - intros k ts IH s b l m L q (Hr & He & Hd) Hb (q1 & q2 & Hl & Ha & Hg) _ Hw. cbn [root] in Hw.
    destruct (want_facts _ _ _ _ _ _ Hw) as (Hs & _ & Hq & _ & Hc & _).
    specialize (Hc k Hr eq_refl). apply rule_check_facts in Hc; [| exact Hr].
    destruct (leq l (open_left k)) eqn:Hleq.
    + destruct Hc as (qw & Hwk & Hend). specialize (Hend (walk_states _ _ _ _ _ _ Hwk Hs) b Hb). destruct Hend as (_ & Hend).
      rewrite <- He in Hwk. destruct (IH _ _ _ _ _ _ _ _ _ Hd Hb Hwk Hl) as (-> & Hf).
      cbn [fits]. split; [| exact Hf]. rewrite node_fits_eq, Hleq. cbn [andb]. now apply Hend.
    + exfalso. destruct Hc as (o & r & Hrhs & Ho & l' & m' & L' & q' & Hw' & Hns). rewrite <- He in Hrhs.
      destruct ts as [| t1 [| t2 ts]]; cbn [roots] in Hrhs; try discriminate. injection Hrhs as E1 E2 _.
      cbn [goodl] in Hl. destruct Hl as (_ & q3 & Hn1 & _ & q4 & Hn2 & _).
      destruct (want_facts _ _ _ _ _ _ Hw') as (_ & Hop & Hq' & Hg' & _).
      unfold next in Hn1. rewrite E1 in Hn1. destruct (Z.ltb_spec operator 137); [lia |]. rewrite Hg' in Hn1. injection Hn1 as <-.
      unfold next in Hn2. rewrite E2 in Hn2. destruct (Z.ltb_spec o 137); [| lia].
      assert (0 <= o).
      { destruct (rule k) as [[a xs] |] eqn:Er; [| congruence]. destruct (rule_facts _ _ _ Er) as (_ & _ & _ & Hx).
        assert (In o (rhs k)) by (rewrite <- He; cbn [roots]; rewrite E2; right; left; reflexivity).
        unfold rhs in H1. rewrite Er in H1. specialize (Hx _ H1). lia. }
      rewrite act_at_action in Hns by lia. rewrite Hn2 in Hns. discriminate.
  - intros s k i l m L b q qw _ _ H H1. cbn in H, H1. split; [congruence | exact I].
  - intros t IHt ts IHs s k i l m L b q qw (Hd & Hds) Hb Hw (Hg & q1 & Hn & Hgs). cbn [roots] in Hw. rewrite plan_cons in Hw.
    apply walk_shift in Hw. cbn [all_fit]. unfold next in Hn. destruct (Z.ltb_spec (root t) 137) as [Hx | Hx].
    + destruct Hw as (q2 & Ha & Hs & H0 & Hw). rewrite Hn in Ha. injection Ha as <-.
      destruct (IHs _ _ _ _ _ _ _ _ _ Hds Hb Hw Hgs) as (Hq & Hf). split; [exact Hq |]. split; [| exact Hf].
      destruct t as [c v | k' ts']; [exact I |]. cbn [root] in Hx. destruct Hd as (Hr & _). pose proof (lhs_range _ Hr). lia.
    + destruct Hw as (L' & q2 & Hwn & Hsub & Hw). destruct (want_facts _ _ _ _ _ _ Hwn) as (_ & _ & _ & Hg2 & _).
      rewrite Hn in Hg2. injection Hg2 as <-.
      destruct (IHs _ _ _ _ _ _ _ _ _ Hds Hb Hw Hgs) as (Hq & Hf). split; [exact Hq |]. split; [| exact Hf].
      rewrite plan_level_eq, plan_mark_eq. eapply IHt; [exact Hd | now apply first_of_range | exact Hg | exact Hx | exact Hwn].
Qed.

(** ** The steps of the parser *)
Definition posw (w : list (Z * nat)) : Prop := Forall (fun p => 0 < fst p) w.
Lemma lookahead inp : posw inp -> translate (fst (hd (0, O) inp)) = Some (first_of inp 0).
Proof. intros H. destruct inp as [| [c v] inp]; cbn; [reflexivity |]. inversion H; subst. now apply translate_kind. Qed.
Lemma final_action b : action YYFINAL b = Reduce 1.
Proof.
  unfold action. replace (znth yypact YYFINAL) with (Some YYPACT_NINF) by (vm_compute; reflexivity).
  rewrite Z.eqb_refl. vm_compute. reflexivity.
Qed.
Lemma rule_one : rule 1 = None.
Proof. reflexivity. Qed.

Fixpoint tlen (ts : trees) : nat := match ts with Nil => O | Cons _ ts => S (tlen ts) end.
Fixpoint push (ts : trees) (vs : list tree) : list tree := match ts with Nil => vs | Cons t ts => push ts (t :: vs) end.
Fixpoint tapp (a b : trees) : trees := match a with Nil => b | Cons t a => Cons t (tapp a b) end.
Lemma tapp_assoc a b c : tapp (tapp a b) c = tapp a (tapp b c).
Proof. induction a; cbn; congruence. Qed.
Lemma tapp_nil a : tapp a Nil = a.
Proof. induction a; cbn; congruence. Qed.
Lemma take_app n : forall us vs acc n', length us = n ->
  take_values (n + n') (us ++ vs) acc = take_values n' vs (fold_left (fun a t => Cons t a) us acc).
Proof.
  induction n as [| n IH]; intros us vs acc n' H; destruct us as [| u us]; cbn in H; try discriminate; [reflexivity |].
  cbn. apply IH. lia.
Qed.
Fixpoint tlist (ts : trees) : list tree := match ts with Nil => [] | Cons t ts => t :: tlist ts end.
Lemma push_rev ts : forall vs, push ts vs = rev (tlist ts) ++ vs.
Proof. induction ts as [| t ts IH]; intros vs; cbn; [reflexivity |]. rewrite IH, <- app_assoc. reflexivity. Qed.
Lemma tlen_list ts : length (tlist ts) = tlen ts.
Proof. induction ts; cbn; congruence. Qed.
Lemma fold_rev ts : forall acc, fold_left (fun a t => Cons t a) (rev (tlist ts)) acc = tapp ts acc.
Proof. induction ts as [| t ts IH]; intros acc; cbn; [reflexivity |]. rewrite fold_left_app, IH. reflexivity. Qed.
Lemma take_push ts vs : take_values (tlen ts) (push ts vs) Nil = Some ts.
Proof.
  rewrite push_rev. rewrite <- (Nat.add_0_r (tlen ts)). rewrite take_app by (rewrite rev_length; apply tlen_list).
  rewrite fold_rev, tapp_nil. now destruct vs.
Qed.
Lemma drop_push ts vs : skipn (tlen ts) (push ts vs) = vs.
Proof.
  rewrite push_rev, skipn_app, skipn_all2 by (rewrite rev_length, tlen_list; lia).
  rewrite rev_length, tlen_list, Nat.sub_diag. reflexivity.
Qed.
Lemma roots_length ts : length (roots ts) = tlen ts.
Proof. induction ts; cbn; congruence. Qed.

Lemma step_shift D m s sts vs c v rest q : zlen (s :: sts) < D -> 0 < c -> action s (kind c) = Shift q ->
  parse_loop D (S m) (s :: sts) vs ((c, v) :: rest) = parse_loop D m (q :: s :: sts) (Leaf c v :: vs) rest.
Proof.
  intros Hd Hc Ha. cbn [parse_loop]. destruct (Z.leb_spec D (zlen (s :: sts))); [lia |].
  destruct (Z.eqb_spec s YYFINAL); [subst; rewrite final_action in Ha; discriminate |].
  cbn [hd]. rewrite translate_kind, Ha by exact Hc. reflexivity.
Qed.
Lemma step_reduce D m st sts p vs inp q k ts q' : zlen st < D -> posw inp -> hd 0 st = q ->
  action q (first_of inp 0) = Reduce k -> rule k <> None -> take_values (length (rhs k)) vs Nil = Some ts ->
  skipn (length (rhs k)) st = p :: sts -> goto p (lhs k) = Some q' ->
  parse_loop D (S m) st vs inp = parse_loop D m (q' :: p :: sts) (Node k ts :: skipn (length (rhs k)) vs) inp.
Proof.
  intros Hd Hp Hq Ha Hr Ht Hs Hg. destruct st as [| q0 st].
  { destruct (length (rhs k)); discriminate. } cbn in Hq. subst q0.
  cbn [parse_loop]. destruct (Z.leb_spec D (zlen (q :: st))); [lia |].
  destruct (Z.eqb_spec q YYFINAL); [subst; rewrite final_action in Ha; injection Ha as <-; now rewrite rule_one in Hr |].
  pose proof (lookahead inp Hp) as HL. destruct (hd (0, O) inp) as [c v]. cbn [fst] in HL. rewrite HL, Ha.
  destruct (rule k) as [[l r] |] eqn:Er; [| congruence]. destruct (rule_facts _ _ _ Er) as (E1 & E2 & _).
  rewrite E1, E2. assert (Er1 : rhs k = r) by (unfold rhs; now rewrite Er). assert (El1 : lhs k = l) by (unfold lhs; now rewrite Er).
  rewrite Er1 in *. rewrite El1 in *. unfold zdrop, zlen. rewrite Nat2Z.id. rewrite Ht, Hs, Hg. reflexivity.
Qed.
Lemma step_exhausted D m st vs inp : D <= zlen st -> parse_loop D (S m) st vs inp = Exhausted.
Proof. intros H. cbn [parse_loop]. destruct (Z.leb_spec D (zlen st)); [reflexivity | lia]. Qed.

Lemma step_end D m s sts vs q : zlen (s :: sts) < D -> action s 0 = Shift q ->
  parse_loop D (S m) (s :: sts) vs [] = parse_loop D m (q :: s :: sts) (Leaf 0 0 :: vs) [].
Proof.
  intros Hd Ha. cbn [parse_loop]. destruct (Z.leb_spec D (zlen (s :: sts))); [lia |].
  destruct (Z.eqb_spec s YYFINAL); [subst; rewrite final_action in Ha; discriminate |].
  cbn [hd]. replace (translate 0) with (Some 0) by reflexivity. now rewrite Ha.
Qed.
Lemma step_accept D m sts v t vs inp :
  parse_loop D (S m) (YYFINAL :: sts) (v :: t :: vs) inp = if D <=? zlen (YYFINAL :: sts) then Exhausted else Accept t.
Proof. cbn [parse_loop]. rewrite Z.eqb_refl. reflexivity. Qed.

Lemma need_pos t : (1 <= need t)%nat.
Proof. destruct t; cbn [need]; lia. Qed.
Lemma needs_len ts : forall i, ts <> Nil -> (i + tlen ts <= needs i ts)%nat.
Proof.
  induction ts as [| t ts IH]; intros i H; [congruence |]. cbn [needs tlen]. pose proof (need_pos t).
  destruct ts as [| t' ts]; [cbn; lia |]. specialize (IH (S i) ltac:(discriminate)). cbn [tlen] in *. lia.
Qed.
Lemma posw_app a b : posw (a ++ b) <-> posw a /\ posw b.
Proof. apply Forall_app. Qed.

Lemma run D :
  (forall t s sts vs rest, goodt t s (first_of rest 0) -> derivation t -> posw (yield t) -> posw rest -> zlen (s :: sts) < D ->
     if zlen (s :: sts) + Z.of_nat (need t) <? D
     then exists n q, next s (root t) q /\
            forall m, parse_loop D (n + m) (s :: sts) vs (yield t ++ rest) = parse_loop D m (q :: s :: sts) (t :: vs) rest
     else exists n, forall m, parse_loop D (n + m) (s :: sts) vs (yield t ++ rest) = Exhausted) /\
  (forall ts s sts vs rest d i q, goodl ts s (first_of rest 0) q -> derivations ts -> posw (yields ts) -> posw rest ->
     zlen (s :: sts) = d + Z.of_nat i -> d + Z.of_nat i < D ->
     if d + Z.of_nat (needs i ts) <? D
     then exists n ps, length ps = tlen ts /\ hd 0 (ps ++ s :: sts) = q /\
            forall m, parse_loop D (n + m) (s :: sts) vs (yields ts ++ rest) = parse_loop D m (ps ++ s :: sts) (push ts vs) rest
     else exists n, forall m, parse_loop D (n + m) (s :: sts) vs (yields ts ++ rest) = Exhausted).
Proof.
  apply tree_trees_ind.
  - intros c v s sts vs rest (q & Ha) _ Hp Hr Hd. cbn [yield app need root] in *. inversion Hp; subst. cbn [fst] in *.
    destruct (Z.ltb_spec (zlen (s :: sts) + Z.of_nat 1) D).
    + exists 1%nat, q. split; [unfold next; pose proof (kind_range c); destruct (Z.ltb_spec (kind c) 137); [exact Ha | lia] |].
      intros m. now apply step_shift.
    + exists 2%nat. intros m. cbn [plus]. rewrite (step_shift _ _ _ _ _ _ _ _ q) by assumption. apply step_exhausted.
      rewrite (zlen_cons q). lia.
  - intros k ts IH s sts vs rest (q & q' & Hl & Ha & Hg) (Hr & He & Hds) Hp Hpr Hd. cbn [yield root need] in *.
    specialize (IH s sts vs rest (zlen (s :: sts)) 0%nat q Hl Hds Hp Hpr ltac:(lia) ltac:(lia)).
    destruct (Z.ltb_spec (zlen (s :: sts) + Z.of_nat (needs 0 ts)) D) as [H1 | H1].
    + destruct IH as (n & ps & E1 & E2 & IH).
      assert (Hlen : length (rhs k) = tlen ts) by (rewrite <- He; apply roots_length).
      assert (Hz : zlen (ps ++ s :: sts) < D).
      { rewrite zlen_app. unfold zlen at 1. rewrite E1. destruct ts as [| t ts]; [cbn in *; lia |].
        pose proof (needs_len (Cons t ts) 0 ltac:(discriminate)). lia. }
      assert (Hstep : forall m, parse_loop D (S m) (ps ++ s :: sts) (push ts vs) rest = parse_loop D m (q' :: s :: sts) (Node k ts :: vs) rest).
      { intros m. rewrite (step_reduce _ _ _ sts s _ _ q k ts q' Hz Hpr E2 Ha Hr).
        - now rewrite Hlen, drop_push.
        - rewrite Hlen. apply take_push.
        - rewrite Hlen, <- E1. now rewrite skipn_app, skipn_all, Nat.sub_diag.
        - exact Hg. }
      destruct (Z.ltb_spec (zlen (s :: sts) + Z.of_nat (Nat.max 1 (needs 0 ts))) D).
      * exists (n + 1)%nat, q'. split.
        -- unfold next. pose proof (lhs_range k Hr). destruct (Z.ltb_spec (lhs k) 137); [lia | exact Hg].
        -- intros m. rewrite <- Nat.add_assoc, IH. apply Hstep.
      * exists (n + 2)%nat. intros m. rewrite <- Nat.add_assoc, IH. cbn [plus]. rewrite Hstep. apply step_exhausted. rewrite (zlen_cons q'). lia.
    + destruct IH as (n & IH). destruct (Z.ltb_spec (zlen (s :: sts) + Z.of_nat (Nat.max 1 (needs 0 ts))) D); [lia |].
      exists n. exact IH.
  - intros s sts vs rest d i q H _ _ _ _ Hi. cbn in H. cbn [needs]. destruct (Z.ltb_spec (d + Z.of_nat 0) D); [| lia].
    exists 0%nat, []. split; [reflexivity |]. split; [exact H |]. reflexivity.
  - intros t IHt ts IHs s sts vs rest d i q (Hg & q1 & Hn & Hgs) (Hdt & Hds) Hp Hpr Hd Hi. cbn [yields needs] in *.
    apply posw_app in Hp. destruct Hp as (Hp1 & Hp2). rewrite <- first_of_app in Hg.
    assert (Hpr' : posw (yields ts ++ rest)) by (apply posw_app; auto).
    specialize (IHt s sts vs (yields ts ++ rest) Hg Hdt Hp1 Hpr' ltac:(lia)). rewrite <- app_assoc.
    destruct (Z.ltb_spec (zlen (s :: sts) + Z.of_nat (need t)) D) as [H1 | H1].
    + destruct IHt as (n1 & q2 & Hn2 & IHt). rewrite (next_det _ _ _ _ Hn2 Hn) in *. pose proof (need_pos t).
      specialize (IHs q1 (s :: sts) (t :: vs) rest d (S i) q Hgs Hds Hp2 Hpr ltac:(rewrite (zlen_cons q1); lia) ltac:(lia)).
      destruct (Z.ltb_spec (d + Z.of_nat (needs (S i) ts)) D) as [H2 | H2].
      * destruct (Z.ltb_spec (d + Z.of_nat (Nat.max (i + need t) (needs (S i) ts))) D); [| lia].
        destruct IHs as (n2 & ps & E1 & E2 & IHs). exists (n1 + n2)%nat, (ps ++ [q1]).
        rewrite <- app_assoc. cbn [app tlen]. split; [rewrite app_length; cbn; lia |]. split; [exact E2 |].
        intros m. rewrite <- Nat.add_assoc, IHt, IHs. reflexivity.
      * destruct (Z.ltb_spec (d + Z.of_nat (Nat.max (i + need t) (needs (S i) ts))) D); [lia |].
        destruct IHs as (n2 & IHs). exists (n1 + n2)%nat. intros m. rewrite <- Nat.add_assoc, IHt, IHs. reflexivity.
    + destruct (Z.ltb_spec (d + Z.of_nat (Nat.max (i + need t) (needs (S i) ts))) D); [lia |]. exact IHt.
Qed.

(** ** The invariant of the stacks: [w] has been read, [b] is the next terminal *)
Definition edge (p x q : Z) : Prop := 0 <= p < 558 /\ edge_check p x q = true /\ next p x q.
Inductive inv : list Z -> list tree -> list (Z * nat) -> Z -> Prop :=
| inv0 b : inv [0] [] [] b
| inv1 p sts vs w q t b : inv (p :: sts) vs w (first_of (yield t) b) -> derivation t -> goodt t p b ->
    edge p (root t) q -> inv (q :: p :: sts) (t :: vs) (w ++ yield t) b.
Lemma want_edge p a l m L q : want p a = Some (l, m, L, q) -> edge p a q.
Proof.
  intros H. destruct (want_facts _ _ _ _ _ _ H) as (H1 & H2 & H3 & H4 & _ & H5). split; [exact H1 |]. split; [exact H5 |].
  unfold next. destruct (Z.ltb_spec a 137); [lia | exact H4].
Qed.
Lemma inv_states st vs w b : inv st vs w b -> Forall (fun s => 0 <= s < 558) st.
Proof.
  intros H. induction H as [b | p sts vs w q t b _ IH _ _ (_ & He & _)]; [repeat constructor; lia |].
  constructor; [| exact IH]. now apply edge_facts in He.
Qed.
Lemma inv_zero st vs w b : inv (0 :: st) vs w b -> st = [] /\ vs = [] /\ w = [].
Proof. intros H. inversion H; subst; [auto |]. match goal with H : edge _ _ 0 |- _ => destruct H as (_ & He & _) end. apply edge_facts in He. lia. Qed.
Lemma root_pos t : derivation t -> root t <> 0.
Proof.
  destruct t as [c v | k ts]; cbn [derivation root]; [pose proof (kind_range c); lia |]. intros (H & _). pose proof (lhs_range k H). lia.
Qed.
Lemma inv_final st vs w b : inv (YYFINAL :: st) vs w b -> False.
Proof.
  intros H. inversion H as [| p sts vs' w' q t b' _ Hd _ (_ & He & _)]; subst.
  destruct start_facts as (_ & _ & _ & _ & _ & Hi & _). apply edge_facts in He. destruct He as (_ & _ & He).
  destruct (He _ _ Hi) as (_ & j & Ej & Es & _). injection Ej as <-. unfold symbol_at in Es. cbn in Es.
  exact (root_pos t Hd (eq_sym Es)).
Qed.
Lemma yields_tapp a b : yields (tapp a b) = yields a ++ yields b.
Proof. induction a; cbn; [reflexivity |]. now rewrite IHa, app_assoc. Qed.
Lemma roots_tapp a b : roots (tapp a b) = roots a ++ roots b.
Proof. induction a; cbn; [reflexivity |]. now rewrite IHa. Qed.
Lemma derivations_tapp a b : derivations (tapp a b) <-> derivations a /\ derivations b.
Proof. induction a; cbn; [tauto |]. rewrite IHa. tauto. Qed.
Lemma goodl_snoc ts : forall p b q t q', goodl ts p (first_of (yield t) b) q -> goodt t q b -> next q (root t) q' ->
  goodl (tapp ts (Cons t Nil)) p b q'.
Proof.
  induction ts as [| u ts IH]; intros p b q t q' H Ht Hn; cbn [goodl tapp] in *.
  - subst q. split; [exact Ht |]. exists q'. auto.
  - destruct H as (Hu & q1 & Hn1 & Hg). split; [| exists q1; split; [exact Hn1 | eapply IH; eassumption]].
    rewrite yields_tapp, first_of_app. cbn [yields]. rewrite app_nil_r. exact Hu.
Qed.
Lemma firstn_snoc (xs : list Z) : forall n x, nth n xs (-1) = x -> (n < length xs)%nat -> firstn (S n) xs = firstn n xs ++ [x].
Proof.
  induction xs as [| y xs IH]; intros n x H Hn; cbn in Hn; [lia |]. destruct n as [| n]; cbn in *; [congruence |].
  f_equal. apply IH; [exact H | lia].
Qed.
Lemma back n : forall k q sts vs w b, inv (q :: sts) vs w b -> 2 <= k <= 288 -> In (k, S n) (items q) -> (n < length (rhs k))%nat ->
  exists ts p sts0 w0, (forall acc, take_values (S n) vs acc = Some (tapp ts acc)) /\ skipn (S n) (q :: sts) = p :: sts0 /\
    roots ts = firstn (S n) (rhs k) /\ derivations ts /\ goodl ts p b q /\
    inv (p :: sts0) (skipn (S n) vs) w0 (first_of (yields ts) b) /\ w = w0 ++ yields ts /\ want p (lhs k) <> None.
Proof.
  induction n as [| n IH]; intros k q sts vs w b H Hk Hi Hn.
  - inversion H as [b' | p sts' vs' w' q' t b' Hinv Hd Hg He]; subst.
    { exfalso. revert Hi. assert (items 0 = []) as -> by (vm_compute; reflexivity). intros []. }
    destruct He as (Hp & Hec & Hnx). apply edge_facts in Hec. destruct Hec as (_ & _ & Hec).
    destruct (Hec _ _ Hi) as (_ & j & Ej & Es & Hj). injection Ej as <-. rewrite symbol_at_eq in Es by lia.
    destruct (Z.eqb_spec k 1); [lia |].
    exists (Cons t Nil), p, sts', w'. cbn [take_values tapp roots derivations goodl yields skipn]. rewrite app_nil_r.
    split; [now intros [] || reflexivity |]. split; [reflexivity |]. split; [rewrite (firstn_snoc _ _ _ Es Hn); reflexivity |].
    split; [auto |]. split; [split; [exact Hg | exists q; auto] |]. split; [exact Hinv |]. split; [reflexivity | exact Hj].
  - inversion H as [b' | p sts' vs' w' q' t b' Hinv Hd Hg He]; subst.
    { exfalso. revert Hi. assert (items 0 = []) as -> by (vm_compute; reflexivity). intros []. }
    destruct He as (Hp & Hec & Hnx). apply edge_facts in Hec. destruct Hec as (_ & _ & Hec).
    destruct (Hec _ _ Hi) as (_ & j & Ej & Es & Hj). injection Ej as <-. rewrite symbol_at_eq in Es by lia.
    destruct (IH k p sts' vs' w' _ Hinv Hk Hj ltac:(lia)) as (ts & p0 & sts0 & w0 & T1 & T2 & T3 & T4 & T5 & T6 & T7 & T8).
    exists (tapp ts (Cons t Nil)), p0, sts0, w0.
    split; [intros acc; change (take_values (S (S n)) (t :: vs') acc) with (take_values (S n) vs' (Cons t acc)); rewrite T1, tapp_assoc; reflexivity |].
    split; [exact T2 |].
    split; [rewrite roots_tapp, T3, (firstn_snoc _ (S n) _ Es Hn); reflexivity |].
    split; [apply derivations_tapp; cbn; auto |]. split; [eapply goodl_snoc; eassumption |].
    rewrite yields_tapp, first_of_app. cbn [yields]. rewrite app_nil_r. split; [exact T6 |].
    split; [rewrite T7, app_assoc; reflexivity | exact T8].
Qed.

(** One step of the parser from stacks with the invariant. *)
Lemma recover_error st : Forall (fun s => 0 <= s < 558) st -> recover st = Syntax_error.
Proof.
  induction 1 as [| s st Hs _ IH]; [reflexivity |]. cbn [recover]. unfold shifts_error.
  pose proof (action_facts s 1 Hs ltac:(lia)) as F. change YYTERROR with 1. destruct (action s 1); try exact IH.
  destruct F as (_ & F & _). lia.
Qed.
Fixpoint size (t : tree) : nat := match t with Leaf _ _ => 1%nat | Node _ ts => S (sizes ts) end
with sizes (ts : trees) : nat := match ts with Nil => O | Cons t ts => (size t + sizes ts)%nat end.
Fixpoint total (vs : list tree) : nat := match vs with [] => O | t :: vs => (size t + total vs)%nat end.
Lemma sizes_tapp a b : sizes (tapp a b) = (sizes a + sizes b)%nat.
Proof. induction a; cbn; [reflexivity |]. rewrite IHa. lia. Qed.
Lemma take_total n : forall vs acc ts, take_values n vs acc = Some ts -> (sizes ts + total (skipn n vs) = sizes acc + total vs)%nat.
Proof.
  induction n as [| n IH]; intros vs acc ts H; cbn in H; [destruct vs; injection H as <-; cbn; lia |].
  destruct vs as [| t vs]; [discriminate |]. apply IH in H. cbn [skipn total]. cbn [sizes] in H. lia.
Qed.
Definition accepts (w : list (Z * nat)) (t : tree) : Prop :=
  derivation t /\ root t = start /\ yield t = w /\ fits 0 false t 0.
Lemma step D fuel st vs w inp : inv st vs w (first_of inp 0) -> posw inp ->
  (exists st' vs' w' inp', inv st' vs' w' (first_of inp' 0) /\ posw inp' /\ w' ++ inp' = w ++ inp /\ total vs' = S (total vs) /\ zlen st' <= D /\
      parse_loop D (S fuel) st vs inp = parse_loop D fuel st' vs' inp') \/
  parse_loop D (S fuel) st vs inp = Exhausted \/ parse_loop D (S fuel) st vs inp = Syntax_error \/
  (exists t, accepts (w ++ inp) t /\ zlen st < D /\
     parse_loop D (S fuel) st vs inp = match fuel with O => Fuel | S _ => if D <=? zlen st + 1 then Exhausted else Accept t end).
Proof.
  intros Hinv Hp. destruct st as [| s st]; [inversion Hinv |].
  pose proof (inv_states _ _ _ _ Hinv) as Hst. assert (Hs : 0 <= s < 558) by (inversion Hst; assumption).
  pose proof (first_of_range inp 0 ltac:(lia)) as Hb. pose proof (action_facts s _ Hs Hb) as Hf.
  destruct (Z.leb_spec D (zlen (s :: st))) as [Hd | Hd]; [right; left; now apply step_exhausted |].
  destruct (Z.eqb_spec s YYFINAL) as [e | e]; [exfalso; subst s; exact (inv_final _ _ _ _ Hinv) |].
  destruct (action s (first_of inp 0)) as [q | k | |] eqn:Ea.
  - destruct inp as [| [c v] inp].
    + right. right. right. cbn [first_of] in *. destruct Hf as (_ & _ & _ & Hf). specialize (Hf eq_refl). subst q.
      pose proof (shift_edge s 0 YYFINAL Hs ltac:(lia) Ea) as He. apply edge_facts in He. destruct He as (_ & _ & He).
      destruct start_facts as (L & q0 & Hw & Hm & Hsh & Hi & Hend & Hst0).
      destruct (He _ _ Hi) as (_ & j & Ej & Es & Hj). injection Ej as <-.
      inversion Hinv as [b' | p sts' vs' w' q' t b' Hinv' Hdt Hg Hedge]; subst.
      { exfalso. revert Hj. assert (items 0 = []) as -> by (vm_compute; reflexivity). intros []. }
      destruct Hedge as (Hp0 & Hec & Hnx). apply edge_facts in Hec. destruct Hec as (_ & _ & Hec).
      destruct (Hec _ _ Hj) as (_ & j' & Ej' & Es' & Hj'). injection Ej' as <-. change (p = 0) in Hj'. subst p.
      change (symbol_at 1 0) with start in Es'.
      destruct (inv_zero _ _ _ _ Hinv') as (-> & -> & ->).
      exists t. split.
      * split; [exact Hdt |]. split; [now symmetry |]. split; [now rewrite app_nil_r |].
        eapply (proj1 good_fits); [exact Hdt | lia | exact Hg | rewrite <- Es'; lia | rewrite <- Es'; exact Hw].
      * split; [exact Hd |]. rewrite (step_end _ _ _ _ _ YYFINAL Hd Ea). destruct fuel; [reflexivity |].
        rewrite step_accept. rewrite (zlen_cons YYFINAL). rewrite (Z.add_comm 1). reflexivity.
    + left. cbn [first_of] in *. exists (q :: s :: st), (Leaf c v :: vs), (w ++ [(c, v)]), inp. inversion Hp as [| ? ? Hc Hp']; subst. cbn [fst] in Hc.
      split; [| split; [exact Hp' | split; [now rewrite <- app_assoc | split; [reflexivity | split; [rewrite (zlen_cons q); lia | now apply step_shift]]]]].
      apply (inv1 s st vs w q (Leaf c v)); [exact Hinv | exact I | exists q; exact Ea |].
      split; [exact Hs |]. cbn [root]. split; [apply shift_edge; assumption |]. unfold next. destruct (Z.ltb_spec (kind c) 137); [exact Ea | lia].
  - destruct (Z.eqb_spec s YYFINAL); [contradiction |]. destruct Hf as (Hr & Hf). pose proof (rule_range k Hr) as Hk.
    assert (B : exists ts p sts0 w0, take_values (length (rhs k)) vs Nil = Some ts /\ skipn (length (rhs k)) (s :: st) = p :: sts0 /\
      roots ts = rhs k /\ derivations ts /\ goodl ts p (first_of inp 0) s /\
      inv (p :: sts0) (skipn (length (rhs k)) vs) w0 (first_of (yields ts) (first_of inp 0)) /\ w = w0 ++ yields ts /\ want p (lhs k) <> None).
    { destruct (rhs k) as [| x xs] eqn:Ex.
      - exists Nil, s, st, w. cbn. rewrite app_nil_r. repeat (split; [now destruct vs || reflexivity || assumption |]). exact Hf.
      - rewrite <- Ex in *. assert (El : length (rhs k) = S (length xs)) by (rewrite Ex; reflexivity). rewrite El in *.
        destruct (back (length xs) k s st vs w _ Hinv Hk Hf ltac:(lia)) as (ts & p & sts0 & w0 & T1 & T2 & T3 & T4 & T5 & T6 & T7 & T8).
        exists ts, p, sts0, w0. rewrite T1, tapp_nil. rewrite <- El, firstn_all in T3. auto 10. }
    destruct B as (ts & p & sts0 & w0 & T1 & T2 & T3 & T4 & T5 & T6 & T7 & T8).
    destruct (want p (lhs k)) as [[[[l m] L] q'] |] eqn:Ew; [| congruence].
    destruct (want_facts _ _ _ _ _ _ Ew) as (_ & _ & _ & Hg & _).
    left. exists (q' :: p :: sts0), (Node k ts :: skipn (length (rhs k)) vs), w, inp.
    split; [| split; [exact Hp | split; [reflexivity | split; [| split]]]].
    + rewrite T7. apply (inv1 p sts0 _ w0 q' (Node k ts)); [exact T6 | cbn; auto | | exact (want_edge _ _ _ _ _ _ Ew)].
      exists s, q'. auto.
    + apply take_total in T1. cbn [sizes] in T1. cbn [total size]. lia.
    + assert (Q := f_equal (@length Z) T2). rewrite skipn_length in Q. unfold zlen in *. cbn [length] in *. lia.
    + eapply step_reduce; eauto.
  - right. right. left. cbn [parse_loop]. destruct (Z.leb_spec D (zlen (s :: st))); [lia |].
    destruct (Z.eqb_spec s YYFINAL); [contradiction |]. pose proof (lookahead inp Hp) as HL. destruct (hd (0, O) inp) as [c v]. cbn [fst] in HL.
    rewrite HL, Ea. now apply recover_error.
  - destruct Hf.
Qed.

Lemma sound D fuel : forall st vs w inp, inv st vs w (first_of inp 0) -> posw inp ->
  match parse_loop D fuel st vs inp with
  | Accept t => accepts (w ++ inp) t
  | UB | Recovers => False
  | _ => True
  end.
Proof.
  induction fuel as [| fuel IH]; intros st vs w inp H Hp; [exact I |].
  destruct (step D fuel st vs w inp H Hp) as [(st' & vs' & w' & inp' & H1 & H2 & H3 & _ & _ & ->) | [-> | [-> | (t & Ht & _ & ->)]]]; try exact I.
  - rewrite <- H3. now apply IH.
  - destruct fuel; [exact I |]. destruct (D <=? zlen st + 1); [exact I | exact Ht].
Qed.

(** ** More steps do not change a result *)
Lemma fuel_mono D fuel : forall st vs inp m, parse_loop D fuel st vs inp <> Fuel -> parse_loop D (fuel + m) st vs inp = parse_loop D fuel st vs inp.
Proof.
  induction fuel as [| fuel IH]; intros st vs inp m H; [now elim H |]. cbn [plus parse_loop] in *.
  destruct (D <=? zlen st); [reflexivity |]. destruct st as [| s st]; [reflexivity |]. destruct (s =? YYFINAL); [reflexivity |].
  destruct (hd (0, O) inp) as [c v]. destruct (translate c) as [t |]; [| reflexivity].
  destruct (action s t) as [q | k | |]; try reflexivity; [now apply IH |].
  destruct (znth yyr1 k) as [a |]; [| reflexivity]. destruct (znth yyr2 k) as [n |]; [| reflexivity].
  destruct (take_values (Z.to_nat n) vs Nil) as [ts |]; [| reflexivity]. destruct (zdrop n (s :: st)) as [| p sts]; [reflexivity |].
  destruct (goto p a) as [q |]; [| reflexivity]. now apply IH.
Qed.
Lemma fuel_det D f1 f2 st vs inp : parse_loop D f1 st vs inp <> Fuel -> parse_loop D f2 st vs inp <> Fuel ->
  parse_loop D f1 st vs inp = parse_loop D f2 st vs inp.
Proof.
  intros H1 H2. rewrite <- (fuel_mono D f1 st vs inp f2 H1), <- (fuel_mono D f2 st vs inp f1 H2). f_equal. lia.
Qed.

(** ** Readings are found *)
Lemma complete D w t : posw w -> accepts w t -> 3 < D ->
  exists fuel, parse_loop D fuel [0] [] w = if 1 + Z.of_nat (need t) <? D then Accept t else Exhausted.
Proof.
  intros Hp (Hd & Hr & Hy & Hf) HD. destruct start_facts as (L & q & Hw & Hm & Hs & _ & _ & H0).
  assert (Hg : goodt t 0 0).
  { apply (proj1 fits_good); [exact Hd | lia | lia |]. intros _. exists 0%nat, false, L, q. rewrite Hr. auto. }
  pose proof (proj1 (run D) t 0 [] [] [] Hg Hd ltac:(rewrite Hy; exact Hp) ltac:(constructor) ltac:(change (zlen [0]) with 1; lia)) as R.
  change (zlen [0]) with 1 in R. rewrite app_nil_r, Hy in R. destruct (1 + Z.of_nat (need t) <? D).
  - destruct R as (n & q' & Hn & R). exists (n + 2)%nat. rewrite R. rewrite Hr in Hn.
    destruct (want_facts _ _ _ _ _ _ Hw) as (_ & _ & _ & Hg2 & _). unfold next in Hn. destruct (Z.ltb_spec start 137); [lia |].
    rewrite Hg2 in Hn. injection Hn as <-.
    rewrite (step_end D 1 q [0] [t] YYFINAL); [| change (zlen [q; 0]) with 2; lia | exact Hs].
    rewrite step_accept. change (zlen [YYFINAL; q; 0]) with 3. destruct (Z.leb_spec D 3); [lia | reflexivity].
  - destruct R as (n & R). exists (n + 0)%nat. apply R.
Qed.
Lemma unique w t t' : posw w -> accepts w t -> accepts w t' -> t = t'.
Proof.
  intros Hp H H'. set (D := 4 + Z.of_nat (need t) + Z.of_nat (need t')).
  destruct (complete D w t Hp H ltac:(lia)) as (f & E1). destruct (complete D w t' Hp H' ltac:(lia)) as (f' & E2).
  destruct (Z.ltb_spec (1 + Z.of_nat (need t)) D); [| lia]. destruct (Z.ltb_spec (1 + Z.of_nat (need t')) D); [| lia].
  assert (E := fuel_det D f f' [0] [] w). rewrite E1, E2 in E. specialize (E ltac:(discriminate) ltac:(discriminate)). now injection E.
Qed.

(** ** The parser comes to an end: a tree is not too large for its tokens *)
Fixpoint lev (g r : nat) : nat := match r with O => 1%nat | S r => (1 + 11 * (lev g r + g))%nat end.
Fixpoint bnd (n : nat) : nat := lev (match n with O => O | S n => bnd n end) 5.
Definition low (n : nat) : nat := match n with O => O | S n => bnd n end.
Lemma bnd_eq n : bnd n = lev (low n) 5.
Proof. destruct n; reflexivity. Qed.
Lemma lev_mono g g' r r' : (g <= g')%nat -> (r <= r')%nat -> (lev g r <= lev g' r')%nat.
Proof.
  intros Hg Hr. revert r' Hr. induction r as [| r IH]; intros r' Hr.
  - clear. induction r'; cbn [lev]; lia.
  - destruct r' as [| r']; [lia |]. specialize (IH r' ltac:(lia)). cbn [lev]. lia.
Qed.
Lemma low_mono n : (low n <= low (S n))%nat.
Proof.
  induction n as [| n IH]; [cbn [low]; lia |]. cbn [low]. rewrite (bnd_eq n), (bnd_eq (S n)). apply lev_mono; [exact IH | lia].
Qed.
Lemma bnd_mono n n' : (n <= n')%nat -> (bnd n <= bnd n')%nat.
Proof. induction 1 as [| n' _ IH]; [lia |]. pose proof (low_mono (S n')) as Q. cbn [low] in Q. lia. Qed.
Lemma roots_list ts : roots ts = map root (tlist ts).
Proof. induction ts; cbn; congruence. Qed.
Lemma yields_list ts : yields ts = flat_map yield (tlist ts).
Proof. induction ts; cbn; congruence. Qed.
Lemma derivations_list ts : derivations ts <-> Forall derivation (tlist ts).
Proof. induction ts as [| t ts IH]; cbn; [split; constructor |]. rewrite IH. split; [intros (? & ?); now constructor | intros H; inversion H; auto]. Qed.
Lemma sizes_list ts : sizes ts = total (tlist ts).
Proof. induction ts; cbn; congruence. Qed.
Lemma total_bound l B : Forall (fun t => (size t <= B)%nat) l -> (total l <= length l * B)%nat.
Proof. induction 1; cbn [total length]; lia. Qed.
Lemma empty_nullable l : Forall derivation l -> length (flat_map yield l) = O -> forallb nullable (map root l) = true.
Proof.
  induction 1 as [| t l Ht _ IH]; [reflexivity |]. cbn. rewrite app_length. intros H.
  rewrite IH by lia. pose proof (proj1 first_sets t Ht) as F. destruct (yield t); [| cbn in H; lia]. now rewrite F.
Qed.
Lemma rank_root t : derivation t -> (rank (root t) <= 5)%nat.
Proof.
  destruct t as [c v | k ts]; cbn [root].
  - intros _. unfold rank. pose proof (kind_range c). destruct (Z.ltb_spec (kind c) 137); lia.
  - intros (Hr & _). now apply ranks_facts.
Qed.
Lemma size_bound n : forall z t, (size t <= z)%nat -> derivation t -> (length (yield t) <= n)%nat ->
  (size t <= lev (low n) (rank (root t)))%nat.
Proof.
  induction n as [n IHn] using lt_wf_ind. induction z as [| z IHz]; intros t Hz Hd Hy.
  { destruct t; cbn in Hz; lia. }
  destruct t as [c v | k ts].
  - cbn [size]. destruct (rank _); cbn [lev]; lia.
  - destruct Hd as (Hr & He & Hds). cbn [size root yield] in *. destruct (ranks_facts k Hr) as (R1 & R2 & R3).
    rewrite sizes_list in *. rewrite roots_list in He. rewrite yields_list in Hy. apply derivations_list in Hds.
    assert (Hlen : (length (tlist ts) <= 11)%nat) by (rewrite <- (map_length root), He; exact R1).
    destruct (rank (lhs k)) as [| r] eqn:Ek; [lia |]. cbn [lev].
    assert (HB : Forall (fun t => (size t <= lev (low n) r + low n)%nat) (tlist ts)).
    { apply Forall_forall. intros t Ht. apply in_split in Ht. destruct Ht as (l1 & l2 & El). rewrite El in *.
      assert (Hdt : derivation t) by (rewrite Forall_forall in Hds; apply Hds; apply in_or_app; right; left; reflexivity).
      assert (Hzt : (size t <= z)%nat).
      { clear - Hz. assert (forall a b, total (a ++ b) = (total a + total b)%nat) as TA by (induction a; intros; cbn; [reflexivity | rewrite IHa; lia]).
        rewrite TA in Hz. cbn [total] in Hz. lia. }
      rewrite flat_map_app in Hy. cbn [flat_map] in Hy. rewrite !app_length in Hy.
      destruct (Nat.eq_dec (length (flat_map yield l1) + length (flat_map yield l2)) 0) as [Z0 | Z0].
      - apply Forall_app in Hds. destruct Hds as (D1 & D2). inversion D2; subst.
        rewrite map_app in He. cbn [map] in He.
        specialize (R3 _ _ _ (eq_sym He) (empty_nullable l1 D1 ltac:(lia)) (empty_nullable l2 ltac:(assumption) ltac:(lia))).
        specialize (IHz t Hzt Hdt ltac:(lia)).
        pose proof (lev_mono (low n) (low n) (rank (root t)) r ltac:(lia) ltac:(lia)). lia.
      - destruct n as [| n]; [lia |]. specialize (IHn n ltac:(lia) (size t) t ltac:(lia) Hdt ltac:(lia)).
        pose proof (lev_mono (low n) (low n) (rank (root t)) 5 ltac:(lia) (rank_root t Hdt)) as M. rewrite <- bnd_eq in M.
        change (low (S n)) with (bnd n). lia. }
    apply total_bound in HB. nia.
Qed.
Lemma tree_bound t : derivation t -> (size t <= bnd (length (yield t)))%nat.
Proof.
  intros H. rewrite bnd_eq. etransitivity; [apply (size_bound (length (yield t)) (size t) t); auto |].
  apply lev_mono; [lia | now apply rank_root].
Qed.
Lemma inv_total st vs w b : inv st vs w b -> zlen st = 1 + zlen vs /\ (total vs <= length vs * bnd (length w))%nat.
Proof.
  intros H. induction H as [b | p sts vs w q t b _ (IH1 & IH2) Hd _ _]; [split; [reflexivity | cbn; lia] |].
  split; [rewrite !zlen_cons in *; lia |]. cbn [total length]. pose proof (tree_bound t Hd).
  rewrite app_length. pose proof (bnd_mono (length w) (length w + length (yield t)) ltac:(lia)).
  pose proof (bnd_mono (length (yield t)) (length w + length (yield t)) ltac:(lia)). nia.
Qed.
Lemma ends D n fuel : forall st vs w inp, inv st vs w (first_of inp 0) -> posw inp -> length (w ++ inp) = n -> zlen st <= D ->
  (Z.to_nat D * bnd n + 2 <= fuel + total vs)%nat -> parse_loop D fuel st vs inp <> Fuel.
Proof.
  induction fuel as [| fuel IH]; intros st vs w inp H Hp Hn HD Hf;
    destruct (inv_total _ _ _ _ H) as (H1 & H2); pose proof (bnd_mono (length w) n ltac:(rewrite <- Hn, app_length; lia)) as HB;
    assert (HV : (length vs <= Z.to_nat D)%nat) by (unfold zlen in *; lia).
  { exfalso. nia. }
  destruct (step D fuel st vs w inp H Hp) as [(st' & vs' & w' & inp' & S1 & S2 & S3 & S4 & S5 & ->) | [-> | [-> | (t & Ht & _ & ->)]]]; try discriminate.
  - apply (IH st' vs' w' inp'); [exact S1 | exact S2 | rewrite S3; exact Hn | exact S5 | lia].
  - destruct fuel; [exfalso; nia |]. destruct (D <=? zlen st + 1); discriminate.
Qed.
Lemma parse_ends D w : posw w -> 1 <= D -> exists fuel, parse_loop D fuel [0] [] w <> Fuel.
Proof.
  intros Hp HD. exists (Z.to_nat D * bnd (length w) + 2)%nat. apply (ends D (length w) _ [0] [] [] w); [constructor | exact Hp | reflexivity | exact HD |].
  cbn [total]. lia.
Qed.

(** ** Precedence in a reading *)
Inductive subtree : tree -> tree -> Prop :=
| sub_refl t : subtree t t
| sub_child u k ts t : In t (tlist ts) -> subtree u t -> subtree u (Node k ts).
Lemma all_fit_in ts : forall k a m i b t, all_fit k a m i ts b -> In t (tlist ts) -> exists a' m' b', fits a' m' t b'.
Proof.
  induction ts as [| t0 ts IH]; intros k a m i b t H Ht; [destruct Ht |]. cbn [all_fit tlist] in *. destruct H as (H1 & H2).
  destruct Ht as [-> | Ht]; [eauto | eapply IH; eassumption].
Qed.
Lemma subtree_fits u t : subtree u t -> forall a m b, fits a m t b -> exists a' m' b', fits a' m' u b'.
Proof.
  induction 1 as [t | u k ts t Hin _ IH]; intros a m b H; [eauto |]. cbn [fits] in H. destruct H as (_ & H).
  destruct (all_fit_in _ _ _ _ _ _ _ H Hin) as (a' & m' & b' & H'). eapply IH; exact H'.
Qed.
(** [u] is [t] without the rules for one operand. *)
Inductive chain : tree -> tree -> Prop :=
| chain_refl t : chain t t
| chain_step k t u : operand (lhs k) = true -> operand (root t) = true -> chain t u -> chain (Node k (Cons t Nil)) u.
Lemma chain_fits t u : chain t u -> forall a m b, fits a m t b -> exists m', fits a m' u b.
Proof.
  induction 1 as [t | k t u Hl Hr _ IH]; intros a m b H; [eauto |]. cbn [fits all_fit first_of yields] in H. destruct H as (_ & H & _).
  apply (IH a (mark k 0 (root t) m) b). unfold child_level in H. rewrite Hl, Hr in H. exact H.
Qed.
Lemma operand_operator : operand operator = true.
Proof. vm_compute. reflexivity. Qed.
Lemma right_fits ts : forall k a m i b c, all_fit k a m i ts b -> ts <> Nil -> last (tlist ts) c = c -> In c (tlist ts) -> root c = operator ->
  operand (lhs k) = true -> (1 <= i + pred (tlen ts))%nat -> (i + tlen ts = length (rhs k))%nat ->
  exists m', fits (demands_right k) m' (last (tlist ts) c) b.
Proof.
  induction ts as [| t ts IH]; intros k a m i b c H Hn Hl Hin Hc Ho Hi Hlen; [congruence |].
  cbn [all_fit] in H. destruct H as (H1 & H2). destruct ts as [| t' ts].
  - cbn [tlist last] in *. subst t. cbn [yields first_of tlen pred] in *.
    exists (mark k i (root c) m). unfold child_level in H1. rewrite Hc, Ho, operand_operator in H1. cbn [andb] in H1.
    destruct i as [| i]; [lia |]. replace (Nat.eqb (S (S i)) (length (rhs k))) with true in H1 by (symmetry; apply Nat.eqb_eq; lia).
    rewrite Z.eqb_refl in H1. rewrite Hc. exact H1.
  - cbn [tlist tlen pred] in *. destruct (IH k a m (S i) b c H2 ltac:(discriminate)) as (m' & F); try assumption; try lia.
    + destruct Hin as [-> | Hin]; [| exact Hin]. change (last (c :: t' :: tlist ts) c) with (last (t' :: tlist ts) c) in Hl. rewrite <- Hl.
      destruct (exists_last (l := t' :: tlist ts) ltac:(discriminate)) as (l' & x & E1). rewrite E1, last_last. apply in_or_app. right. left. reflexivity.
    + exists m'. exact F.
Qed.
Lemma right_level w t k ts c k' ts' n : accepts w t -> subtree (Node k ts) t -> open_right k <> None ->
  (exists us, tlist ts = us ++ [c]) -> root c = operator -> chain c (Node k' ts') -> open_left k' = Some n -> (demands_right k <= n)%nat.
Proof.
  intros (Hd & _ & _ & Hf) Hs Ho (us & Hus) Hrc Hch Hol.
  assert (HdS : forall u v, subtree u v -> derivation v -> derivation u).
  { clear. intros u v H. induction H as [| u k ts t Hin _ IH]; [auto |]. intros (_ & _ & Hd). apply IH.
    apply derivations_list in Hd. rewrite Forall_forall in Hd. auto. }
  pose proof (HdS _ _ Hs Hd) as (Hr & He & _).
  destruct (subtree_fits _ _ Hs _ _ _ Hf) as (a' & m' & b' & (_ & Haf)).
  unfold open_right in Ho. destruct (rhs k) as [| x [| y r]] eqn:Ex; try congruence.
  destruct (operand (lhs k)) eqn:El; [| cbn in Ho; congruence].
  assert (Hln : length (rhs k) = tlen ts) by (rewrite Ex, <- He; apply roots_length).
  rewrite <- Ex in He. assert (H2 : (2 <= tlen ts)%nat) by (rewrite <- Hln, Ex; cbn; lia).
  destruct (right_fits ts k a' m' 0 b' c Haf) as (m2 & F); try assumption.
  - destruct ts; cbn in H2; [lia | discriminate].
  - rewrite Hus. apply last_last.
  - rewrite Hus. apply in_or_app. right. left. reflexivity.
  - lia.
  - cbn. lia.
  - rewrite Hus, last_last in F. destruct (chain_fits _ _ Hch _ _ _ F) as (m3 & (F3 & _)). rewrite node_fits_eq in F3.
    apply andb_true_iff in F3. destruct F3 as (F3 & _). rewrite Hol in F3. cbn [leq] in F3. now apply Nat.leb_le.
Qed.
Lemma left_level w t k o v c ts k' ts' n : accepts w t -> subtree (Node k (Cons c (Cons (Leaf o v) ts))) t ->
  chain c (Node k' ts') -> open_right k' = Some n -> (demands_left (kind o) <= n)%nat.
Proof.
  intros (_ & _ & _ & Hf) Hs Hch Hor. destruct (subtree_fits _ _ Hs _ _ _ Hf) as (a' & m' & b' & (_ & Haf & _)).
  cbn [yields yield app first_of] in Haf. destruct (chain_fits _ _ Hch _ _ _ Haf) as (m3 & (F3 & _)). rewrite node_fits_eq in F3.
  apply andb_true_iff in F3. destruct F3 as (_ & F3). unfold end_fits in F3. rewrite Hor in F3. cbn [leq] in F3.
  apply andb_true_iff in F3. destruct F3 as (F3 & _). apply andb_true_iff in F3. destruct F3 as (F3 & _). now apply Nat.leb_le.
Qed.
