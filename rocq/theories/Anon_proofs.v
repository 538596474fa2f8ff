(** * Proofs about anonymous methods *)
From Coq Require Import Lia.
From Verif Require Import Base CLib Dec Anon_model Anon_spec.
Local Open Scope Z_scope.

(** Names and environments. *)
Lemma name_eqb_spec a b : name_eqb a b = true <-> a = b.
Proof.
  destruct a as [x | m], b as [y | n]; cbn; try (split; discriminate).
  - destruct (list_eq_dec Z.eq_dec x y); split; congruence.
  - rewrite Nat.eqb_eq. split; congruence.
Qed.
Lemma name_eqb_refl a : name_eqb a a = true.
Proof. now apply name_eqb_spec. Qed.
Lemma get_user e x : get (user e) (User x) = get e (User x).
Proof.
  induction e as [| [[y | m] v] e IH]; cbn; auto. destruct (list_eq_dec Z.eq_dec y x); auto.
Qed.
Lemma user_set e x v : user (set e (User x) v) = set (user e) (User x) v.
Proof.
  induction e as [| [[y | m] w] e IH]; cbn; [reflexivity | | exact IH]. destruct (list_eq_dec Z.eq_dec y x); cbn; [reflexivity |]. f_equal. exact IH.
Qed.
Lemma get_set_tmp e x v m : get (set e (User x) v) (Tmp m) = get e (Tmp m).
Proof.
  induction e as [| [[y | k] w] e IH]; cbn; auto.
  - destruct (list_eq_dec Z.eq_dec y x); cbn; auto.
  - destruct (Nat.eqb k m); auto.
Qed.

(** Induction over expressions with the operands of fields. *)
Section Expr_ind.
  Variable P : expr -> Prop.
  Hypothesis HC : forall v, P (EConst v).
  Hypothesis HV : forall x, P (EVar x).
  Hypothesis HM : forall x e, P e -> P (EMy x e).
  Hypothesis HA : forall x e, P e -> P (EAssign x e).
  Hypothesis HL : forall f a b, P a -> P b -> P (ECall f a b).
  Definition on_operand (fo : list Z * option expr) : Prop := match snd fo with Some e => P e | None => True end.
  Hypothesis HN : forall c g l, Forall on_operand l -> P (EAnon c g l).
  Fixpoint expr_ind' (e : expr) : P e :=
    match e with
    | EConst v => HC v | EVar x => HV x | EMy x e => HM x e (expr_ind' e) | EAssign x e => HA x e (expr_ind' e)
    | ECall f a b => HL f a b (expr_ind' a) (expr_ind' b)
    | EAnon c g l => HN c g l ((fix go (l : list (list Z * option expr)) : Forall on_operand l :=
        match l with
        | [] => Forall_nil on_operand
        | fo :: l => Forall_cons fo (match fo return on_operand fo with (f, Some e) => expr_ind' e | (f, None) => I end) (go l)
        end) l)
    end.
End Expr_ind.

(** The operands of the fields, and sequences. *)
Fixpoint operands (l : list (list Z * option expr)) (n : nat) : list (list Z * core) * nat :=
  match l with
  | [] => ([], n)
  | (f, None) :: l => operands l n
  | (f, Some e) :: l => let (c, n) := build e n in let (r, n) := operands l n in ((f, c) :: r, n)
  end.
Fixpoint sequence (l : list core) (v : val) (e : env) (h : heap) : outcome (val * env * heap) :=
  match l with
  | [] => Ret (v, e, h)
  | c :: l => let! (v, e, h) := eval c e h in sequence l v e h
  end.
Lemma build_anon class gap l n : build (EAnon class gap l) n =
  let (ops, n) := operands l n in
  let n := (n + gap)%nat in
  match l with
  | [] => (CNew class [], n)
  | _ => (CSequence (CMy (Tmp n) (CNew class (map fst l)) :: map (fun fc => CSetField (Tmp n) (fst fc) (snd fc)) ops ++ [CVar (Tmp n)]), S n)
  end.
Proof. reflexivity. Qed.
Lemma eval_sequence l e h : eval (CSequence l) e h = sequence l VUndef e h.
Proof. reflexivity. Qed.
Lemma sequence_cons c l v e h : sequence (c :: l) v e h = let! (v, e, h) := eval c e h in sequence l v e h.
Proof. reflexivity. Qed.
Lemma eval_set_field x f c e h : eval (CSetField x f c) e h =
  let! (v, e, h) := eval c e h in
  match get e x with Some (VRef r) => Ret (v, e, set_object h r f v) | Some VUndef => Die "The invocant must be defined." | _ => UB end.
Proof. reflexivity. Qed.

Lemma build_le e : forall n, (n <= snd (build e n))%nat.
Proof.
  induction e as [v | x | x e IH | x e IH | f a b IHa IHb | c g l F] using expr_ind'; intros n; cbn [build]; cbn [snd]; try lia.
  - specialize (IH n). destruct (build e n). exact IH.
  - specialize (IH n). destruct (build e n). exact IH.
  - specialize (IHa n). destruct (build a n) as [c1 n1]. specialize (IHb n1). destruct (build b n1). cbn [snd] in *. lia.
  - change (n <= snd (build (EAnon c g l) n))%nat. rewrite build_anon.
    assert (L : forall n, (n <= snd (operands l n))%nat).
    { clear n. induction F as [| [f [e |]] l H F IH]; intros n; cbn [operands snd]; auto.
      unfold on_operand in H. cbn [snd] in H. specialize (H n). destruct (build e n) as [c1 n1]. specialize (IH n1). destruct (operands l n1). cbn [snd] in *. lia. }
    specialize (L n). destruct (operands l n) as [ops n1]. cbn [snd] in L. destruct l; cbn [snd]; lia.
Qed.
Lemma operands_le l : forall n, (n <= snd (operands l n))%nat.
Proof.
  induction l as [| [f [e |]] l IH]; intros n; cbn [operands snd]; auto.
  pose proof (build_le e n) as H. destruct (build e n) as [c1 n1]. specialize (IH n1). destruct (operands l n1). cbn [snd] in *. lia.
Qed.

(** Temporaries outside the numbers used by the expression keep their values. *)
Definition keeps (n n' : nat) (e e' : env) : Prop := forall m, (m < n \/ n' <= m)%nat -> get e' (Tmp m) = get e (Tmp m).
Lemma keeps_trans n n1 n2 e e1 e2 : (n <= n1)%nat -> (n1 <= n2)%nat -> keeps n n1 e e1 -> keeps n1 n2 e1 e2 -> keeps n n2 e e2.
Proof. intros L1 L2 H1 H2 m M. rewrite H2, H1; auto; lia. Qed.
Lemma keeps_refl n n' e : keeps n n' e e.
Proof. intros m _. reflexivity. Qed.

(** The sequence of stores into the temporary [t]. *)
Definition sets (t : nat) (ops : list (list Z * core)) : list core := map (fun fc => CSetField (Tmp t) (fst fc) (snd fc)) ops ++ [CVar (Tmp t)].

Scheme evals_rec := Induction for evals Sort Prop with stores_rec := Induction for stores Sort Prop.
Combined Scheme evals_stores_ind from evals_rec, stores_rec.

Lemma build_complete :
  (forall x e h v e' h', evals x e h v e' h' -> forall n ce, user ce = e ->
     exists ce', eval (fst (build x n)) ce h = Ret (v, ce', h') /\ user ce' = e' /\ keeps n (snd (build x n)) ce ce')
  /\ (forall r l e h e' h', stores r l e h e' h' -> forall n t v0 ce, user ce = e -> get ce (Tmp t) = Some (VRef r) -> (snd (operands l n) <= t)%nat ->
     exists ce', sequence (sets t (fst (operands l n))) v0 ce h = Ret (VRef r, ce', h') /\ user ce' = e' /\ keeps n (snd (operands l n)) ce ce').
Proof.
  apply evals_stores_ind.
  - intros v e h n ce U. exists ce. repeat split; auto using keeps_refl.
  - intros x e h v G n ce U. exists ce. cbn [build fst eval]. rewrite <- get_user, U, G. repeat split; auto using keeps_refl.
  - intros x a e h v e' h' _ IH n ce U. destruct (IH n ce U) as (ce' & E & U' & K). cbn [build]. destruct (build a n) as [c n1]. cbn [fst snd] in *.
    exists ((User x, v) :: ce'). cbn [eval]. rewrite E. cbn [obind]. repeat split; [cbn; now rewrite <- U' |]. intros m M. cbn. apply K. exact M.
  - intros x a e h v e' h' _ IH n ce U. destruct (IH n ce U) as (ce' & E & U' & K). cbn [build]. destruct (build a n) as [c n1]. cbn [fst snd] in *.
    exists (set ce' (User x) v). cbn [eval]. rewrite E. cbn [obind]. repeat split; [rewrite user_set; now rewrite <- U' |]. intros m M. rewrite get_set_tmp. apply K. exact M.
  - intros f a b e h va ea ha vb eb hb v h' _ IHa _ IHb Ef n ce U. destruct (IHa n ce U) as (ca & Ea & Ua & Ka). pose proof (build_le a n) as La. cbn [build].
    destruct (build a n) as [c1 n1]. cbn [fst snd] in *. destruct (IHb n1 ca Ua) as (cb & Eb & Ub & Kb). pose proof (build_le b n1) as Lb.
    destruct (build b n1) as [c2 n2]. cbn [fst snd] in *. exists cb. cbn [eval]. rewrite Ea. cbn [obind]. rewrite Eb. cbn [obind]. rewrite Ef. cbn [obind].
    repeat split; auto. eapply keeps_trans; eauto.
  - intros class gap l e h e' h' St IH n ce U. rewrite build_anon. pose proof (operands_le l n) as Lo. specialize (IH n).
    destruct (operands l n) as [ops n1]. cbn [fst snd] in *. destruct l as [| fo l].
    + inversion St; subst. exists ce. cbn. repeat split.
    + set (t := (n1 + gap)%nat). destruct (IH t (VRef (length h)) ((Tmp t, VRef (length h)) :: ce)) as (ce' & E & U' & K).
      * exact U.
      * cbn. now rewrite Nat.eqb_refl.
      * unfold t. lia.
      * exists ce'. cbn [fst snd]. rewrite eval_sequence, sequence_cons. cbn [eval obind].
        replace (map (fun f => (f, VUndef)) (map fst (fo :: l))) with (map (fun f : list Z * option expr => (fst f, VUndef)) (fo :: l)) by (rewrite map_map; reflexivity).
        split; [exact E |]. split; [exact U' |]. intros m M. rewrite K by (unfold t in *; lia). cbn. destruct (Nat.eqb_spec t m); [unfold t in *; lia | reflexivity].
  - intros r e h n t v0 ce U G L. exists ce. cbn. rewrite G. cbn. repeat split; auto using keeps_refl.
  - intros r f l e h e' h' _ IH n t v0 ce U G L. cbn [operands] in *. apply IH; auto.
  - intros r f a l e h v e1 h1 e' h' _ IHa _ IH n t v0 ce U G L. cbn [operands] in *. destruct (IHa n ce U) as (c1 & E1 & U1 & K1). pose proof (build_le a n) as La.
    destruct (build a n) as [c n1]. cbn [fst snd] in *. specialize (IH n1 t v c1 U1). pose proof (operands_le l n1) as Lo. destruct (operands l n1) as [ops n2]. cbn [fst snd] in *.
    assert (G1 : get c1 (Tmp t) = Some (VRef r)) by (rewrite K1 by lia; exact G).
    destruct (IH G1 L) as (ce' & E & U' & K). exists ce'. unfold sets. cbn [map app]. rewrite sequence_cons, eval_set_field. cbn [fst snd]. rewrite E1. cbn [obind].
    rewrite G1. cbn [obind]. split; [exact E |]. split; [exact U' |]. eapply keeps_trans; eauto.
Qed.

Lemma build_sound x : forall n ce h v ce' h', eval (fst (build x n)) ce h = Ret (v, ce', h') ->
  evals x (user ce) h v (user ce') h' /\ keeps n (snd (build x n)) ce ce'.
Proof.
  induction x as [v | x | x a IH | x a IH | f a b IHa IHb | class gap l F] using expr_ind'; intros n ce h v' ce' h' E.
  - cbn in E. injection E as <- <- <-. split; [constructor | apply keeps_refl].
  - cbn in E. destruct (get ce (User x)) as [w |] eqn:G; [| discriminate]. injection E as <- <- <-. split; [constructor; now rewrite get_user | apply keeps_refl].
  - cbn [build] in *. specialize (IH n ce h). destruct (build a n) as [c n1]. cbn [fst snd eval] in *. destruct (eval c ce h) as [[[w e1] h1] | | |]; try discriminate.
    cbn [obind] in E. injection E as <- <- <-. destruct (IH _ _ _ eq_refl) as (V & K). split; [cbn; now constructor |]. intros m M. cbn. now apply K.
  - cbn [build] in *. specialize (IH n ce h). destruct (build a n) as [c n1]. cbn [fst snd eval] in *. destruct (eval c ce h) as [[[w e1] h1] | | |]; try discriminate.
    cbn [obind] in E. injection E as <- <- <-. destruct (IH _ _ _ eq_refl) as (V & K). split; [rewrite user_set; now constructor |]. intros m M. rewrite get_set_tmp. now apply K.
  - cbn [build] in *. specialize (IHa n ce h). pose proof (build_le a n) as La. destruct (build a n) as [c1 n1]. specialize (IHb n1). pose proof (build_le b n1) as Lb.
    destruct (build b n1) as [c2 n2]. cbn [fst snd eval] in *.
    destruct (eval c1 ce h) as [[[va ea] ha] | | |]; try discriminate. cbn [obind] in E. specialize (IHb ea ha).
    destruct (eval c2 ea ha) as [[[vb eb] hb] | | |]; try discriminate. cbn [obind] in E. destruct (f hb va vb) as [[w hw] | | |] eqn:Ef; try discriminate.
    cbn [obind] in E. injection E as <- <- <-. destruct (IHa _ _ _ eq_refl) as (V1 & K1). destruct (IHb _ _ _ eq_refl) as (V2 & K2).
    split; [econstructor; eauto | eapply keeps_trans; eauto].
  - rewrite build_anon in *.
    assert (SQ : forall n t r v0 ce h w ce' h', get ce (Tmp t) = Some (VRef r) -> (snd (operands l n) <= t)%nat ->
       sequence (sets t (fst (operands l n))) v0 ce h = Ret (w, ce', h') ->
       w = VRef r /\ stores r l (user ce) h (user ce') h' /\ keeps n (snd (operands l n)) ce ce').
    { clear n ce h v' ce' h' E. induction F as [| [f [a |]] l H F IHl]; intros n t r v0 ce h w ce' h' G L E.
      - cbn in E. rewrite G in E. cbn in E. injection E as <- <- <-. split; [reflexivity | split; [constructor | apply keeps_refl]].
      - unfold on_operand in H. cbn [snd] in H. cbn [operands] in *. specialize (H n ce h). pose proof (build_le a n) as La. destruct (build a n) as [c n1]. specialize (IHl n1 t r). pose proof (operands_le l n1) as Lo.
        destruct (operands l n1) as [ops n2]. cbn [fst snd] in *. unfold sets in E. cbn [map app] in E. rewrite sequence_cons, eval_set_field in E. cbn [fst snd] in E.
        destruct (eval c ce h) as [[[va ea] ha] | | |]; try discriminate. cbn [obind] in E. destruct (H _ _ _ eq_refl) as (V1 & K1).
        assert (G1 : get ea (Tmp t) = Some (VRef r)) by (rewrite K1 by lia; exact G). rewrite G1 in E. cbn [obind] in E.
        destruct (IHl _ _ _ _ _ _ G1 L E) as (W & S2 & K2). split; [exact W | split; [econstructor; eauto | eapply keeps_trans; eauto]].
      - cbn [operands] in *. destruct (IHl _ _ _ _ _ _ _ _ _ G L E) as (W & S2 & K2). split; [exact W | split; [now constructor | exact K2]]. }
    pose proof (operands_le l n) as Lo. specialize (SQ n). destruct (operands l n) as [ops n1]. cbn [fst snd] in *. destruct l as [| fo l].
    + cbn in E. injection E as <- <- <-. split; [constructor; constructor | apply keeps_refl].
    + set (t := (n1 + gap)%nat) in *. cbn [fst snd] in *. rewrite eval_sequence, sequence_cons in E. cbn [eval obind] in E.
      replace (map (fun f => (f, VUndef)) (map fst (fo :: l))) with (map (fun f : list Z * option expr => (fst f, VUndef)) (fo :: l)) in E by (rewrite map_map; reflexivity).
      apply (SQ t (length h)) in E; [| cbn; now rewrite Nat.eqb_refl | unfold t; lia]. destruct E as (-> & S2 & K2). split; [constructor; exact S2 |].
      intros m M. rewrite K2 by (unfold t in *; lia). cbn. destruct (Nat.eqb_spec t m); [unfold t in *; lia | reflexivity].
Qed.
