(** * C72: special assignment, increments and array initialization *)
From Coq Require Import Lia.
From Verif Require Import Base Special_model Special_spec.
Local Open Scope Z_scope.

Section Lang.
  Variables St V : Type.
  Variable read : St -> kind -> list V -> outcome V.
  Variable write : St -> kind -> list V -> V -> outcome St.
  Variable new_array : St -> V -> Z -> outcome (V * St).
  Variable new_empty : St -> outcome (V * St).
  Variable cast : St -> V -> outcome (V * St).
  Variable int : Z -> V.
  Variable undef : V.
  Notation expr := (expr St V). Notation core := (core St V). Notation temps := (temps V).
  Notation build := (build St V int undef). Notation set_elements := (set_elements St V int).
  Notation eval := (eval St V read write new_array new_empty cast undef).
  Notation run := (run St V read write new_array new_empty cast int undef).
  Notation get := (get V).

  Section Expr_ind.
    Variable P : expr -> Prop.
    Hypothesis HC : forall v, P (EConst St V v).
    Hypothesis HU : P (EUndef St V).
    Hypothesis HR : forall k l, Forall P l -> P (ERead St V k l).
    Hypothesis HA : forall k l e, Forall P l -> P e -> P (EAssign St V k l e).
    Hypothesis HL : forall f a b, P a -> P b -> P (ECall St V f a b).
    Hypothesis HS : forall k l g post e, Forall P l -> P e -> P (ESpecial St V k l g post e).
    Hypothesis HI : forall pairs l, Forall P l -> P (EInit St V pairs l).
    Fixpoint expr_ind' (e : expr) : P e :=
      let fix go (l : list expr) : Forall P l :=
        match l with [] => Forall_nil P | e :: l => Forall_cons e (expr_ind' e) (go l) end in
      match e with
      | EConst _ _ v => HC v | EUndef _ _ => HU | ERead _ _ k l => HR k l (go l)
      | EAssign _ _ k l e => HA k l e (go l) (expr_ind' e)
      | ECall _ _ f a b => HL f a b (expr_ind' a) (expr_ind' b)
      | ESpecial _ _ k l g post e => HS k l g post e (go l) (expr_ind' e)
      | EInit _ _ pairs l => HI pairs l (go l)
      end.
  End Expr_ind.

  Fixpoint build_list (l : list expr) (n : nat) : outcome (list core * nat) :=
    match l with
    | [] => Ret ([], n)
    | e :: l => let! (c, n) := build e n in let! (cl, n) := build_list l n in Ret (c :: cl, n)
    end.
  Fixpoint eval_list (l : list core) (t : temps) (s : St) : outcome (list V * temps * St) :=
    match l with
    | [] => Ret ([], t, s)
    | c :: l => let! (v, t, s) := eval c t s in let! (vs, t, s) := eval_list l t s in Ret (v :: vs, t, s)
    end.
  Fixpoint sequence (l : list core) (v : V) (t : temps) (s : St) : outcome (V * temps * St) :=
    match l with
    | [] => Ret (v, t, s)
    | c :: l => let! (v, t, s) := eval c t s in sequence l v t s
    end.
  Fixpoint run_list (l : list expr) (s : St) : outcome (list V * St) :=
    match l with
    | [] => Ret ([], s)
    | e :: l => let! (v, s) := run e s in let! (vs, s) := run_list l s in Ret (v :: vs, s)
    end.
  Definition fill (array : V) : Z -> list expr -> St -> outcome (V * St) :=
    fix go (i : Z) (l : list expr) (s : St) : outcome (V * St) :=
      match l with
      | [] => Ret (array, s)
      | e :: l => let! (v, s) := run e s in let! s := write s KElem [array; int i] v in go (i + 1) l s
      end.
  Lemma fill_cons array i e l s : fill array i (e :: l) s = let! (v, s) := run e s in let! s := write s KElem [array; int i] v in fill array (i + 1) l s.
  Proof. reflexivity. Qed.

  Definition keeps (n n' : nat) (t t' : temps) : Prop := forall m, (m < n \/ n' <= m)%nat -> get t' m = get t m.
  (** The built operators do what the source does; temporaries outside [n, n') are kept. *)
  Definition sim {A} (n n' : nat) (t : temps) (r : outcome (A * St)) (r' : outcome (A * temps * St)) : Prop :=
    match r with
    | Ret (a, s) => exists t', r' = Ret (a, t', s) /\ keeps n n' t t'
    | Die m => r' = Die m
    | UB => r' = UB
    | Fuel => r' = Fuel
    end.
  Lemma keeps_refl n n' t : keeps n n' t t.
  Proof. intros m _. reflexivity. Qed.
  Lemma keeps_trans n n1 n2 t t1 t2 : (n <= n1)%nat -> (n1 <= n2)%nat -> keeps n n1 t t1 -> keeps n1 n2 t1 t2 -> keeps n n2 t t2.
  Proof. intros L1 L2 H1 H2 m M. rewrite H2, H1; auto; lia. Qed.
  Lemma keeps_weaken n n' a b t t' : (a <= n)%nat -> (n' <= b)%nat -> keeps n n' t t' -> keeps a b t t'.
  Proof. intros L1 L2 H m M. apply H. lia. Qed.

  Definition good (e : expr) : Prop := forall n c n', build e n = Ret (c, n') -> (n <= n')%nat /\ forall t s, sim n n' t (run e s) (eval c t s).

  Lemma list_good l : Forall good l -> forall n cl n', build_list l n = Ret (cl, n') ->
    (n <= n')%nat /\ length cl = length l /\ forall t s, sim n n' t (run_list l s) (eval_list cl t s).
  Proof.
    intros F. induction F as [| e l G F IH]; intros n cl n' B; cbn in B.
    - injection B as <- <-. split; [lia |]. split; [reflexivity |]. intros t s. cbn. eauto using keeps_refl.
    - destruct (build e n) as [[c n1] | | |] eqn:B1; try discriminate. cbn in B. destruct (build_list l n1) as [[cl1 n2] | | |] eqn:B2; try discriminate. cbn in B. injection B as <- <-.
      destruct (G _ _ _ B1) as (L1 & S1). destruct (IH _ _ _ B2) as (L2 & E2 & S2). split; [lia |]. split; [cbn; congruence |]. intros t s. cbn.
      specialize (S1 t s). destruct (run e s) as [[v s1] | | |]; cbn in S1 |- *; try (rewrite S1; reflexivity). destruct S1 as (t1 & -> & K1). cbn.
      specialize (S2 t1 s1). destruct (run_list l s1) as [[vs s2] | | |]; cbn in S2 |- *; try (rewrite S2; reflexivity). destruct S2 as (t2 & -> & K2). cbn.
      exists t2. split; [reflexivity |]. eapply keeps_trans; eauto.
  Qed.

  (** Operands into temporaries. *)
  Definition mys (ts : list nat) (cl : list core) : list core := map (fun tc => CMy St V (fst tc) (snd tc)) (combine ts cl).
  Lemma sequence_cons c l v t s : sequence (c :: l) v t s = let! (v, t, s) := eval c t s in sequence l v t s.
  Proof. reflexivity. Qed.
  Lemma eval_my n c t s : eval (CMy St V n c) t s = let! (v, t, s) := eval c t s in Ret (v, (n, v) :: t, s).
  Proof. reflexivity. Qed.
  Lemma mys_good l : Forall good l -> forall n cl n' m rest v0 t s, build_list l n = Ret (cl, n') -> (n' <= m)%nat ->
    match run_list l s with
    | Ret (vs, s') => exists t' v', sequence (mys (seq m (length l)) cl ++ rest) v0 t s = sequence rest v' t' s'
        /\ (forall i v, nth_error vs i = Some v -> get t' (m + i) = Some v) /\ length vs = length l
        /\ (forall k, (k < n \/ n' <= k < m \/ m + length l <= k)%nat -> get t' k = get t k)
    | Die e => sequence (mys (seq m (length l)) cl ++ rest) v0 t s = Die e
    | UB => sequence (mys (seq m (length l)) cl ++ rest) v0 t s = UB
    | Fuel => sequence (mys (seq m (length l)) cl ++ rest) v0 t s = Fuel
    end.
  Proof.
    intros F. induction F as [| e l G F IH]; intros n cl n' m rest v0 t s B M; cbn in B.
    - injection B as <- <-. cbn. exists t, v0. repeat split; auto. intros [| i] v; discriminate.
    - destruct (build e n) as [[c n1] | | |] eqn:B1; try discriminate. cbn in B. destruct (build_list l n1) as [[cl1 n2] | | |] eqn:B2; try discriminate. cbn in B. injection B as <- <-.
      destruct (G _ _ _ B1) as (L1 & S1). destruct (list_good l F _ _ _ B2) as (L2 & _ & _). cbn [length seq]. unfold mys. cbn [combine map fst snd app].
      rewrite sequence_cons, eval_my. cbn [run_list]. specialize (S1 t s).
      destruct (run e s) as [[v s1] | | |]; cbn in S1 |- *; try (rewrite S1; reflexivity). destruct S1 as (t1 & -> & K1). cbn [obind].
      specialize (IH _ _ _ (S m) rest v ((m, v) :: t1) s1 B2 ltac:(lia)).
      destruct (run_list l s1) as [[vs s2] | | |]; cbn [obind]; try exact IH. destruct IH as (t2 & v' & E & G2 & LL & K2). exists t2, v'. split; [exact E |]. repeat split.
      + intros [| i] w Hw; cbn in Hw.
        * injection Hw as <-. rewrite Nat.add_0_r, K2 by lia. cbn. now rewrite Nat.eqb_refl.
        * replace (m + S i)%nat with (S m + i)%nat by lia. now apply G2.
      + cbn. congruence.
      + intros k Hk. rewrite K2 by lia. cbn. destruct (Nat.eqb_spec m k); [lia |]. apply K1. lia.
  Qed.
  Lemma eval_temps vs : forall m t s, (forall i v, nth_error vs i = Some v -> get t (m + i) = Some v) ->
    eval_list (map (CTmp St V) (seq m (length vs))) t s = Ret (vs, t, s).
  Proof.
    induction vs as [| v vs IH]; intros m t s H; [reflexivity |]. cbn [length seq map eval_list]. cbn. rewrite <- (Nat.add_0_r m) at 1.
    rewrite (H 0%nat v eq_refl). cbn [obind]. rewrite IH; [reflexivity |]. intros i w Hw. replace (S m + i)%nat with (m + S i)%nat by lia. now apply H.
  Qed.

  Lemma get_other m v t k : m <> k -> get ((m, v) :: t) k = get t k.
  Proof. intros N. cbn. destruct (Nat.eqb_spec m k); [contradiction | reflexivity]. Qed.
  Lemma eval_tmp n t s v : get t n = Some v -> eval (CTmp St V n) t s = Ret (v, t, s).
  Proof. intros H. cbn. now rewrite H. Qed.
  Lemma eval_assign k l c t s : eval (CAssign St V k l c) t s =
    let! (v, t, s) := eval c t s in let! (vs, t, s) := eval_list l t s in let! s := write s k vs v in Ret (v, t, s).
  Proof. reflexivity. Qed.
  Lemma eval_read k l t s : eval (CRead St V k l) t s = let! (vs, t, s) := eval_list l t s in let! v := read s k vs in Ret (v, t, s).
  Proof. reflexivity. Qed.
  Lemma eval_call f a b t s : eval (CCall St V f a b) t s =
    let! (va, t, s) := eval a t s in let! (vb, t, s) := eval b t s in let! (v, s) := f s va vb in Ret (v, t, s).
  Proof. reflexivity. Qed.
  Lemma eval_sequence l t s : eval (CSequence St V l) t s = sequence l undef t s.
  Proof. reflexivity. Qed.

  Lemma fill_good l : Forall good l -> forall n cl n' m i a v0 t s, build_list l n = Ret (cl, n') -> (n' <= m)%nat -> get t m = Some a ->
    sim n n' t (fill a i l s) (sequence (set_elements m i cl ++ [CTmp St V m]) v0 t s).
  Proof.
    intros F. induction F as [| e l G F IH]; intros n cl n' m i a v0 t s B M T; cbn in B.
    - injection B as <- <-. cbn. rewrite T. cbn. eauto using keeps_refl.
    - destruct (build e n) as [[c n1] | | |] eqn:B1; try discriminate. cbn in B. destruct (build_list l n1) as [[cl1 n2] | | |] eqn:B2; try discriminate. cbn in B. injection B as <- <-.
      destruct (G _ _ _ B1) as (L1 & S1). destruct (list_good l F _ _ _ B2) as (L2 & _ & _). cbn [Special_model.set_elements app]. rewrite fill_cons, sequence_cons, eval_assign. specialize (S1 t s).
      destruct (run e s) as [[v s1] | | |]; cbn in S1 |- *; try (rewrite S1; reflexivity). destruct S1 as (t1 & -> & K1). cbn [obind].
      assert (T1 : get t1 m = Some a) by (rewrite K1 by lia; exact T). rewrite T1. cbn [obind].
      destruct (write s1 KElem [a; int i] v) as [s2 | | |]; cbn [obind sim]; try reflexivity.
      specialize (IH _ _ _ m (i + 1) a v t1 s2 B2 M T1). destruct (fill a (i + 1) l s2) as [[w s3] | | |]; cbn in IH |- *; try exact IH.
      destruct IH as (t2 & E & K2). exists t2. split; [exact E |]. eapply keeps_trans; eauto.
  Qed.

  Lemma build_eq e n : build e n =
    match e with
    | EConst _ _ v => Ret (CConst St V v, n)
    | EUndef _ _ => Ret (CConst St V undef, n)
    | ERead _ _ k l => let! (cl, n) := build_list l n in Ret (CRead St V k cl, n)
    | EAssign _ _ k l e => let! (cl, n) := build_list l n in let! (c, n) := build e n in Ret (CAssign St V k cl c, n)
    | ECall _ _ f a b => let! (ca, n) := build a n in let! (cb, n) := build b n in Ret (CCall St V f ca cb, n)
    | ESpecial _ _ k l g post e =>
        let! (cl, n) := build_list l n in
        let! (c, n) := build e n in
        match k with
        | KExc => UB
        | _ => Ret (CSequence St V (mys (seq (S n) (length l)) cl
                   ++ CMy St V n (CRead St V k (map (CTmp St V) (seq (S n) (length l))))
                   :: CAssign St V k (map (CTmp St V) (seq (S n) (length l))) (CCall St V g (CTmp St V n) c)
                   :: if post then [CTmp St V n] else []), (S n + length l)%nat)
        end
    | EInit _ _ pairs l =>
        let! (cl, n) := build_list l n in
        if pairs && Z.odd (zlen l) then Die "The length of the elements must be an even number."
        else
          match l, cl with
          | EUndef _ _ :: _, _ => Die "The first element in the array initialization must be defined."
          | _ :: _, c :: cl =>
              Ret (CSequence St V (CMy St V n (if pairs then CCast St V c else c)
                     :: CMy St V (S n) (CNew St V (CTmp St V n) (zlen l))
                     :: set_elements (S n) 0 (CTmp St V n :: cl) ++ [CTmp St V (S n)]), S (S n))
          | _, _ => Ret (CNewEmpty St V, n)
          end
    end.
  Proof. destruct e; reflexivity. Qed.
  Lemma run_eq e s : run e s =
    match e with
    | EConst _ _ v => Ret (v, s)
    | EUndef _ _ => Ret (undef, s)
    | ERead _ _ k l => let! (vs, s) := run_list l s in let! v := read s k vs in Ret (v, s)
    | EAssign _ _ k l e => let! (v, s) := run e s in let! (vs, s) := run_list l s in let! s := write s k vs v in Ret (v, s)
    | ECall _ _ f a b => let! (va, s) := run a s in let! (vb, s) := run b s in f s va vb
    | ESpecial _ _ k l g post e =>
        let! (place, s) := run_list l s in let! old := read s k place in let! (r, s) := run e s in
        let! (new, s) := g s old r in let! s := write s k place new in Ret (if post then old else new, s)
    | EInit _ _ pairs l =>
        match l with
        | [] => new_empty s
        | first :: rest =>
            let! (v, s) := run first s in
            let! (v, s) := if pairs then cast s v else Ret (v, s) in
            let! (array, s) := new_array s v (zlen l) in
            let! s := write s KElem [array; int 0] v in
            fill array 1 rest s
        end
    end.
  Proof. destruct e; reflexivity. Qed.

  (** Place op= right. *)
  Lemma special_good k l g post e : Forall good l -> good e -> good (ESpecial St V k l g post e).
  Proof.
    intros F G n c n' B. rewrite build_eq in B. destruct (build_list l n) as [[cl n1] | | |] eqn:B1; try discriminate. cbn [obind] in B.
    destruct (build e n1) as [[ce n2] | | |] eqn:B2; try discriminate. cbn [obind] in B.
    destruct (list_good l F _ _ _ B1) as (L1 & LL & _). destruct (G _ _ _ B2) as (L2 & S2).
    assert (B' : c = CSequence St V (mys (seq (S n2) (length l)) cl
                   ++ CMy St V n2 (CRead St V k (map (CTmp St V) (seq (S n2) (length l))))
                   :: CAssign St V k (map (CTmp St V) (seq (S n2) (length l))) (CCall St V g (CTmp St V n2) ce)
                   :: if post then [CTmp St V n2] else []) /\ n' = (S n2 + length l)%nat) by (destruct k; try discriminate B; apply (f_equal (fun r => match r with Ret x => x | _ => (c, n') end)) in B; cbn beta iota in B; split; congruence).
    destruct B' as (-> & ->). clear B. split; [lia |]. intros t s. rewrite eval_sequence, run_eq.
    match goal with |- context [sequence (mys ?ts cl ++ ?r) undef t s] => pose proof (mys_good l F n cl n1 (S n2) r undef t s B1 ltac:(lia)) as M end.
    destruct (run_list l s) as [[vs s1] | | |]; cbn [obind sim]; try exact M. destruct M as (t1 & v1 & E1 & G1 & Lv & K1).
    match goal with |- sim _ _ _ _ (sequence ?q undef t s) => replace (sequence q undef t s) with (sequence (CMy St V n2 (CRead St V k (map (CTmp St V) (seq (S n2) (length l))))
                   :: CAssign St V k (map (CTmp St V) (seq (S n2) (length l))) (CCall St V g (CTmp St V n2) ce)
                   :: if post then [CTmp St V n2] else []) v1 t1 s1) by (symmetry; exact E1) end.
    clear E1. rewrite sequence_cons, eval_my, eval_read. rewrite <- Lv, eval_temps by exact G1. cbn [obind].
    destruct (read s1 k vs) as [old | | |]; cbn [obind sim]; try reflexivity.
    set (t2 := (n2, old) :: t1). assert (T2 : get t2 n2 = Some old) by (cbn; now rewrite Nat.eqb_refl).
    rewrite sequence_cons, eval_assign, eval_call, (eval_tmp _ _ _ _ T2). cbn [obind].
    specialize (S2 t2 s1). destruct (run e s1) as [[r s2] | | |]; cbn in S2 |- *; try (rewrite S2; reflexivity). destruct S2 as (t3 & -> & K3). cbn [obind].
    destruct (g s2 old r) as [[new s3] | | |]; cbn [obind sim]; try reflexivity.
    assert (G3 : forall i v, nth_error vs i = Some v -> get t3 (S n2 + i) = Some v).
    { intros i v Hv. rewrite K3 by lia. unfold t2. rewrite get_other by lia. now apply G1. }
    rewrite eval_temps by exact G3. cbn [obind]. destruct (write s3 k vs new) as [s4 | | |]; cbn [obind sim]; try reflexivity.
    assert (KK : keeps n (S n2 + length vs) t t3).
    { intros m M. rewrite K3 by lia. unfold t2. rewrite get_other by lia. apply K1. lia. }
    destruct post; cbn [sequence].
    - rewrite (eval_tmp n2 t3 s4 old) by (rewrite K3 by lia; exact T2). cbn [obind sim]. eauto.
    - cbn [sim]. eauto.
  Qed.

  Lemma init_good pairs l : Forall good l -> good (EInit St V pairs l).
  Proof.
    intros F n c n' B. rewrite build_eq in B. destruct (build_list l n) as [[cl n1] | | |] eqn:B1; try discriminate. cbn [obind] in B.
    destruct (pairs && Z.odd (zlen l)); [discriminate |]. destruct (list_good l F _ _ _ B1) as (L1 & LL & _).
    destruct l as [| e l].
    - injection B as <- <-. split; [exact L1 |]. intros t s. rewrite run_eq. cbn. destruct (new_empty s) as [[a s'] | | |]; cbn; auto. eauto using keeps_refl.
    - destruct cl as [| c0 cl]; [discriminate |].
      assert (B' : c = CSequence St V (CMy St V n1 (if pairs then CCast St V c0 else c0)
                     :: CMy St V (S n1) (CNew St V (CTmp St V n1) (zlen (e :: l)))
                     :: set_elements (S n1) 0 (CTmp St V n1 :: cl) ++ [CTmp St V (S n1)]) /\ n' = S (S n1)) by (destruct e; try discriminate B; apply (f_equal (fun r => match r with Ret x => x | _ => (c, n') end)) in B; cbn beta iota in B; split; congruence).
      destruct B' as (-> & ->). clear B. split; [lia |]. intros t s. rewrite eval_sequence, run_eq, sequence_cons, eval_my.
      cbn [build_list] in B1. destruct (build e n) as [[ce n2] | | |] eqn:B2; try discriminate. cbn [obind] in B1. destruct (build_list l n2) as [[cl' n3] | | |] eqn:B3; try discriminate. cbn [obind] in B1.
      injection B1 as -> -> ->. destruct (Forall_inv F _ _ _ B2) as (L2 & S2). destruct (list_good l (Forall_inv_tail F) _ _ _ B3) as (L3 & _ & _).
      specialize (S2 t s).
      assert (C : sim n n2 t (let! (v, s) := run e s in if pairs then cast s v else Ret (v, s)) (eval (if pairs then CCast St V c0 else c0) t s)).
      { destruct pairs; [| destruct (run e s) as [[v s1] | | |]; exact S2]. cbn. destruct (run e s) as [[v s1] | | |]; cbn in S2 |- *; try (rewrite S2; reflexivity).
        destruct S2 as (t1 & -> & K1). cbn. destruct (cast s1 v) as [[w s2] | | |]; cbn; eauto. }
      replace (let! (v, s) := run e s in let! (v0, s0) := if pairs then cast s v else Ret (v, s) in let! (array, s1) := new_array s0 v0 (zlen (e :: l)) in
               let! s2 := write s1 KElem [array; int 0] v0 in fill array 1 l s2)
        with (let! (v0, s0) := (let! (v, s) := run e s in if pairs then cast s v else Ret (v, s)) in let! (array, s1) := new_array s0 v0 (zlen (e :: l)) in
               let! s2 := write s1 KElem [array; int 0] v0 in fill array 1 l s2) by (destruct (run e s) as [[v s1] | | |]; reflexivity).
      destruct (let! (v, s) := run e s in if pairs then cast s v else Ret (v, s)) as [[v s1] | | |]; cbn [sim] in C; try (rewrite C; reflexivity).
      destruct C as (t1 & -> & K1). cbn [obind]. rewrite sequence_cons, eval_my.
      set (t2 := (n1, v) :: t1). assert (T2 : get t2 n1 = Some v) by (cbn; now rewrite Nat.eqb_refl).
      change (eval (CNew St V (CTmp St V n1) (zlen (e :: l))) t2 s1) with (let! (v, t, s) := eval (CTmp St V n1) t2 s1 in let! (a, s) := new_array s v (zlen (e :: l)) in Ret (a, t, s)).
      rewrite (eval_tmp _ _ _ _ T2). cbn [obind]. destruct (new_array s1 v (zlen (e :: l))) as [[a s2] | | |]; cbn [obind sim]; try reflexivity.
      set (t3 := (S n1, a) :: t2). assert (T3 : get t3 (S n1) = Some a) by (cbn; now rewrite Nat.eqb_refl).
      assert (T4 : get t3 n1 = Some v). { unfold t3. rewrite get_other by lia. exact T2. }
      cbn [Special_model.set_elements app]. rewrite sequence_cons, eval_assign, (eval_tmp _ _ _ _ T4). cbn [obind].
      cbn [eval_list]. rewrite (eval_tmp _ _ _ _ T3). cbn [obind]. change (eval (CConst St V (int 0)) t3 s2) with (Ret (int 0, t3, s2)). cbn [obind].
      destruct (write s2 KElem [a; int 0] v) as [s3 | | |]; cbn [obind sim]; try reflexivity.
      change (0 + 1) with 1. pose proof (fill_good l (Forall_inv_tail F) n2 cl n1 (S n1) 1 a v t3 s3 B3 ltac:(lia) T3) as FG.
      destruct (fill a 1 l s3) as [[w s4] | | |]; cbn [sim] in FG |- *; try exact FG. destruct FG as (t5 & E & K5). exists t5. split; [exact E |].
      intros m M. rewrite K5 by lia. unfold t3, t2. rewrite !get_other by lia. apply K1. lia.
  Qed.

  Lemma all_good e : good e.
  Proof.
    induction e as [v | | k l F | k l e F G | f a b Ga Gb | k l g post e F G | pairs l F] using expr_ind'.
    - intros n c n' B. cbn in B. injection B as <- <-. split; [lia |]. intros t s. cbn. eauto using keeps_refl.
    - intros n c n' B. cbn in B. injection B as <- <-. split; [lia |]. intros t s. cbn. eauto using keeps_refl.
    - intros n c n' B. rewrite build_eq in B. destruct (build_list l n) as [[cl n1] | | |] eqn:B1; try discriminate. cbn [obind] in B. injection B as <- <-.
      destruct (list_good l F _ _ _ B1) as (L1 & _ & S1). split; [exact L1 |]. intros t s. rewrite run_eq, eval_read. specialize (S1 t s).
      destruct (run_list l s) as [[vs s1] | | |]; cbn in S1 |- *; try (rewrite S1; reflexivity). destruct S1 as (t1 & -> & K1). cbn. destruct (read s1 k vs); cbn; eauto.
    - intros n c n' B. rewrite build_eq in B. destruct (build_list l n) as [[cl n1] | | |] eqn:B1; try discriminate. cbn [obind] in B.
      destruct (build e n1) as [[ce n2] | | |] eqn:B2; try discriminate. cbn [obind] in B. injection B as <- <-.
      destruct (list_good l F _ _ _ B1) as (L1 & _ & S1). destruct (G _ _ _ B2) as (L2 & S2). split; [lia |]. intros t s. rewrite run_eq, eval_assign. specialize (S2 t s).
      destruct (run e s) as [[v s1] | | |]; cbn in S2 |- *; try (rewrite S2; reflexivity). destruct S2 as (t1 & -> & K1). cbn [obind]. specialize (S1 t1 s1).
      destruct (run_list l s1) as [[vs s2] | | |]; cbn in S1 |- *; try (rewrite S1; reflexivity). destruct S1 as (t2 & -> & K2). cbn [obind].
      destruct (write s2 k vs v) as [s3 | | |]; cbn; auto. exists t2. split; [reflexivity |]. intros m M. rewrite K2, K1; auto; lia.
    - intros n c n' B. rewrite build_eq in B. destruct (build a n) as [[ca n1] | | |] eqn:B1; try discriminate. cbn [obind] in B.
      destruct (build b n1) as [[cb n2] | | |] eqn:B2; try discriminate. cbn [obind] in B. injection B as <- <-.
      destruct (Ga _ _ _ B1) as (L1 & S1). destruct (Gb _ _ _ B2) as (L2 & S2). split; [lia |]. intros t s. rewrite run_eq, eval_call. specialize (S1 t s).
      destruct (run a s) as [[v s1] | | |]; cbn in S1 |- *; try (rewrite S1; reflexivity). destruct S1 as (t1 & -> & K1). cbn [obind]. specialize (S2 t1 s1).
      destruct (run b s1) as [[w s2] | | |]; cbn in S2 |- *; try (rewrite S2; reflexivity). destruct S2 as (t2 & -> & K2). cbn [obind].
      destruct (f s2 v w) as [[x s3] | | |]; cbn; auto. exists t2. split; [reflexivity |]. eapply keeps_trans; eauto.
    - now apply special_good.
    - now apply init_good.
  Qed.

  (** The operators that are built have the value, the effects and the exceptions of the
      source, whatever temporaries were used before. *)
  Theorem C72_meaning e n c n' t s : build e n = Ret (c, n') ->
    match run e s with
    | Ret (v, s') => exists t', eval c t s = Ret (v, t', s')
    | Die m => eval c t s = Die m
    | UB => eval c t s = UB
    | Fuel => eval c t s = Fuel
    end.
  Proof.
    intros B. destruct (all_good e n c n' B) as (_ & S0). specialize (S0 t s). destruct (run e s) as [[v s'] | | |]; cbn in S0; auto.
    destruct S0 as (t' & E & _). eauto.
  Qed.

  (** What is refused. *)
  Inductive accepted : expr -> Prop :=
  | A_const v : accepted (EConst St V v)
  | A_undef : accepted (EUndef St V)
  | A_read k l : Forall accepted l -> accepted (ERead St V k l)
  | A_assign k l e : Forall accepted l -> accepted e -> accepted (EAssign St V k l e)
  | A_call f a b : accepted a -> accepted b -> accepted (ECall St V f a b)
  | A_special k l g post e : k <> KExc -> Forall accepted l -> accepted e -> accepted (ESpecial St V k l g post e)
  | A_init pairs l : Forall accepted l -> (pairs = true -> Z.even (zlen l) = true) -> (forall r, l <> EUndef St V :: r) -> accepted (EInit St V pairs l).
  Lemma build_list_ok l : Forall (fun e => forall n, (exists r, build e n = Ret r) <-> accepted e) l -> forall n, (exists r, build_list l n = Ret r) <-> Forall accepted l.
  Proof.
    intros F. induction F as [| e l H F IH]; intros n; cbn.
    - split; [constructor | eauto].
    - split.
      + intros (r & E). pose proof (H n) as Hn. destruct (build e n) as [[c n1] | | |]; try discriminate. cbn in E. pose proof (IH n1) as Hl.
        destruct (build_list l n1) as [[cl n2] | | |]; try discriminate. constructor; [apply Hn | apply Hl]; eauto.
      + intros A. inversion A as [| ? ? A1 A2]; subst. destruct (proj2 (H n) A1) as ([c n1] & ->). cbn. destruct (proj2 (IH n1) A2) as ([cl n2] & ->). cbn. eauto.
  Qed.
  (** The parser accepts an expression exactly when no part of it updates $@ in place, no
      braces have an odd number of elements, and no array initialization begins with undef. *)
  Theorem C72_accepted e : forall n, (exists r, build e n = Ret r) <-> accepted e.
  Proof.
    induction e as [v | | k l F | k l e F G | f a b Ga Gb | k l g post e F G | pairs l F] using expr_ind'; intros n; rewrite build_eq.
    - split; [constructor | eauto].
    - split; [constructor | eauto].
    - pose proof (build_list_ok l F n) as L. destruct (build_list l n) as [[cl n1] | | |]; cbn [obind]; split; intros H; try (destruct H; discriminate); eauto.
      + constructor. apply L. eauto.
      + inversion H; subst. destruct (proj2 L) as (r & E); [assumption | discriminate].
      + inversion H; subst. destruct (proj2 L) as (r & E); [assumption | discriminate].
      + inversion H; subst. destruct (proj2 L) as (r & E); [assumption | discriminate].
    - pose proof (build_list_ok l F n) as L. destruct (build_list l n) as [[cl n1] | | |]; cbn [obind];
        [| split; intros H; [destruct H; discriminate | inversion H; subst; destruct (proj2 L) as (r & E); [assumption | discriminate]] ..].
      pose proof (G n1) as Ge. destruct (build e n1) as [[ce n2] | | |]; cbn [obind];
        [| split; intros H; [destruct H; discriminate | inversion H; subst; destruct (proj2 Ge) as (r & E); [assumption | discriminate]] ..].
      split; intros H; [constructor; [apply L | apply Ge]; eauto | eauto].
    - pose proof (Ga n) as La. destruct (build a n) as [[ca n1] | | |]; cbn [obind];
        [| split; intros H; [destruct H; discriminate | inversion H; subst; destruct (proj2 La) as (r & E); [assumption | discriminate]] ..].
      pose proof (Gb n1) as Lb. destruct (build b n1) as [[cb n2] | | |]; cbn [obind];
        [| split; intros H; [destruct H; discriminate | inversion H; subst; destruct (proj2 Lb) as (r & E); [assumption | discriminate]] ..].
      split; intros H; [constructor; [apply La | apply Lb]; eauto | eauto].
    - pose proof (build_list_ok l F n) as L. destruct (build_list l n) as [[cl n1] | | |]; cbn [obind];
        [| split; intros H; [destruct H; discriminate | inversion H; subst; destruct (proj2 L) as (r & E); [assumption | discriminate]] ..].
      pose proof (G n1) as Ge. destruct (build e n1) as [[ce n2] | | |]; cbn [obind];
        [| split; intros H; [destruct H; discriminate | inversion H; subst; destruct (proj2 Ge) as (r & E); [assumption | discriminate]] ..].
      split; intros H.
      + constructor; [intros ->; destruct H; discriminate | apply L; eauto | apply Ge; eauto].
      + inversion H; subst. destruct k; try contradiction; eauto.
    - pose proof (build_list_ok l F n) as L. destruct (build_list l n) as [[cl n1] | | |] eqn:B; cbn [obind];
        [| split; intros H; [destruct H; discriminate | inversion H; subst; destruct (proj2 L) as (r & E); [assumption | discriminate]] ..].
      assert (A : Forall accepted l) by (apply L; eauto).
      assert (LL : length cl = length l) by (refine (proj1 (proj2 (list_good l _ _ _ _ B))); apply Forall_forall; intros; apply all_good).
      rewrite <- Z.negb_even. destruct (pairs && negb (Z.even (zlen l))) eqn:P.
      + split; intros H; [destruct H; discriminate |]. inversion H as [| | | | | | ? ? ? Ev _]; subst. apply andb_prop in P. destruct P as (-> & P). now rewrite Ev in P.
      + assert (Ev : pairs = true -> Z.even (zlen l) = true) by (intros ->; cbn in P; now apply negb_false_iff in P).
        split; intros H.
        * constructor; auto. intros r ->. destruct H; discriminate.
        * inversion H as [| | | | | | ? ? ? ? N]; subst. destruct l as [| e l]; [eauto |]. destruct cl as [| c cl]; [discriminate |]. destruct e; eauto. exfalso. now apply (N l).
  Qed.
End Lang.

Print Assumptions C72_meaning.
Print Assumptions C72_accepted.

(** $@ OP= RIGHT, $@++ and so on, which the grammar admits, make the parser read a NULL pointer. *)
Theorem C72_exception_variable_refuted : forall St V int undef (g : operation St V) post e r n,
  build St V int undef e n = Ret r -> build St V int undef (ESpecial St V KExc [] g post e) n = UB.
Proof. intros * B. cbn. now rewrite B; destruct r. Qed.
Print Assumptions C72_exception_variable_refuted.

(** ** A small machine: objects with one field, one array of objects *)
Record machine := { elements : list Z; fields : list Z; log : list Z }.
Definition nth_z (l : list Z) (i : Z) : outcome Z := if (0 <=? i) && (i <? zlen l) then Ret (nth (Z.to_nat i) l 0) else Die "out of range".
Definition set_z (l : list Z) (i v : Z) : outcome (list Z) :=
  if (0 <=? i) && (i <? zlen l) then Ret (firstn (Z.to_nat i) l ++ v :: skipn (S (Z.to_nat i)) l) else Die "out of range".
Definition m_read (s : machine) (k : kind) (l : list Z) : outcome Z :=
  match k, l with
  | KElem, [_; i] => nth_z (elements s) i
  | KField _, [o] => nth_z (fields s) o
  | KElemField _, [_; i] => let! o := nth_z (elements s) i in nth_z (fields s) o
  | _, _ => Die "not used"
  end.
Definition m_write (s : machine) (k : kind) (l : list Z) (v : Z) : outcome machine :=
  match k, l with
  | KElem, [_; i] => let! e := set_z (elements s) i v in Ret {| elements := e; fields := fields s; log := log s |}
  | KField _, [o] => let! f := set_z (fields s) o v in Ret {| elements := elements s; fields := f; log := log s |}
  | KElemField _, [_; i] => let! o := nth_z (elements s) i in let! f := set_z (fields s) o v in Ret {| elements := elements s; fields := f; log := log s |}
  | _, _ => Die "not used"
  end.
Definition m_new (s : machine) (_ : Z) (n : Z) : outcome (Z * machine) := Ret (99, {| elements := repeat 0 (Z.to_nat n); fields := fields s; log := log s |}).
Definition m_empty (s : machine) : outcome (Z * machine) := m_new s 0 0.
Definition m_cast (s : machine) (v : Z) : outcome (Z * machine) := Ret (v, s).
Definition m_add (s : machine) (a b : Z) : outcome (Z * machine) := Ret (a + b, s).
(** A method that notes its first argument and returns the second one. *)
Definition m_note (s : machine) (a b : Z) : outcome (Z * machine) := Ret (b, {| elements := elements s; fields := fields s; log := log s ++ [a] |}).
Definition m_build := build machine Z (fun i => i) 0.
Definition m_run := run machine Z m_read m_write m_new m_empty m_cast (fun i => i) 0.
Definition m_eval := eval machine Z m_read m_write m_new m_empty m_cast 0.
Notation E := (EConst machine Z).
Definition noting (name value : Z) : expr machine Z := ECall machine Z m_note (E name) (E value).

(** note(1, array)->[note(2, 0)]{f} += note(3, 5): each operand once, in order. *)
Definition update : expr machine Z := ESpecial machine Z (KElemField [102]) [noting 1 7; noting 2 0] m_add false (noting 3 5).
Definition start : machine := {| elements := [0; 1]; fields := [10; 20]; log := [] |}.
Example C72_update_accepted : exists c n, m_build update 4 = Ret (c, n) /\ n = 7%nat.
Proof. do 2 eexists. split; reflexivity. Qed.
Example C72_update_value : m_run update start = Ret (15, {| elements := [0; 1]; fields := [15; 20]; log := [1; 2; 3] |}).
Proof. reflexivity. Qed.
(** [$array->[0]++, 4]: the element is updated before the new array is there. *)
Definition literal : expr machine Z := EInit machine Z false [ESpecial machine Z KElem [E 7; E 0] m_add true (E 1); noting 1 4].
Example C72_literal_accepted : exists r, m_build literal 0 = Ret r.
Proof. eexists. reflexivity. Qed.
Example C72_literal_value : m_run literal start = Ret (99, {| elements := [0; 4]; fields := [10; 20]; log := [1] |}).
Proof. reflexivity. Qed.
Example C72_pairs_refused : m_build (EInit machine Z true [E 1; E 2; E 3]) 0 = Die "The length of the elements must be an even number."
  /\ m_build (EInit machine Z false [EUndef machine Z; E 2]) 0 = Die "The first element in the array initialization must be defined."
  /\ ~ accepted machine Z (EInit machine Z false [EUndef machine Z; E 2]).
Proof. split; [reflexivity |]. split; [reflexivity |]. intros A. inversion A as [| | | | | | ? ? ? ? N]; subst. now apply (N [E 2]). Qed.

(** ARRAY->[0]{f} += (ARRAY->[0] = other object): the element is read again for the update, so
    that the field of the first object is added to and the result goes into the second one.
    OBJECT->{f} += RIGHT, where OBJECT is the same element behind a call, updates the first. *)
Theorem C72_same_object_refuted :
  let replace := EAssign machine Z KElem [E 7; E 0] (E 1) in
  let id := ECall machine Z m_note (E 0) (ERead machine Z KElem [E 7; E 0]) in
  (exists c n t, m_build (ESpecial machine Z (KElemField [102]) [E 7; E 0] m_add false replace) 0 = Ret (c, n)
     /\ m_eval c [] start = Ret (11, t, {| elements := [1; 1]; fields := [10; 11]; log := [] |}))
  /\ (exists c n t, m_build (ESpecial machine Z (KField [102]) [id] m_add false replace) 0 = Ret (c, n)
     /\ m_eval c [] start = Ret (11, t, {| elements := [1; 1]; fields := [11; 20]; log := [0] |})).
Proof. split; do 3 eexists; split; reflexivity. Qed.
Print Assumptions C72_same_object_refuted.

(** The operators that are built for nested expressions, on the small machine. *)
Definition built (e : expr machine Z) : outcome (Z * machine) :=
  let! (c, _) := m_build e 0 in let! (v, _, s) := m_eval c [] start in Ret (v, s).
Definition nested : expr machine Z :=
  ESpecial machine Z (KElemField [102]) [noting 1 7; ESpecial machine Z KElem [noting 2 7; noting 3 0] m_add true (noting 4 1)] m_add false
    (ESpecial machine Z (KField [102]) [ERead machine Z KElem [noting 5 7; noting 6 1]] (fun s a b => Ret (3 * a - b, s)) true (noting 7 (-2))).
Example C72_nested_built : built nested = Ret (40, {| elements := [1; 1]; fields := [10; 40]; log := [1; 2; 3; 4; 5; 6; 7] |}) /\ m_run nested start = built nested.
Proof. split; reflexivity. Qed.
Definition nested_init : expr machine Z :=
  EInit machine Z true [noting 1 3; EInit machine Z false []; noting 2 5; ESpecial machine Z KElem [noting 3 99; noting 4 2] m_add true (noting 5 6)].
Example C72_init_built : built (EInit machine Z false [noting 1 3; noting 2 4; noting 3 5]) = Ret (99, {| elements := [3; 4; 5]; fields := [10; 20]; log := [1; 2; 3] |})
  /\ built nested_init = m_run nested_init start.
Proof. split; reflexivity. Qed.
