(** * Proofs about numeric expressions *)

From Verif Require Import Base VmArith_model VmArith_spec VmArith_proofs Expr_model Expr_spec.

(** ** Types *)

Lemma nty_eqb_spec a b : reflect (a = b) (nty_eqb a b).
Proof. destruct a, b; constructor; congruence. Qed.
Lemma same_eqb a b : same a b = nty_eqb a b.
Proof. destruct a, b; reflexivity. Qed.
Lemma same_spec a b : reflect (a = b) (same a b).
Proof. rewrite same_eqb. apply nty_eqb_spec. Qed.
Lemma nty_eqb_refl a : nty_eqb a a = true.
Proof. destruct a; reflexivity. Qed.
Lemma same_refl a : same a a = true.
Proof. destruct a; reflexivity. Qed.

(** ** Outcomes *)

Inductive orel {A B} (R : A -> B -> Prop) : outcome A -> outcome B -> Prop :=
| orel_ret a b : R a b -> orel R (Ret a) (Ret b)
| orel_die m : orel R (Die m) (Die m)
| orel_ub : orel R UB UB
| orel_fuel : orel R Fuel Fuel.

Lemma orel_bind {A B A' B'} (R : A -> B -> Prop) (R' : A' -> B' -> Prop) o o' f g :
  orel R o o' -> (forall a b, R a b -> orel R' (f a) (g b)) ->
  orel R' (obind o f) (obind o' g).
Proof. intros [a b H | | |] K; cbn [obind]; auto; constructor. Qed.

Lemma orel_mono {A B} (R R' : A -> B -> Prop) o o' :
  orel R o o' -> (forall a b, R a b -> R' a b) -> orel R' o o'.
Proof. intros [a b H | | |] K; constructor; auto. Qed.

Lemma orel_refl {A} (R : A -> A -> Prop) o : (forall a, R a a) -> orel R o o.
Proof. destruct o; constructor; auto. Qed.

Section Float.
  Context {F D : Type} (fl : floats F D).
  Local Notation val := (val F D).
  Local Notation expr := (expr F D).
  Local Notation op := (op F D).
  Local Notation store := (nat -> val).
  Local Notation OVar := (OVar F D). Local Notation OConst := (OConst F D).
  Local Notation OUn := (OUn F D). Local Notation OBin := (OBin F D).
  Local Notation OCmp := (OCmp F D). Local Notation OCast := (OCast F D).
  Local Notation OAssign := (OAssign F D). Local Notation OSeq := (OSeq F D).
  Local Notation VI := (VI F D).
  Local Notation get_type := (get_type F D).
  Local Notation cast_to := (cast_to F D).

  Definition sub (T T' : tenv) : Prop := forall x t, T x = Some t -> T' x = Some t.
  Lemma sub_refl T : sub T T. Proof. intros x t; auto. Qed.
  Lemma sub_trans T T' T'' : sub T T' -> sub T' T'' -> sub T T''.
  Proof. intros A B x t H. auto. Qed.
  Lemma sub_set T x t : T x = None -> sub T (tset T x t).
  Proof. intros H y s E. unfold tset. destruct (Nat.eqb_spec y x); [congruence | auto]. Qed.

  (** ** The conversions of the code are those of the specification *)

  Lemma binary_type_common a b : binary_type a b = common a b.
  Proof. destruct a, b; reflexivity. Qed.

  Lemma promote_widen t (o : op) : promote F D t o = cast_to (widen t) t o.
  Proof. destruct t; reflexivity. Qed.

  Lemma bin_convert_ty b tl tr (l r : op) :
    bin_convert F D b tl tr l r =
    match bin_ty b tl tr with
    | Some w => Some (cast_to w tl l, cast_to (right_ty b w) tr r)
    | None => None
    end.
  Proof. destruct b, tl, tr; reflexivity. Qed.

  Lemma check_assign_cast d s (o : op) :
    check_assign F D d s o =
    if Nat.leb (rank s) (rank d) || allow_narrowing F D d s o then Some (cast_to d s o) else None.
  Proof. unfold check_assign, Expr_model.cast_to. destruct d, s; try reflexivity. Qed.

  Lemma wrapped_wrap t z : integral t = true -> wrapped t z = wrap_to t z.
  Proof.
    destruct t; intros I; try discriminate I; unfold wrapped, wrap_to, wrap8, wrap16, wrap32, wrap64, wrap;
      cbn [int_range fst snd]; rewrite ?Z.sub_opp_r; unfold Z.sub; reflexivity.
  Qed.

  Lemma run_conv_doc s d v : s <> d -> run_conv F D fl s d v = doc_conv fl s d v.
  Proof.
    intros N. unfold doc_conv. destruct (same_spec s d); [congruence |].
    destruct v; destruct s; destruct d; try congruence; try reflexivity;
      cbn [run_conv integral rank Nat.leb]; rewrite wrapped_wrap by reflexivity; reflexivity.
  Qed.

  Lemma run_bin_doc b t v w : run_bin F D fl b t v w = doc_bin fl b t v w.
  Proof. destruct t, v, w, b; reflexivity. Qed.

  Lemma run_un_doc u t v : u <> UPlus -> run_un F D fl u t v = doc_un fl u t v.
  Proof. intros N. destruct u; [congruence | |]; destruct t, v; reflexivity. Qed.

  Lemma compare_order {A} (lt eq le : A -> A -> bool) c a b :
    compare F D lt eq le c a b = VI (doc_order c (lt a b) (eq a b) (lt b a) (le a b) (le b a)).
  Proof. destruct c; cbn; unfold bool_val; try destruct (eq a b); reflexivity. Qed.

  Lemma run_cmp_doc c t v w : run_cmp F D fl c t v w = doc_cmp fl c t v w.
  Proof. destruct t, v, w; cbn; rewrite ?compare_order; reflexivity. Qed.

  (** ** Evaluation of a checked tree, by value *)

  Definition tyo (T : tenv) (o : op) : nty := match get_type T o with Some t => t | None => TInt end.
  Definition bty (b : binop) (t : nty) : nty :=
    match b with BDivUInt | BModUInt => TInt | BDivULong | BModULong => TLong | _ => t end.

  Fixpoint ceval (T : tenv) (o : op) (st : store) : outcome (val * store) :=
    match o with
    | Expr_model.OVar _ _ x => Ret (st x, st)
    | Expr_model.OConst _ _ _ v => Ret (v, st)
    | Expr_model.OUn _ _ u a =>
        let! p := ceval T a st in
        let! v := match u with UPlus => Ret (fst p) | _ => run_un F D fl u (tyo T a) (fst p) end in
        Ret (v, snd p)
    | Expr_model.OBin _ _ b _ l r =>
        let! p := ceval T l st in
        let! q := ceval T r (snd p) in
        let! v := run_bin F D fl b (bty b (tyo T l)) (fst p) (fst q) in Ret (v, snd q)
    | Expr_model.OCmp _ _ c l r =>
        let! p := ceval T l st in
        let! q := ceval T r (snd p) in
        let! v := run_cmp F D fl c (tyo T l) (fst p) (fst q) in Ret (v, snd q)
    | Expr_model.OCast _ _ d a =>
        let! p := ceval T a st in
        let! v := if nty_eqb (tyo T a) d then Ret (fst p) else run_conv F D fl (tyo T a) d (fst p) in
        Ret (v, snd p)
    | Expr_model.OAssign _ _ x a =>
        let! p := ceval T a st in Ret (fst p, supd (snd p) x (fst p))
    | Expr_model.OSeq _ _ a b => let! p := ceval T a st in ceval T b (snd p)
    end.

  Lemma ceval_cast T d s o st : get_type T o = Some s ->
    ceval T (cast_to d s o) st =
    (let! p := ceval T o st in let! v := doc_conv fl s d (fst p) in Ret (v, snd p)).
  Proof.
    intros G. unfold Expr_model.cast_to. destruct (nty_eqb_spec s d) as [-> | N].
    - unfold doc_conv. rewrite same_refl. destruct (ceval T o st) as [[v st'] | | |]; reflexivity.
    - cbn [ceval]. unfold tyo. rewrite G. destruct (nty_eqb_spec s d); [congruence |].
      destruct (ceval T o st) as [[v st'] | | |]; cbn [obind]; auto. rewrite run_conv_doc by auto. reflexivity.
  Qed.

  (** ** Trees that passed the check *)

  Definition const_ok (t : nty) (v : val) : Prop := value_ok t v /\ t <> TShort.

  Inductive wt (T : tenv) : op -> nty -> Prop :=
  | wt_var x t : T x = Some t -> wt T (OVar x) t
  | wt_const t v : const_ok t v -> wt T (OConst t v) t
  | wt_un u a t : wt T a t ->
      match u with UNot => int_type t | _ => arith_type t end = true -> wt T (OUn u a) t
  | wt_bin b n l r t t' : wt T l t -> wt T r t' ->
      t' = right_ty b t ->
      match b with
      | BAdd | BSub | BMul | BDiv => arith_type t
      | BDivUInt | BModUInt => nty_eqb t TInt
      | BDivULong | BModULong => nty_eqb t TLong
      | _ => int_type t
      end = true -> wt T (OBin b n l r) t
  | wt_cmp c l r t : wt T l t -> wt T r t -> arith_type t = true -> wt T (OCmp c l r) TInt
  | wt_cast d a s : wt T a s -> s <> d -> wt T (OCast d a) d
  | wt_assign x a t : wt T a t -> T x = Some t -> wt T (OAssign x a) t
  | wt_seq a b s t : wt T a s -> wt T b t -> wt T (OSeq a b) t.

  Lemma wt_type T o t : wt T o t -> get_type T o = Some t.
  Proof. induction 1; cbn [Expr_model.get_type]; auto. Qed.

  Lemma wt_mono T T' o t : wt T o t -> sub T T' -> wt T' o t.
  Proof. intros W S. induction W; econstructor; eauto. Qed.

  Lemma wt_tyo T T' o t : wt T o t -> sub T T' -> tyo T' o = t.
  Proof. intros W S. unfold tyo. rewrite (wt_type T' o t); auto. eapply wt_mono; eauto. Qed.

  Lemma wt_cast_to T d s o : wt T o s -> wt T (cast_to d s o) d.
  Proof.
    intros W. unfold Expr_model.cast_to. destruct (nty_eqb_spec s d) as [-> | N]; auto. econstructor; eauto.
  Qed.

  (** The variables a tree assigns; the ones it can be read from; the two
      restrictions. *)
  Fixpoint oassigned (o : op) : list nat :=
    match o with
    | Expr_model.OVar _ _ _ | Expr_model.OConst _ _ _ _ => []
    | Expr_model.OUn _ _ _ a | Expr_model.OCast _ _ _ a => oassigned a
    | Expr_model.OBin _ _ _ _ l r | Expr_model.OCmp _ _ _ l r | Expr_model.OSeq _ _ l r =>
        oassigned l ++ oassigned r
    | Expr_model.OAssign _ _ x a => x :: oassigned a
    end.
  Fixpoint late (o : op) : list nat :=
    match o with
    | Expr_model.OVar _ _ x => [x]
    | Expr_model.OAssign _ _ x a => x :: late a
    | Expr_model.OSeq _ _ _ b => late b
    | _ => []
    end.
  Fixpoint ostable (o : op) : Prop :=
    match o with
    | Expr_model.OVar _ _ _ | Expr_model.OConst _ _ _ _ => True
    | Expr_model.OUn _ _ _ a | Expr_model.OCast _ _ _ a | Expr_model.OAssign _ _ _ a => ostable a
    | Expr_model.OBin _ _ _ _ l r | Expr_model.OCmp _ _ _ l r =>
        ostable l /\ ostable r /\ disjoint (late l) (oassigned r)
    | Expr_model.OSeq _ _ a b => ostable a /\ ostable b
    end.
  Definition is_seq (o : op) : bool := match o with Expr_model.OSeq _ _ _ _ => true | _ => false end.
  Definition is_nested (o : op) : bool := match o with Expr_model.OSeq _ _ _ b => is_seq b | _ => false end.
  Fixpoint ndrop (o : op) : Prop :=
    match o with
    | Expr_model.OVar _ _ _ | Expr_model.OConst _ _ _ _ => True
    | Expr_model.OUn _ _ _ a | Expr_model.OCast _ _ _ a => ndrop a
    | Expr_model.OAssign _ _ _ a => ndrop a /\ is_nested a = false
    | Expr_model.OBin _ _ _ _ l r | Expr_model.OCmp _ _ _ l r | Expr_model.OSeq _ _ l r => ndrop l /\ ndrop r
    end.

  Lemma oassigned_cast d s o : oassigned (cast_to d s o) = oassigned o.
  Proof. unfold Expr_model.cast_to. destruct (nty_eqb s d); reflexivity. Qed.
  Lemma ostable_cast d s o : ostable o -> ostable (cast_to d s o).
  Proof. unfold Expr_model.cast_to. destruct (nty_eqb s d); auto. Qed.
  Lemma ndrop_cast d s o : ndrop o -> ndrop (cast_to d s o).
  Proof. unfold Expr_model.cast_to. destruct (nty_eqb s d); auto. Qed.
  Lemma late_cast d s o : late (cast_to d s o) = if same s d then late o else [].
  Proof. unfold Expr_model.cast_to. rewrite same_eqb. destruct (nty_eqb s d); reflexivity. Qed.
  Lemma is_seq_cast d s o : is_seq (cast_to d s o) = same s d && is_seq o.
  Proof. unfold Expr_model.cast_to. rewrite same_eqb. destruct (nty_eqb s d); reflexivity. Qed.
  Lemma is_nested_cast d s o : is_nested (cast_to d s o) = same s d && is_nested o.
  Proof. unfold Expr_model.cast_to. rewrite same_eqb. destruct (nty_eqb s d); reflexivity. Qed.

  (** Evaluation changes only what the tree assigns. *)
  Lemma ceval_frame T o st v st' x : ceval T o st = Ret (v, st') -> ~ In x (oassigned o) -> st' x = st x.
  Proof.
    revert st v st'. induction o; cbn [ceval oassigned]; intros st v0 st' E N; rewrite ?in_app_iff in N.
    - congruence.
    - congruence.
    - destruct (ceval T o st) as [[v1 st1] | | |] eqn:E1; cbn [obind fst snd] in E; try discriminate.
      destruct (match u with UPlus => _ | _ => _ end) in E; cbn [obind] in E; try discriminate.
      injection E as <- <-. eauto.
    - destruct (ceval T o1 st) as [[v1 st1] | | |] eqn:E1; cbn [obind fst snd] in E; try discriminate.
      destruct (ceval T o2 st1) as [[v2 st2] | | |] eqn:E2; cbn [obind fst snd] in E; try discriminate.
      destruct (run_bin _ _ _ _ _ _ _); cbn [obind] in E; try discriminate. injection E as <- <-.
      rewrite (IHo2 _ _ _ E2), (IHo1 _ _ _ E1); tauto.
    - destruct (ceval T o1 st) as [[v1 st1] | | |] eqn:E1; cbn [obind fst snd] in E; try discriminate.
      destruct (ceval T o2 st1) as [[v2 st2] | | |] eqn:E2; cbn [obind fst snd] in E; try discriminate.
      destruct (run_cmp _ _ _ _ _ _ _); cbn [obind] in E; try discriminate. injection E as <- <-.
      rewrite (IHo2 _ _ _ E2), (IHo1 _ _ _ E1); tauto.
    - destruct (ceval T o st) as [[v1 st1] | | |] eqn:E1; cbn [obind fst snd] in E; try discriminate.
      destruct (if nty_eqb _ _ then _ else _) in E; cbn [obind] in E; try discriminate.
      injection E as <- <-. eauto.
    - destruct (ceval T o st) as [[v1 st1] | | |] eqn:E1; cbn [obind fst snd] in E; try discriminate.
      injection E as <- <-. cbn in N. unfold supd.
      destruct (Nat.eqb_spec x x0) as [-> | _]; [tauto |]. eapply IHo; eauto.
    - destruct (ceval T o1 st) as [[v1 st1] | | |] eqn:E1; cbn [obind fst snd] in E; try discriminate.
      rewrite (IHo2 _ _ _ E), (IHo1 _ _ _ E1); tauto.
  Qed.

  (** ** The tree built and checked means what the source means *)
  Section Check.
    Variables (T0 : nat -> option nty) (n0 : nat).
    Hypothesis fresh0 : forall x, (n0 <= x)%nat -> T0 x = None.

    Definition agree (st st' : store) : Prop := forall x, (x < n0)%nat -> st x = st' x.
    Definition prel (p q : val * store) : Prop := fst p = fst q /\ agree (snd p) (snd q).

    Definition env_ok (n n1 : nat) (T : tenv) : Prop :=
      (forall x, (x < n0)%nat -> T x = T0 x) /\ (forall x, (n <= x < n1)%nat -> T x = None).

    Record good (n n1 : nat) (T T1 : tenv) (e : expr) (o : op) (t : nty) : Prop := Good {
      g_frame : forall x, (x < n \/ n1 <= x)%nat -> T1 x = T x;
      g_wt : wt T1 o t;
      g_assigned : forall x, In x (oassigned o) -> In x (assigned e) \/ (n <= x < n1)%nat;
      g_late : forall x, In x (late o) -> In x (passes T0 e) \/ (n <= x < n1)%nat;
      g_stable : stable T0 e -> ostable o;
      g_drop : not_dropped T0 e -> ndrop o;
      g_lit : forall d, (rank d < rank t)%nat -> allow_narrowing F D d t o = narrowing_literal T0 d e;
      g_seq : is_seq o = ends_in_update T0 e;
      g_nested : is_nested o = nested T0 e;
      g_sim : forall T' st sto, sub T1 T' -> agree st sto ->
        orel prel (eval fl T0 e st) (ceval T' o sto) }.

    Lemma declared x : T0 x <> None -> (x < n0)%nat.
    Proof. intros H. destruct (Nat.lt_ge_cases x n0); auto. rewrite fresh0 in H by auto. congruence. Qed.

    Lemma good_sub n n1 T T1 e o t : env_ok n n1 T -> good n n1 T T1 e o t -> sub T T1.
    Proof.
      intros (_ & N) G x s E. destruct (Nat.lt_ge_cases x n); [rewrite (g_frame _ _ _ _ _ _ _ G); auto |].
      destruct (Nat.lt_ge_cases x n1); [rewrite N in E by lia; discriminate | rewrite (g_frame _ _ _ _ _ _ _ G); auto].
    Qed.

    Lemma good_env n n1 m T T1 e o t : (n0 <= n)%nat -> env_ok n m T -> (n1 <= m)%nat -> (n <= n1)%nat ->
      good n n1 T T1 e o t -> env_ok n1 m T1.
    Proof.
      intros L (A & B) M M' G. split; intros x H; rewrite (g_frame _ _ _ _ _ _ _ G) by lia; [apply A | apply B]; lia.
    Qed.

    Lemma env_sub n n1 m m1 T : env_ok n n1 T -> (n <= m)%nat -> (m1 <= n1)%nat -> env_ok m m1 T.
    Proof. intros (A & B) L M. split; intros x H; [auto | apply B; lia]. Qed.

    Lemma build_le (e : expr) : forall n, (n <= snd (build F D e n))%nat.
    Proof.
      induction e; intros n; cbn [build]; try (cbn; lia).
      - specialize (IHe n). destruct (build F D e n). exact IHe.
      - specialize (IHe1 n). destruct (build F D e1 n) as [? n1]. specialize (IHe2 n1).
        destruct (build F D e2 n1). cbn in *. lia.
      - specialize (IHe1 n). destruct (build F D e1 n) as [? n1]. specialize (IHe2 n1).
        destruct (build F D e2 n1). cbn in *. lia.
      - specialize (IHe n). destruct (build F D e n). exact IHe.
      - specialize (IHe n). destruct (build F D e n). exact IHe.
      - specialize (IHe n). destruct (build F D e n). cbn in *. lia.
      - specialize (IHe1 n). destruct (build F D e1 n) as [? n1]. specialize (IHe2 n1).
        destruct (build F D e2 n1). cbn in *. lia.
    Qed.

    Lemma assigned_lt (e : expr) x : well_formed T0 e -> In x (assigned e) -> (x < n0)%nat.
    Proof.
      induction e; cbn [well_formed assigned]; intros W I; try (now destruct I); rewrite ?in_app_iff in *;
        try tauto.
      - destruct W. destruct I as [<- | I]; [apply declared; auto | tauto].
      - destruct W. destruct I as [<- | I]; [apply declared; auto | tauto].
      - destruct I as [<- | []]. apply declared; auto.
    Qed.
    Lemma passes_lt (e : expr) x : well_formed T0 e -> In x (passes T0 e) -> (x < n0)%nat.
    Proof.
      induction e; cbn [well_formed passes]; intros W I; try (now destruct I); try tauto.
      - destruct I as [<- | []]. apply declared; auto.
      - destruct (same _ _); [tauto | destruct I].
      - destruct W. destruct I as [<- | I]; [apply declared; auto |].
        destruct (same _ _); [tauto | destruct I].
      - destruct I as [<- | []]. apply declared; tauto.
      - destruct post; [destruct I |]. destruct I as [<- | []]. apply declared; auto.
    Qed.

    (** The two operands of a binary operator or comparison, converted. *)
    Lemma sim_pair n n1 n2 T T1 T2 l r o1 o2 tl tr w wr :
      good n n1 T T1 l o1 tl -> good n1 n2 T1 T2 r o2 tr ->
      ty T0 l = Some tl -> ty T0 r = Some tr -> sub T1 T2 ->
      forall T' st sto (A : Type) (R : A -> val * store -> Prop) f g,
      sub T2 T' -> agree st sto ->
      (forall v v' s s', agree s s' -> orel R (f v v' s) (g v v' s')) ->
      orel R
        (let! p := eval fl T0 l st in
         let! v := doc_conv fl tl w (fst p) in
         let! q := eval fl T0 r (snd p) in
         let! v' := doc_conv fl tr wr (fst q) in f v v' (snd q))
        (let! p := ceval T' (cast_to w tl o1) sto in
         let! q := ceval T' (cast_to wr tr o2) (snd p) in g (fst p) (fst q) (snd q)).
    Proof.
      intros G1 G2 Y1 Y2 S T' st sto A R f g S' Ag K.
      rewrite (ceval_cast T' w tl o1)
        by (apply wt_type; eapply wt_mono; [eapply g_wt; eauto | eapply sub_trans; eauto]).
      pose proof (g_sim _ _ _ _ _ _ _ G1 T' st sto (sub_trans _ _ _ S S') Ag) as M1.
      destruct M1 as [[v1 s1] [v1' s1'] (E1 & Ag1) | | |]; cbn [obind fst snd] in *; try constructor. subst v1'.
      destruct (doc_conv fl tl w v1) as [c1 | | |]; cbn [obind fst snd]; try constructor.
      rewrite (ceval_cast T' wr tr o2)
        by (apply wt_type; eapply wt_mono; [eapply g_wt; eauto | eauto]).
      pose proof (g_sim _ _ _ _ _ _ _ G2 T' s1 s1' S' Ag1) as M2.
      destruct M2 as [[v2 s2] [v2' s2'] (E2 & Ag2) | | |]; cbn [obind fst snd] in *; try constructor. subst v2'.
      destruct (doc_conv fl tr wr v2) as [c2 | | |]; cbn [obind fst snd]; try constructor. auto.
    Qed.

    Lemma typ_eq (e : expr) t : ty T0 e = Some t -> typ T0 e = t.
    Proof. intros E. unfold typ. rewrite E. reflexivity. Qed.

    Lemma bin_ty_wt b tl tr w : bin_ty b tl tr = Some w ->
      match b with
      | BAdd | BSub | BMul | BDiv => arith_type w
      | BDivUInt | BModUInt => nty_eqb w TInt
      | BDivULong | BModULong => nty_eqb w TLong
      | _ => int_type w
      end = true /\ bty b w = w.
    Proof. destruct b, tl, tr; cbn; intros E; try discriminate; injection E as <-; split; reflexivity. Qed.

    Lemma common_arith a b : arith_type (common a b) = true.
    Proof. destruct a, b; reflexivity. Qed.
    Lemma widen_arith a : arith_type (widen a) = true.
    Proof. destruct a; reflexivity. Qed.

    Definition special_tree (b : binop) (x old : nat) (d w s : nty) (o : op) : op :=
      OSeq (OAssign old (OVar x))
        (OAssign x (cast_to d w (OBin b true (cast_to w d (OVar old)) (cast_to (right_ty b w) s o)))).

    Section Special.
      Variables (b : binop) (x : nat) (a : expr) (d s w : nty) (oa : op) (n n1 : nat) (T T1 : tenv) (o1 : op).
      Hypothesis X : T0 x = Some d.
      Hypothesis Ya : ty T0 a = Some s.
      Hypothesis W : well_formed T0 a.
      Hypothesis Yb : bin_ty b d s = Some w.
      Hypothesis L : (n0 <= n <= n1)%nat.
      Hypothesis E : env_ok n (S n1) T.
      Hypothesis Ck : check F D (tset T n1 (Some d)) oa = Some (T1, o1).
      Hypothesis G : good n n1 (tset T n1 (Some d)) T1 a o1 s.

      Lemma sp_x : (x < n0)%nat.
      Proof. apply declared. congruence. Qed.
      Lemma sp_T1n : T1 n1 = Some d.
      Proof. rewrite (g_frame _ _ _ _ _ _ _ G) by lia. unfold tset. rewrite Nat.eqb_refl. reflexivity. Qed.
      Lemma sp_T1x : T1 x = Some d.
      Proof.
        pose proof sp_x. rewrite (g_frame _ _ _ _ _ _ _ G) by lia. unfold tset.
        destruct (Nat.eqb_spec x n1); [lia |]. destruct E as (A & _). rewrite A; auto.
      Qed.
      Lemma sp_late : ~ In n1 (oassigned o1).
      Proof.
        intros I. destruct (g_assigned _ _ _ _ _ _ _ G _ I) as [I' | I']; [| lia].
        pose proof (assigned_lt _ _ W I'). lia.
      Qed.

      Lemma special_check :
        check F D T (special_assign F D false b x n1 oa) = Some (T1, special_tree b x n1 d w s o1).
      Proof.
        pose proof sp_x as Lx. destruct E as (A & B).
        unfold special_assign. cbn [check Expr_model.get_type]. rewrite A, X by auto.
        rewrite B by lia. cbn [tset]. unfold tset at 1. rewrite Nat.eqb_refl.
        rewrite check_assign_cast. rewrite Nat.leb_refl. cbn [orb].
        assert (CT : cast_to d d (OVar x) = OVar x) by (unfold Expr_model.cast_to; rewrite nty_eqb_refl; auto).
        rewrite CT, Ck. rewrite sp_T1n. rewrite (wt_type _ _ _ (g_wt _ _ _ _ _ _ _ G)).
        rewrite bin_convert_ty, Yb. cbn [Expr_model.get_type].
        assert (GC : get_type T1 (cast_to w d (OVar n1)) = Some w).
        { apply wt_type, wt_cast_to. constructor. apply sp_T1n. }
        rewrite GC, sp_T1x. rewrite sp_T1x. rewrite check_assign_cast. cbn [allow_narrowing].
        rewrite orb_true_r. reflexivity.
      Qed.

      Lemma special_wt : wt T1 (special_tree b x n1 d w s o1) d.
      Proof.
        econstructor.
        - econstructor; [constructor; apply sp_T1x | apply sp_T1n].
        - constructor; [| apply sp_T1x]. apply wt_cast_to. destruct (bin_ty_wt _ _ _ _ Yb).
          econstructor; [apply wt_cast_to; constructor; apply sp_T1n | apply wt_cast_to, (g_wt _ _ _ _ _ _ _ G) | reflexivity | auto].
      Qed.

      Lemma special_sim T' st sto : sub T1 T' -> agree st sto ->
        orel (fun p q => prel p q /\ snd q n1 = st x) (eval fl T0 (EOpAssign F D b x a) st)
          (ceval T' (special_tree b x n1 d w s o1) sto).
      Proof.
        intros S Ag. pose proof sp_x as Lx.
        assert (V : vtyp T0 x = d) by (unfold vtyp; rewrite X; reflexivity).
        unfold special_tree. cbn [ceval obind fst snd eval]. rewrite V, (typ_eq _ _ Ya), Yb. clear V.
        set (sto1 := supd sto n1 (sto x)).
        rewrite ceval_cast
          by (cbn [Expr_model.get_type]; apply wt_type, wt_cast_to; constructor; apply S, sp_T1n).
        cbn [ceval]. rewrite ceval_cast by (cbn [Expr_model.get_type]; apply S, sp_T1n).
        cbn [ceval obind fst snd].
        assert (S1 : sto1 n1 = st x).
        { unfold sto1, supd. rewrite Nat.eqb_refl. symmetry. apply Ag; auto. }
        rewrite S1. destruct (doc_conv fl d w (st x)) as [v | | |]; cbn [obind fst snd]; try constructor.
        rewrite ceval_cast by (apply wt_type; eapply wt_mono; [eapply g_wt; eauto | auto]).
        assert (Ag1 : agree st sto1).
        { intros y H. unfold sto1, supd. destruct (Nat.eqb_spec y n1); [lia | apply Ag; auto]. }
        pose proof (g_sim _ _ _ _ _ _ _ G T' st sto1 S Ag1) as M.
        destruct (ceval T' o1 sto1) as [[v2' s2'] | | |] eqn:C; inversion M as [p q (Ev & Ag2) | | |]; subst;
          cbn [obind]; try constructor. destruct p as [v2 s2]. cbn [fst snd] in *. subst v2'.
        destruct (doc_conv fl s (right_ty b w) v2) as [v3 | | |]; cbn [obind fst snd]; try constructor.
        assert (TY : tyo T' (cast_to w d (OVar n1)) = w).
        { unfold tyo. replace (get_type T' (cast_to w d (OVar n1))) with (Some w); auto.
          symmetry. apply wt_type, wt_cast_to. constructor. apply S, sp_T1n. }
        rewrite TY. destruct (bin_ty_wt _ _ _ _ Yb) as (_ & ->). rewrite run_bin_doc.
        destruct (doc_bin fl b w v v3) as [z | | |]; cbn [obind fst snd]; try constructor.
        destruct (doc_conv fl w d z) as [z' | | |]; cbn [obind fst snd]; try constructor.
        split; [split; [reflexivity |] |]; cbn [snd].
        - intros y Hy. unfold supd. destruct (Nat.eqb y x); auto.
        - unfold supd. destruct (Nat.eqb_spec n1 x); [lia |].
          rewrite (ceval_frame _ _ _ _ _ _ C sp_late). auto.
      Qed.

      Lemma special_good : good n (S n1) T T1 (EOpAssign F D b x a) (special_tree b x n1 d w s o1) d.
      Proof.
        pose proof sp_x as Lx. constructor.
        - intros y H. rewrite (g_frame _ _ _ _ _ _ _ G) by lia. unfold tset.
          destruct (Nat.eqb_spec y n1); [lia | auto].
        - apply special_wt.
        - cbn [special_tree oassigned assigned app In]. intros y [<- | [<- | I]]; [right; lia | auto |].
          rewrite oassigned_cast in I. cbn [oassigned] in I. rewrite !oassigned_cast in I. cbn [oassigned app] in I.
          destruct (g_assigned _ _ _ _ _ _ _ G _ I); [auto | right; lia].
        - cbn [special_tree late passes In]. intros y [<- | I]; [auto |]. rewrite late_cast in I.
          destruct (same w d); destruct I.
        - cbn [stable]. intros S. cbn [special_tree ostable]. split; [exact I |]. apply ostable_cast.
          cbn [ostable]. split; [apply ostable_cast; exact I |].
          split; [apply ostable_cast, (g_stable _ _ _ _ _ _ _ G); auto |].
          rewrite late_cast, oassigned_cast. destruct (same d w); [| intros y []].
          intros y [<- | []]. apply sp_late.
        - cbn [not_dropped]. intros S. cbn [special_tree ndrop is_nested]. split; [split; auto |]. split.
          + apply ndrop_cast. cbn [ndrop]. split; apply ndrop_cast; [exact I |]. apply (g_drop _ _ _ _ _ _ _ G); auto.
          + rewrite is_nested_cast. cbn. apply andb_false_r.
        - intros k _. reflexivity.
        - reflexivity.
        - reflexivity.
        - intros T' st sto S Ag. eapply orel_mono; [apply special_sim; auto | tauto].
      Qed.
    End Special.

    Lemma good_const n T t v : const_ok t v -> good n n T T (EConst F D t v) (OConst t v) t.
    Proof.
      intros C. constructor; try (now cbn; intros; try reflexivity; tauto).
      - constructor. auto.
      - intros d R. cbn [allow_narrowing narrowing_literal].
        assert (E : (tid d <? tid t) = true) by (destruct d, t; cbn in R |- *; auto; lia). rewrite E.
        destruct C as (C & NS). destruct t, v; try destruct C; try reflexivity; try congruence;
          destruct d; cbn in R; try lia; try reflexivity; unfold in_range; cbn [int_range fst snd integral rank Nat.leb andb];
          f_equal; try (change (- 2 ^ 7) with (-128)); try (change (2 ^ 7) with 128);
          try (change (- 2 ^ 15) with (-32768)); try (change (2 ^ 15) with 32768);
          try (change (- 2 ^ 31) with (-2147483648)); try (change (2 ^ 31) with 2147483648); auto;
          apply Bool.eq_iff_eq_true; rewrite Z.leb_le, Z.ltb_lt; lia.
      - intros T' st sto S Ag. constructor. split; auto.
    Qed.

    Lemma good_post n n1 T T1 b x (d w : nty) o t :
      good n (S n1) T T1 (EOpAssign F D b x (EConst F D TInt (VI 1))) o t ->
      (forall T' st sto, sub T1 T' -> agree st sto ->
        orel (fun p q => prel p q /\ snd q n1 = st x)
          (eval fl T0 (EOpAssign F D b x (EConst F D TInt (VI 1))) st) (ceval T' o sto)) ->
      T1 n1 = Some d -> (n <= n1)%nat -> is_seq o = true -> T0 x = Some d -> b = BAdd \/ b = BSub -> t = d ->
      good n (S n1) T T1 (EInc F D (match b with BAdd => false | _ => true end) true x) (OSeq o (OVar n1)) d.
    Proof.
      intros G K E L Sq X B ->. constructor.
      - apply (g_frame _ _ _ _ _ _ _ G).
      - econstructor; [apply (g_wt _ _ _ _ _ _ _ G) | constructor; auto].
      - cbn [oassigned]. rewrite app_nil_r. apply (g_assigned _ _ _ _ _ _ _ G).
      - intros y [<- | []]. right. lia.
      - intros _. split; [apply (g_stable _ _ _ _ _ _ _ G) |]; exact I.
      - intros _. split; [apply (g_drop _ _ _ _ _ _ _ G) |]; exact I.
      - reflexivity.
      - reflexivity.
      - reflexivity.
      - intros T' st sto S Ag. pose proof (K T' st sto S Ag) as M. cbn [eval ceval] in M |- *.
        assert (V : vtyp T0 x = d) by (unfold vtyp; rewrite X; reflexivity).
        rewrite V in *. clear V.
        assert (R : right_ty b (common d TInt) = common d TInt) by (destruct B as [-> | ->]; reflexivity).
        assert (Y : bin_ty b d TInt = Some (common d TInt)) by (destruct B as [-> | ->]; reflexivity).
        unfold typ in M. cbn [ty obind fst snd] in M. rewrite Y, R in M.
        assert (Bb : (if match b with BAdd => false | _ => true end then BSub else BAdd) = b)
          by (destruct B as [-> | ->]; reflexivity).
        rewrite Bb.
        destruct (doc_conv fl d (common d TInt) (st x)) as [v | | |]; cbn [obind] in M |- *;
          [| inversion M; constructor ..].
        destruct (doc_conv fl TInt (common d TInt) (VI 1)) as [v' | | |]; cbn [obind] in M |- *;
          [| inversion M; constructor ..].
        destruct (doc_bin fl b (common d TInt) v v') as [z | | |]; cbn [obind] in M |- *;
          [| inversion M; constructor ..].
        destruct (doc_conv fl (common d TInt) d z) as [z' | | |]; cbn [obind] in M |- *;
          [| inversion M; constructor ..].
        inversion M as [p q ((E1 & E2) & E3) Ep Eq | | |]. cbn [obind fst snd] in *. constructor. split; auto.
    Qed.

    Lemma eval_pre dec x st :
      eval fl T0 (EInc F D dec false x) st =
      eval fl T0 (EOpAssign F D (if dec then BSub else BAdd) x (EConst F D TInt (VI 1))) st.
    Proof.
      cbn [eval obind fst snd]. unfold typ. cbn [ty].
      destruct dec; cbn [bin_ty right_ty]; reflexivity.
    Qed.

    Lemma good_pre n n1 T T1 (dec : bool) x o t :
      good n n1 T T1 (EOpAssign F D (if dec then BSub else BAdd) x (EConst F D TInt (VI 1))) o t ->
      good n n1 T T1 (EInc F D dec false x) o t.
    Proof.
      intros G. destruct G as [g1 g2 g3 g4 g5 g6 g7 g8 g9 g10]. constructor; auto.
      intros T' st sto. rewrite eval_pre. apply g10.
    Qed.

    Lemma ty_assign x (a : expr) : ty T0 (EAssign F D x a) =
      match ty T0 a, T0 x with
      | Some s, Some d => if Nat.leb (rank s) (rank d) || narrowing_literal T0 d a then Some d else None
      | _, _ => None
      end.
    Proof. reflexivity. Qed.

    Lemma build_check (e : expr) : forall n T, (n0 <= n)%nat -> well_formed T0 e ->
      env_ok n (snd (build F D e n)) T ->
      match ty T0 e with
      | Some t => exists T1 o1, check F D T (fst (build F D e n)) = Some (T1, o1) /\
                                good n (snd (build F D e n)) T T1 e o1 t
      | None => check F D T (fst (build F D e n)) = None
      end.
    Proof.
      induction e as [x | t v | u a IHa | b l IHl r IHr | c l IHl r IHr | t a IHa | x a IHa | b x a IHa | dec post x | a IHa b IHb];
        intros n T L W E; cbn [well_formed] in W; rewrite ?ty_assign; cbn [build ty] in *.
      - (* variable *)
        cbn [fst snd] in *. destruct (T0 x) as [t |] eqn:X; [| congruence].
        exists T, (OVar x). split; [reflexivity |].
        assert (Lx : (x < n0)%nat) by (apply declared; congruence).
        constructor; try (now cbn; intros; try reflexivity; tauto).
        + constructor. destruct E as (A & _). rewrite A; auto.
        + intros T' st sto S Ag. constructor. split; [apply Ag; auto | auto].
      - (* literal *)
        cbn [fst snd check] in *. exists T, (OConst t v). split; [reflexivity |]. apply good_const. auto.
      - (* unary *)
        specialize (IHa n T L W). destruct (build F D a n) as [oa n1] eqn:Eb. cbn [fst snd] in *.
        specialize (IHa E). destruct (ty T0 a) as [t |] eqn:Ya; [| cbn [check]; rewrite IHa; reflexivity].
        destruct IHa as (T1 & o1 & C & G). cbn [check]. rewrite C, (wt_type _ _ _ (g_wt _ _ _ _ _ _ _ G)).
        assert (U : match u with UPlus | UMinus => Some (widen t) | UNot => if integral t then Some (widen t) else None end
                    = if un_operand_ok u t then Some (widen t) else None).
        { destruct u, t; reflexivity. }
        rewrite U. destruct (un_operand_ok u t) eqn:Uo; [| reflexivity].
        exists T1, (OUn u (cast_to (widen t) t o1)). rewrite promote_widen. split; [reflexivity |].
        constructor; try (now cbn; intros; try reflexivity; tauto).
        + apply (g_frame _ _ _ _ _ _ _ G).
        + constructor; [apply wt_cast_to, (g_wt _ _ _ _ _ _ _ G) |]. destruct u, t; try discriminate Uo; reflexivity.
        + cbn [oassigned]. rewrite oassigned_cast. apply (g_assigned _ _ _ _ _ _ _ G).
        + cbn [stable ostable]. intros St. apply ostable_cast, (g_stable _ _ _ _ _ _ _ G St).
        + cbn [not_dropped ndrop]. intros St. apply ndrop_cast, (g_drop _ _ _ _ _ _ _ G St).
        + intros T' st sto S Ag. cbn [eval ceval]. rewrite (typ_eq _ _ Ya).
          rewrite ceval_cast by (apply wt_type; eapply wt_mono; [eapply g_wt; eauto | auto]).
          destruct (g_sim _ _ _ _ _ _ _ G T' st sto S Ag) as [[v1 s1] [v1' s1'] (E1 & Ag1) | | |];
            cbn [obind fst snd] in *; try constructor. subst v1'.
          destruct (doc_conv fl t (widen t) v1) as [v2 | | |]; cbn [obind fst snd]; try constructor.
          erewrite (wt_tyo T1 T'); [| apply wt_cast_to, (g_wt _ _ _ _ _ _ _ G) | auto].
          assert (Q : match u with UPlus => Ret v2 | _ => run_un F D fl u (widen t) v2 end = doc_un fl u (widen t) v2).
          { destruct u; [reflexivity | apply run_un_doc; congruence ..]. }
          rewrite Q. destruct (doc_un fl u (widen t) v2); cbn [obind]; constructor. split; auto.
      - (* binary *)
        destruct W as (Wl & Wr). pose proof (build_le l n) as Ll.
        destruct (build F D l n) as [ol n1] eqn:El. pose proof (build_le r n1) as Lr.
        destruct (build F D r n1) as [or n2] eqn:Er. cbn [fst snd] in *.
        specialize (IHl n T L Wl). rewrite El in IHl. cbn [fst snd] in IHl.
        assert (E0 : env_ok n n1 T) by (eapply env_sub; [exact E | lia | lia]).
        specialize (IHl E0). cbn [check].
        destruct (ty T0 l) as [tl |] eqn:Yl; [| rewrite IHl; reflexivity].
        destruct IHl as (T1 & o1 & C1 & G1). rewrite C1.
        assert (E1 : env_ok n1 n2 T1) by (eapply good_env; eauto).
        specialize (IHr n1 T1 ltac:(lia) Wr). rewrite Er in IHr. cbn [fst snd] in IHr. specialize (IHr E1).
        destruct (ty T0 r) as [tr |] eqn:Yr; [| rewrite IHr; reflexivity].
        destruct IHr as (T2 & o2 & C2 & G2). rewrite C2.
        assert (S12 : sub T1 T2) by (eapply good_sub; eauto).
        rewrite (wt_type T2 o1 tl) by (eapply wt_mono; [eapply g_wt; eauto | auto]).
        rewrite (wt_type T2 o2 tr) by (eapply g_wt; eauto).
        rewrite bin_convert_ty. destruct (bin_ty b tl tr) as [w |] eqn:Yb; [| reflexivity].
        eexists _, _. split; [reflexivity |].
        assert (TE : typ T0 (EBin F D b l r) = w) by (unfold typ; cbn [ty]; rewrite Yl, Yr, Yb; reflexivity).
        destruct (bin_ty_wt _ _ _ _ Yb) as (Wb & Wb').
        constructor; try (now cbn; intros; try reflexivity; tauto).
        + intros y Hy. rewrite (g_frame _ _ _ _ _ _ _ G2), (g_frame _ _ _ _ _ _ _ G1) by lia. reflexivity.
        + econstructor; [apply wt_cast_to; eapply wt_mono; [eapply g_wt; eauto | auto]
                        | apply wt_cast_to; eapply g_wt; eauto | reflexivity | auto].
        + cbn [oassigned assigned]. rewrite !oassigned_cast. intros y. rewrite !in_app_iff. intros [I | I].
          * destruct (g_assigned _ _ _ _ _ _ _ G1 _ I); [auto | right; lia].
          * destruct (g_assigned _ _ _ _ _ _ _ G2 _ I); [auto | right; lia].
        + cbn [stable ostable]. rewrite TE. intros (Sl & Sr & Dj).
          split; [apply ostable_cast, (g_stable _ _ _ _ _ _ _ G1 Sl) |].
          split; [apply ostable_cast, (g_stable _ _ _ _ _ _ _ G2 Sr) |].
          rewrite late_cast, oassigned_cast. unfold passes_as in Dj. rewrite (typ_eq _ _ Yl) in Dj.
          destruct (same tl w); [| intros y []].
          intros y Iy Iy'. destruct (g_late _ _ _ _ _ _ _ G1 _ Iy) as [Jy | Jy], (g_assigned _ _ _ _ _ _ _ G2 _ Iy') as [Jy' | Jy'].
          * apply (Dj y); auto.
          * pose proof (passes_lt _ _ Wl Jy). lia.
          * pose proof (assigned_lt _ _ Wr Jy'). lia.
          * lia.
        + cbn [not_dropped ndrop]. intros (Sl & Sr).
          split; apply ndrop_cast; [apply (g_drop _ _ _ _ _ _ _ G1 Sl) | apply (g_drop _ _ _ _ _ _ _ G2 Sr)].
        + intros T' st sto S Ag.
          change (eval fl T0 (EBin F D b l r) st) with
            (let w := typ T0 (EBin F D b l r) in
             let! p := eval fl T0 l st in
             let! v := doc_conv fl (typ T0 l) w (fst p) in
             let! q := eval fl T0 r (snd p) in
             let! v' := doc_conv fl (typ T0 r) (right_ty b w) (fst q) in
             let! z := doc_bin fl b w v v' in Ret (z, snd q)).
          cbv zeta. rewrite TE, (typ_eq _ _ Yl), (typ_eq _ _ Yr).
          cbn [ceval].
          erewrite (wt_tyo T2 T'); [| apply wt_cast_to; eapply wt_mono; [eapply (g_wt _ _ _ _ _ _ _ G1) | auto] | auto].
          rewrite Wb'.
          eapply (sim_pair _ _ _ _ _ _ _ _ _ _ _ _ w (right_ty b w) G1 G2 Yl Yr S12 T' st sto _ prel
            (fun v v' s => let! z := doc_bin fl b w v v' in Ret (z, s))
            (fun v v' s => let! z := run_bin F D fl b w v v' in Ret (z, s))); auto.
          intros v v' s s' Ag'. rewrite run_bin_doc. destruct (doc_bin fl b w v v'); cbn [obind]; constructor. split; auto.
      - (* comparison *)
        destruct W as (Wl & Wr). pose proof (build_le l n) as Ll.
        destruct (build F D l n) as [ol n1] eqn:El. pose proof (build_le r n1) as Lr.
        destruct (build F D r n1) as [or n2] eqn:Er. cbn [fst snd] in *.
        specialize (IHl n T L Wl). rewrite El in IHl. cbn [fst snd] in IHl.
        assert (E0 : env_ok n n1 T) by (eapply env_sub; [exact E | lia | lia]).
        specialize (IHl E0). cbn [check].
        destruct (ty T0 l) as [tl |] eqn:Yl; [| rewrite IHl; reflexivity].
        destruct IHl as (T1 & o1 & C1 & G1). rewrite C1.
        assert (E1 : env_ok n1 n2 T1) by (eapply good_env; eauto).
        specialize (IHr n1 T1 ltac:(lia) Wr). rewrite Er in IHr. cbn [fst snd] in IHr. specialize (IHr E1).
        destruct (ty T0 r) as [tr |] eqn:Yr; [| rewrite IHr; reflexivity].
        destruct IHr as (T2 & o2 & C2 & G2). rewrite C2.
        assert (S12 : sub T1 T2) by (eapply good_sub; eauto).
        rewrite (wt_type T2 o1 tl) by (eapply wt_mono; [eapply g_wt; eauto | auto]).
        rewrite (wt_type T2 o2 tr) by (eapply g_wt; eauto).
        rewrite binary_type_common. set (w := common tl tr).
        eexists _, _. split; [reflexivity |].
        constructor; try (now cbn; intros; try reflexivity; tauto).
        + intros y Hy. rewrite (g_frame _ _ _ _ _ _ _ G2), (g_frame _ _ _ _ _ _ _ G1) by lia. reflexivity.
        + econstructor; [apply wt_cast_to; eapply wt_mono; [eapply g_wt; eauto | auto]
                        | apply wt_cast_to; eapply g_wt; eauto | apply common_arith].
        + cbn [oassigned assigned]. rewrite !oassigned_cast. intros y. rewrite !in_app_iff. intros [I | I].
          * destruct (g_assigned _ _ _ _ _ _ _ G1 _ I); [auto | right; lia].
          * destruct (g_assigned _ _ _ _ _ _ _ G2 _ I); [auto | right; lia].
        + cbn [stable ostable]. rewrite (typ_eq _ _ Yl), (typ_eq _ _ Yr). fold w. intros (Sl & Sr & Dj).
          split; [apply ostable_cast, (g_stable _ _ _ _ _ _ _ G1 Sl) |].
          split; [apply ostable_cast, (g_stable _ _ _ _ _ _ _ G2 Sr) |].
          rewrite late_cast, oassigned_cast. unfold passes_as in Dj. rewrite (typ_eq _ _ Yl) in Dj.
          destruct (same tl w); [| intros y []].
          intros y Iy Iy'. destruct (g_late _ _ _ _ _ _ _ G1 _ Iy) as [Jy | Jy], (g_assigned _ _ _ _ _ _ _ G2 _ Iy') as [Jy' | Jy'].
          * apply (Dj y); auto.
          * pose proof (passes_lt _ _ Wl Jy). lia.
          * pose proof (assigned_lt _ _ Wr Jy'). lia.
          * lia.
        + cbn [not_dropped ndrop]. intros (Sl & Sr).
          split; apply ndrop_cast; [apply (g_drop _ _ _ _ _ _ _ G1 Sl) | apply (g_drop _ _ _ _ _ _ _ G2 Sr)].
        + intros T' st sto S Ag. cbn [eval ceval]. rewrite (typ_eq _ _ Yl), (typ_eq _ _ Yr). fold w.
          erewrite (wt_tyo T2 T'); [| apply wt_cast_to; eapply wt_mono; [eapply (g_wt _ _ _ _ _ _ _ G1) | auto] | auto].
          eapply (sim_pair _ _ _ _ _ _ _ _ _ _ _ _ w w G1 G2 Yl Yr S12 T' st sto _ prel
            (fun v v' s => let! z := doc_cmp fl c w v v' in Ret (z, s))
            (fun v v' s => let! z := run_cmp F D fl c w v v' in Ret (z, s))); auto.
          intros v v' s s' Ag'. rewrite run_cmp_doc. destruct (doc_cmp fl c w v v'); cbn [obind]; constructor. split; auto.
      - (* cast *)
        specialize (IHa n T L W). destruct (build F D a n) as [oa n1] eqn:Eb. cbn [fst snd] in *.
        specialize (IHa E). destruct (ty T0 a) as [s |] eqn:Ya; [| cbn [check]; rewrite IHa; reflexivity].
        destruct IHa as (T1 & o1 & C & G). cbn [check]. rewrite C, (wt_type _ _ _ (g_wt _ _ _ _ _ _ _ G)).
        exists T1, (cast_to t s o1). split; [reflexivity |].
        constructor.
        + apply (g_frame _ _ _ _ _ _ _ G).
        + apply wt_cast_to, (g_wt _ _ _ _ _ _ _ G).
        + rewrite oassigned_cast. apply (g_assigned _ _ _ _ _ _ _ G).
        + cbn [passes]. rewrite late_cast, (typ_eq _ _ Ya). destruct (same s t); [| intros y []].
          apply (g_late _ _ _ _ _ _ _ G).
        + cbn [stable]. intros St. apply ostable_cast, (g_stable _ _ _ _ _ _ _ G St).
        + cbn [not_dropped]. intros St. apply ndrop_cast, (g_drop _ _ _ _ _ _ _ G St).
        + intros d Rd.
          change (narrowing_literal T0 d (ECast F D t a)) with
            (match ty T0 a with Some s => same s t && narrowing_literal T0 d a | None => false end). rewrite Ya. unfold Expr_model.cast_to.
          rewrite same_eqb. destruct (nty_eqb_spec s t) as [-> | N]; cbn [andb]; [apply (g_lit _ _ _ _ _ _ _ G); auto | reflexivity].
        + cbn [ends_in_update]. rewrite is_seq_cast, (typ_eq _ _ Ya), (g_seq _ _ _ _ _ _ _ G). reflexivity.
        + cbn [nested]. rewrite is_nested_cast, (typ_eq _ _ Ya), (g_nested _ _ _ _ _ _ _ G). reflexivity.
        + intros T' st sto S Ag. cbn [eval]. rewrite (typ_eq _ _ Ya).
          rewrite ceval_cast by (apply wt_type; eapply wt_mono; [eapply g_wt; eauto | auto]).
          destruct (g_sim _ _ _ _ _ _ _ G T' st sto S Ag) as [[v1 s1] [v1' s1'] (E1 & Ag1) | | |];
            cbn [obind fst snd] in *; try constructor. subst v1'.
          destruct (doc_conv fl s t v1) as [v2 | | |]; cbn [obind fst snd]; try constructor. split; auto.
      - (* assignment *)
        destruct W as (Wx & W). destruct (T0 x) as [d |] eqn:X; [| congruence].
        assert (Lx : (x < n0)%nat) by (apply declared; congruence).
        pose proof (build_le a n) as La.
        specialize (IHa n T L W). destruct (build F D a n) as [oa n1] eqn:Eb. cbn [fst snd] in *.
        specialize (IHa E). destruct (ty T0 a) as [s |] eqn:Ya; [| cbn [check]; rewrite IHa; reflexivity].
        destruct IHa as (T1 & o1 & C & G). cbn [check]. rewrite C, (wt_type _ _ _ (g_wt _ _ _ _ _ _ _ G)).
        assert (T1x : T1 x = Some d).
        { rewrite (g_frame _ _ _ _ _ _ _ G) by lia. destruct E as (A & _). rewrite A; auto. }
        rewrite T1x, T1x, check_assign_cast.
        assert (NL : Nat.leb (rank s) (rank d) || allow_narrowing F D d s o1 =
                     Nat.leb (rank s) (rank d) || narrowing_literal T0 d a).
        { destruct (Nat.leb_spec (rank s) (rank d)); cbn [orb]; auto. apply (g_lit _ _ _ _ _ _ _ G); auto. }
        rewrite NL.
        destruct (Nat.leb (rank s) (rank d) || narrowing_literal T0 d a); [| reflexivity].
        exists T1, (OAssign x (cast_to d s o1)). split; [reflexivity |].
        assert (V : vtyp T0 x = d) by (unfold vtyp; rewrite X; reflexivity).
        constructor; try (now cbn; intros; try reflexivity; tauto).
        + apply (g_frame _ _ _ _ _ _ _ G).
        + constructor; auto. apply wt_cast_to, (g_wt _ _ _ _ _ _ _ G).
        + cbn [oassigned assigned In]. rewrite oassigned_cast. intros y [<- | I]; [auto |].
          destruct (g_assigned _ _ _ _ _ _ _ G _ I); auto.
        + cbn [late passes In]. rewrite late_cast, (typ_eq _ _ Ya), V. intros y [<- | I]; [auto |].
          destruct (same s d); [| destruct I]. destruct (g_late _ _ _ _ _ _ _ G _ I); auto.
        + cbn [stable ostable]. intros St. apply ostable_cast, (g_stable _ _ _ _ _ _ _ G St).
        + cbn [not_dropped ndrop]. rewrite (typ_eq _ _ Ya), V. intros (St & Nn).
          split; [apply ndrop_cast, (g_drop _ _ _ _ _ _ _ G St) |].
          rewrite is_nested_cast, (g_nested _ _ _ _ _ _ _ G). exact Nn.
        + intros T' st sto S Ag. cbn [eval ceval]. rewrite (typ_eq _ _ Ya), V.
          rewrite ceval_cast by (apply wt_type; eapply wt_mono; [eapply g_wt; eauto | auto]).
          destruct (g_sim _ _ _ _ _ _ _ G T' st sto S Ag) as [[v1 s1] [v1' s1'] (E1 & Ag1) | | |];
            cbn [obind fst snd] in *; try constructor. subst v1'.
          destruct (doc_conv fl s d v1) as [v2 | | |]; cbn [obind fst snd]; try constructor. split; auto.
          intros y Hy. cbn [snd]. unfold supd. destruct (Nat.eqb y x); auto.
      - (* assignment with an operator *)
        destruct W as (Wx & W). destruct (T0 x) as [d |] eqn:X; [| congruence].
        assert (Lx : (x < n0)%nat) by (apply declared; congruence).
        pose proof (build_le a n) as La.
        destruct (build F D a n) as [oa n1] eqn:Eb. cbn [fst snd] in *.
        specialize (IHa n (tset T n1 (Some d)) L W). rewrite Eb in IHa. cbn [fst snd] in IHa.
        assert (E1 : env_ok n n1 (tset T n1 (Some d))).
        { destruct E as (A & B). split; intros y Hy; unfold tset; destruct (Nat.eqb_spec y n1); try lia; [apply A | apply B]; lia. }
        specialize (IHa E1).
        destruct (ty T0 a) as [s |] eqn:Ya.
        + destruct IHa as (T1 & o1 & C & G).
          destruct (bin_ty b d s) as [w |] eqn:Yb.
          * exists T1, (special_tree b x n1 d w s o1).
            split; [eapply special_check | eapply special_good]; eauto.
          * destruct E as (A & B). unfold special_assign. cbn [check Expr_model.get_type]. rewrite A, X by auto.
            rewrite B by lia. unfold tset at 1. rewrite Nat.eqb_refl. rewrite check_assign_cast, Nat.leb_refl. cbn [orb].
            unfold Expr_model.cast_to at 1. rewrite nty_eqb_refl. rewrite C.
            rewrite (wt_type _ _ _ (g_wt _ _ _ _ _ _ _ G)).
            rewrite (g_frame _ _ _ _ _ _ _ G) by lia. unfold tset at 1. rewrite Nat.eqb_refl.
            rewrite bin_convert_ty, Yb. reflexivity.
        + destruct E as (A & B). unfold special_assign. cbn [check Expr_model.get_type]. rewrite A, X by auto.
          rewrite B by lia. unfold tset at 1. rewrite Nat.eqb_refl. rewrite check_assign_cast, Nat.leb_refl. cbn [orb].
          unfold Expr_model.cast_to at 1. rewrite nty_eqb_refl. rewrite IHa. reflexivity.
      - (* increment *)
        destruct (T0 x) as [d |] eqn:X; [| congruence]. cbn [fst snd] in *.
        set (b := if dec then BSub else BAdd).
        assert (Yb : bin_ty b d TInt = Some (common d TInt)) by (unfold b; destruct dec; reflexivity).
        assert (Cc : const_ok TInt (VI 1)) by (split; [reflexivity | congruence]).
        pose proof (good_const n (tset T n (Some d)) TInt (VI 1) Cc) as G0.
        assert (W0 : well_formed T0 (EConst F D TInt (VI 1))) by exact Cc.
        assert (L0 : (n0 <= n <= n)%nat) by lia.
        assert (G : good n (S n) T (tset T n (Some d)) (EOpAssign F D b x (EConst F D TInt (VI 1)))
                      (special_tree b x n d (common d TInt) TInt (OConst TInt (VI 1))) d)
          by (eapply special_good; eauto; reflexivity).
        assert (C : check F D T (special_assign F D false b x n (OConst TInt (VI 1))) =
                    Some (tset T n (Some d), special_tree b x n d (common d TInt) TInt (OConst TInt (VI 1))))
          by (eapply (special_check b x (EConst F D TInt (VI 1))); eauto; reflexivity).
        destruct post.
        + exists (tset T n (Some d)), (OSeq (special_tree b x n d (common d TInt) TInt (OConst TInt (VI 1))) (OVar n)).
          split.
          * change (special_assign F D true b x n (OConst TInt (VI 1))) with
              (OSeq (special_assign F D false b x n (OConst TInt (VI 1))) (OVar n)).
            remember (special_assign F D false b x n (OConst TInt (VI 1))) as sa. cbn [check]. rewrite C. reflexivity.
          * assert (Dc : dec = match b with BAdd => false | _ => true end) by (unfold b; destruct dec; reflexivity).
            rewrite Dc. eapply good_post; eauto.
            -- intros T' st sto S Ag. eapply special_sim with (n := n) (T := T); eauto; reflexivity.
            -- unfold tset. rewrite Nat.eqb_refl. reflexivity.
            -- unfold b. destruct dec; auto.
        + eexists _, _. split; [exact C |]. apply good_pre. exact G.
      - (* sequence *)
        destruct W as (Wl & Wr). pose proof (build_le a n) as Ll.
        destruct (build F D a n) as [ol n1] eqn:El. pose proof (build_le b n1) as Lr.
        destruct (build F D b n1) as [or n2] eqn:Er. cbn [fst snd] in *.
        specialize (IHa n T L Wl). rewrite El in IHa. cbn [fst snd] in IHa.
        assert (E0 : env_ok n n1 T) by (eapply env_sub; [exact E | lia | lia]).
        specialize (IHa E0). cbn [check].
        destruct (ty T0 a) as [tl |] eqn:Yl; [| rewrite IHa; reflexivity].
        destruct IHa as (T1 & o1 & C1 & G1). rewrite C1.
        assert (E1 : env_ok n1 n2 T1) by (eapply good_env; eauto).
        specialize (IHb n1 T1 ltac:(lia) Wr). rewrite Er in IHb. cbn [fst snd] in IHb. specialize (IHb E1).
        destruct (ty T0 b) as [tr |] eqn:Yr; [| rewrite IHb; reflexivity].
        destruct IHb as (T2 & o2 & C2 & G2). rewrite C2.
        assert (S12 : sub T1 T2) by (eapply good_sub; eauto).
        exists T2, (OSeq o1 o2). split; [reflexivity |].
        constructor; try (now cbn; intros; try reflexivity; tauto).
        + intros y Hy. rewrite (g_frame _ _ _ _ _ _ _ G2), (g_frame _ _ _ _ _ _ _ G1) by lia. reflexivity.
        + econstructor; [eapply wt_mono; [eapply (g_wt _ _ _ _ _ _ _ G1) | auto] | eapply g_wt; eauto].
        + cbn [oassigned assigned]. intros y. rewrite !in_app_iff. intros [I | I].
          * destruct (g_assigned _ _ _ _ _ _ _ G1 _ I); [auto | right; lia].
          * destruct (g_assigned _ _ _ _ _ _ _ G2 _ I); [auto | right; lia].
        + cbn [late passes]. intros y I. destruct (g_late _ _ _ _ _ _ _ G2 _ I); [auto | right; lia].
        + cbn [stable ostable]. intros (Sl & Sr).
          split; [apply (g_stable _ _ _ _ _ _ _ G1 Sl) | apply (g_stable _ _ _ _ _ _ _ G2 Sr)].
        + cbn [not_dropped ndrop]. intros (Sl & Sr).
          split; [apply (g_drop _ _ _ _ _ _ _ G1 Sl) | apply (g_drop _ _ _ _ _ _ _ G2 Sr)].
        + cbn [is_nested nested]. apply (g_seq _ _ _ _ _ _ _ G2).
        + intros T' st sto S Ag. cbn [eval ceval].
          destruct (g_sim _ _ _ _ _ _ _ G1 T' st sto (sub_trans _ _ _ S12 S) Ag) as [[v1 s1] [v1' s1'] (E2 & Ag1) | | |];
            cbn [obind fst snd] in *; try constructor.
          apply (g_sim _ _ _ _ _ _ _ G2 T' s1 s1' S Ag1).
    Qed.
  End Check.

  (** ** The instructions do what the checked tree means *)
  Section Gen.
    Variables (TN : tenv) (N : nat).
    Hypothesis freshN : forall x, (N <= x)%nat -> TN x = None.
    Local Notation temps := (temps F D).
    Local Notation gen := (gen F D).
    Local Notation place := (place F D).
    Local Notation regs := (nty -> nat -> val).
    Local Notation run := (run F D fl).

    Lemma typed_lt x t : TN x = Some t -> (x < N)%nat.
    Proof. intros H. destruct (Nat.lt_ge_cases x N); auto. rewrite freshN in H by auto. congruence. Qed.
    Lemma wt_assigned_lt o t x : wt TN o t -> In x (oassigned o) -> (x < N)%nat.
    Proof.
      induction 1; cbn [oassigned In]; rewrite ?in_app_iff; intros I; try tauto.
      destruct I as [<- | I]; [eapply typed_lt; eauto | auto].
    Qed.
    Lemma wt_late_lt o t x : wt TN o t -> In x (late o) -> (x < N)%nat.
    Proof.
      induction 1; cbn [late In]; intros I; try tauto.
      - destruct I as [<- | []]. eapply typed_lt; eauto.
      - destruct I as [<- | I]; [eapply typed_lt; eauto | auto].
    Qed.

    Definition freshT (n : nat) (T : tenv) : Prop := forall x, (n <= x)%nat -> T x = None.
    Definition transparent (o : op) : bool :=
      match o with Expr_model.OVar _ _ _ | Expr_model.OAssign _ _ _ _ | Expr_model.OSeq _ _ _ _ => true | _ => false end.

    Lemma to_tmp_static asg T n o t T1 n1 o1 : freshT n T -> (forall T', sub T T' -> get_type T' o = Some t) ->
      to_tmp F D asg T n o = (T1, n1, o1) ->
      (n <= n1)%nat /\ sub T T1 /\ freshT n1 T1 /\ (forall T', sub T1 T' -> get_type T' o1 = Some t).
    Proof.
      intros Fr G E. unfold to_tmp in E. destruct asg; injection E as <- <- <-.
      - split; [lia |]. split; [apply sub_refl |]. auto.
      - split; [lia |]. split; [apply sub_set, Fr; lia |]. split.
        + intros x H. unfold tset. destruct (Nat.eqb_spec x n); [lia |]. apply Fr. lia.
        + intros T' S. cbn [Expr_model.get_type]. apply S. unfold tset. rewrite Nat.eqb_refl. apply G, sub_refl.
    Qed.

    Lemma temps_static o : forall asg T n t T1 n1 o1, sub TN T -> freshT n T -> wt TN o t ->
      temps asg T n o = (T1, n1, o1) ->
      (n <= n1)%nat /\ sub T T1 /\ freshT n1 T1 /\ (forall T', sub T1 T' -> get_type T' o1 = Some t).
    Proof.
      induction o as [x | k v | u a IHa | b w l IHl r IHr | c l IHl r IHr | d a IHa | x a IHa | a IHa b IHb];
        intros asg T n t T1 n1 o1 S Fr W E; inversion W; subst; cbn [Expr_model.temps] in E.
      - injection E as <- <- <-. split; [lia |]. split; [apply sub_refl |]. split; [auto |].
        intros T' S'. apply S', S. auto.
      - eapply (to_tmp_static asg T n _ _ T1 n1 o1 Fr); [| exact E]. reflexivity.
      - destruct (temps false T n a) as [[Ta na] a1] eqn:Ea.
        destruct (IHa _ _ _ _ _ _ _ S Fr ltac:(eassumption) Ea) as (L1 & S1 & F1 & G1).
        destruct (to_tmp_static _ _ _ (OUn u a1) t _ _ _ F1 G1 E) as (L2 & S2 & F2 & G2).
        split; [lia |]. split; [eapply sub_trans; eauto |]. auto.
      - destruct (temps false T n l) as [[Ta na] a1] eqn:Ea.
        destruct (temps false Ta na r) as [[Tb nb] b1] eqn:Eb.
        destruct (IHl _ _ _ _ _ _ _ S Fr ltac:(eassumption) Ea) as (L1 & S1 & F1 & G1).
        destruct (IHr _ _ _ _ _ _ _ (sub_trans _ _ _ S S1) F1 ltac:(eassumption) Eb) as (L2 & S2 & F2 & G2).
        destruct (to_tmp_static _ _ _ (OBin b w a1 b1) t _ _ _ F2 (fun T' K => G1 T' (sub_trans _ _ _ S2 K)) E) as (L3 & S3 & F3 & G3).
        split; [lia |]. split; [eapply sub_trans; [| eapply sub_trans]; eauto |]. auto.
      - destruct (temps false T n l) as [[Ta na] a1] eqn:Ea.
        destruct (temps false Ta na r) as [[Tb nb] b1] eqn:Eb.
        destruct (IHl _ _ _ _ _ _ _ S Fr ltac:(eassumption) Ea) as (L1 & S1 & F1 & G1).
        destruct (IHr _ _ _ _ _ _ _ (sub_trans _ _ _ S S1) F1 ltac:(eassumption) Eb) as (L2 & S2 & F2 & G2).
        destruct (to_tmp_static _ _ _ (OCmp c a1 b1) TInt _ _ _ F2 (fun T' K => eq_refl) E) as (L3 & S3 & F3 & G3).
        split; [lia |]. split; [eapply sub_trans; [| eapply sub_trans]; eauto |]. auto.
      - destruct (temps false T n a) as [[Ta na] a1] eqn:Ea.
        destruct (IHa _ _ _ _ _ _ _ S Fr ltac:(eassumption) Ea) as (L1 & S1 & F1 & G1).
        destruct (to_tmp_static _ _ _ (OCast t a1) t _ _ _ F1 (fun T' K => eq_refl) E) as (L2 & S2 & F2 & G2).
        split; [lia |]. split; [eapply sub_trans; eauto |]. auto.
      - destruct (temps true T n a) as [[Ta na] a1] eqn:Ea. injection E as <- <- <-.
        destruct (IHa _ _ _ _ _ _ _ S Fr ltac:(eassumption) Ea) as (L1 & S1 & F1 & G1).
        split; [lia |]. split; [auto |]. split; [auto |]. intros T' K. cbn [Expr_model.get_type]. apply K, S1, S. auto.
      - destruct (temps false T n a) as [[Ta na] a1] eqn:Ea.
        destruct (temps false Ta na b) as [[Tb nb] b1] eqn:Eb. injection E as <- <- <-.
        destruct (IHa _ _ _ _ _ _ _ S Fr ltac:(eassumption) Ea) as (L1 & S1 & F1 & G1).
        destruct (IHb _ _ _ _ _ _ _ (sub_trans _ _ _ S S1) F1 ltac:(eassumption) Eb) as (L2 & S2 & F2 & G2).
        split; [lia |]. split; [eapply sub_trans; eauto |]. auto.
    Qed.

    Definition rep (R : regs) (st : store) : Prop := forall x t, TN x = Some t -> R t x = st x.
    Definition chg (n n1 : nat) (A : list nat) (R R' : regs) : Prop :=
      forall s y, ~ In y A -> (y < n \/ n1 <= y)%nat -> R' s y = R s y.

    Definition postE (n n1 : nat) (A : list nat) (t : nty) (p : nat) (R : regs) (q : val * store) (R' : regs) : Prop :=
      rep R' (snd q) /\ R' t p = fst q /\ chg n n1 A R R'.
    Definition postA (n n1 : nat) (A : list nat) (t : nty) (p x : nat) (R : regs) (q : val * store) (R' : regs) : Prop :=
      rep R' (supd (snd q) x (fst q)) /\ R' t p = fst q /\ R' t x = fst q /\ chg n n1 (x :: A) R R'.

    Definition doesE (o : op) : Prop := forall T n t T1 n1 o1 Tf,
      sub TN T -> freshT n T -> (N <= n)%nat -> wt TN o t -> temps false T n o = (T1, n1, o1) -> sub T1 Tf ->
      ostable o -> ndrop o ->
      exists c p, gen Tf o1 = Some c /\ place o1 = Some p /\ (In p (late o) \/ (n <= p < n1)%nat) /\
        transparent o1 = true /\
        forall R st, rep R st -> orel (postE n n1 (oassigned o) t p R) (ceval Tf o st) (run R c).

    Definition doesA (o : op) : Prop := forall T n t T1 n1 o1 Tf x,
      sub TN T -> freshT n T -> (N <= n)%nat -> wt TN o t -> temps true T n o = (T1, n1, o1) -> sub T1 Tf ->
      ostable o -> ndrop o -> is_nested o = false -> Tf x = Some t ->
      exists c ci p, gen Tf o1 = Some c /\ assign_instr F D Tf t x (assign_source F D o1) = Some ci /\
        place (OAssign x o1) = Some p /\ (p = x \/ In p (late o) \/ (n <= p < n1)%nat) /\
        forall R st, rep R st -> orel (postA n n1 (oassigned o) t p x R) (ceval Tf o st) (run R (c ++ ci)).

    Lemma run_app c c' R : run R (c ++ c') = (let! R := run R c in run R c').
    Proof.
      revert R. induction c as [| i c IH]; intros R; cbn [app Expr_model.run obind]; auto.
      destruct (step F D fl R i); cbn [obind]; auto.
    Qed.

    Lemma rset_same (R : regs) t x v : rset F D R t x v t x = v.
    Proof. unfold rset. rewrite nty_eqb_refl, Nat.eqb_refl. reflexivity. Qed.
    Lemma rset_other (R : regs) t x v s y : y <> x -> rset F D R t x v s y = R s y.
    Proof. intros H. unfold rset. destruct (Nat.eqb_spec y x); [congruence |]. rewrite andb_false_r. reflexivity. Qed.

    Lemma chg_refl n n1 A R : chg n n1 A R R.
    Proof. intros s y _ _. reflexivity. Qed.
    Lemma chg_seq n n1 n2 A B R R1 R2 : (n <= n1 <= n2)%nat -> chg n n1 A R R1 -> chg n1 n2 B R1 R2 ->
      chg n n2 (A ++ B) R R2.
    Proof.
      intros L H1 H2 s y I O. rewrite in_app_iff in I. rewrite H2, H1; auto; try tauto; lia.
    Qed.
    Lemma chg_mono n n1 m m1 A B R R1 : chg n n1 A R R1 -> (m <= n)%nat -> (n1 <= m1)%nat -> incl A B -> chg m m1 B R R1.
    Proof. intros H L M I s y J O. apply H; [auto | lia]. Qed.

    (** The last instruction of an operator. *)
    Lemma finish n n1 A t x Tf R R1 s1 X : sub TN Tf -> Tf x = Some t -> rep R1 s1 -> chg n n1 A R R1 ->
      orel (postA n n1 A t x x R) (let! v := X in Ret (v, s1)) (let! v := X in Ret (rset F D R1 t x v)).
    Proof.
      intros S Tx Rp Ch. destruct X as [v | | |]; cbn [obind]; constructor. split; [| split; [| split]]; cbn [fst snd].
      - intros y k Hy. unfold supd. destruct (Nat.eqb_spec y x) as [-> | Ne].
        + apply S in Hy. assert (k = t) by congruence. subst k. apply rset_same.
        + rewrite rset_other by auto. apply Rp; auto.
      - apply rset_same.
      - apply rset_same.
      - intros k y I O. cbn in I. rewrite rset_other by (intros ->; tauto). apply Ch; tauto.
    Qed.

    Lemma obind_ret_r {A} (o : outcome A) : (let! x := o in Ret x) = o.
    Proof. destruct o; reflexivity. Qed.

    Lemma orel_impl_run {A B} (R R' : A -> B -> Prop) o r f :
      orel R o r -> (forall a b, R a b -> orel R' (Ret a) (f b)) -> orel R' o (obind r f).
    Proof. intros [a b H | | |] K; cbn [obind]; auto; constructor. Qed.

    (** Operators: from the source of an assignment to a temporary. *)
    Lemma tmp_E o : (forall T n, temps false T n o =
        (let '(T, n, o) := temps true T n o in to_tmp F D false T n o)) ->
      transparent o = false -> late o = [] ->
      (forall T n T1 n1 o1, temps true T n o = (T1, n1, o1) -> transparent o1 = false) ->
      doesA o -> doesE o.
    Proof.
      intros Eq Nt La Tr HA T n t T1 n1 o1 Tf S Fr L W E S1 St Nd. rewrite Eq in E.
      destruct (temps true T n o) as [[Ta na] a1] eqn:Ea. cbn [to_tmp] in E. injection E as <- <- <-.
      destruct (temps_static o true T n t Ta na a1 S Fr W Ea) as (L1 & Sa & Fa & Ga).
      assert (Sx : sub Ta (tset Ta na (get_type Ta a1))) by (apply sub_set, Fa; lia).
      assert (Tn : Tf na = Some t).
      { apply S1. unfold tset. rewrite Nat.eqb_refl. apply Ga, sub_refl. }
      specialize (Tr _ _ _ _ _ Ea).
      assert (Nn : is_nested o = false) by (destruct o; try discriminate Nt; reflexivity).
      destruct (HA T n t Ta na a1 Tf na S Fr L W Ea (sub_trans _ _ _ Sx S1) St Nd Nn Tn)
        as (c & ci & p & G & Ai & Pl & Pp & X).
      assert (p = na).
      { cbn [Expr_model.place] in Pl. destruct a1; try discriminate Tr; congruence. }
      subst p. exists (c ++ ci), na.
      cbn [Expr_model.gen]. rewrite G, Tn.
      assert (As : assign_source F D a1 = a1) by (destruct a1; try discriminate Tr; reflexivity).
      rewrite Ai. split; [reflexivity |]. split; [exact Pl |]. split; [right; lia |]. split; [reflexivity |].
      intros R st Rp. eapply orel_mono; [apply X; auto |]. intros q R' (A1 & A2 & A3 & A4).
      split; [| split].
      - intros y k Hy. rewrite (A1 y k Hy). unfold supd. pose proof (typed_lt _ _ Hy).
        destruct (Nat.eqb_spec y na); [lia | reflexivity].
      - auto.
      - intros k y I O. apply A4; [| lia]. intros [<- | J]; [lia | auto].
    Qed.

    (** Variables, assignments and sequences: a move. *)
    Lemma move_A o : (forall asg T n, temps asg T n o = temps false T n o) ->
      (forall T n T1 n1 o1, temps false T n o = (T1, n1, o1) -> is_seq o1 = is_seq o /\
         (is_nested o = false -> is_nested o1 = false)) ->
      (forall T n T1 n1 o1 a b, temps false T n o = (T1, n1, o1) -> o1 = OSeq a b -> transparent b = true) ->
      doesE o -> doesA o.
    Proof.
      intros Eq Sq Tb HE T n t T1 n1 o1 Tf x S Fr L W E S1 St Nd Nn Tx. rewrite Eq in E.
      destruct (HE T n t T1 n1 o1 Tf S Fr L W E S1 St Nd) as (c & p & G & Pl & Pp & Tr & X).
      destruct (Sq _ _ _ _ _ E) as (Sq1 & Sq2). specialize (Sq2 Nn).
      assert (Ai : assign_instr F D Tf t x (assign_source F D o1) = Some [IMove F D t x p]).
      { destruct o1 as [y | | | | | | y a | a b]; try discriminate Tr; cbn [assign_source assign_instr].
        - cbn in Pl. congruence.
        - rewrite Pl. reflexivity.
        - cbn [Expr_model.place] in Pl. specialize (Tb _ _ _ _ _ _ _ E eq_refl).
          cbn [is_nested] in Sq2. destruct b as [y | | | | | | y b | b1 b2]; try discriminate Tb; try discriminate Sq2.
          + cbn in Pl |- *. congruence.
          + cbn [assign_instr]. rewrite Pl. reflexivity. }
      set (p' := match o1 with Expr_model.OSeq _ _ _ _ => x | _ => p end).
      exists c, [IMove F D t x p], p'.
      split; [auto |]. split; [auto |]. split.
      { unfold p'. cbn [Expr_model.place]. destruct o1; try discriminate Tr; auto. }
      split; [unfold p'; destruct o1; auto |].
      intros R st Rp. rewrite run_app. eapply orel_impl_run; [apply X; auto |].
      intros [v s] R1 (A1 & A2 & A3). cbn [fst snd] in *. cbn [Expr_model.run step obind].
      pose proof (finish n n1 (oassigned o) t x Tf R R1 s (Ret v) ltac:(eapply sub_trans; [| eauto]; eapply sub_trans; [eauto | eapply temps_static; eauto]) Tx A1 A3) as K.
      cbn [obind] in K. rewrite A2.
      assert (Rv : rset F D R1 t x v t p = v).
      { destruct (Nat.eq_dec p x) as [-> | Ne]; [apply rset_same | rewrite rset_other; auto]. }
      clear A2. inversion K as [a b0 (K1 & K2 & K3 & K4) | | |]; subst. constructor.
      split; [auto |]. split; [| auto]. unfold p'. cbn [fst].
      destruct o1; auto; apply rset_same.
    Qed.

    Lemma temps_is_seq o asg T n T1 n1 o1 : temps asg T n o = (T1, n1, o1) -> is_seq o1 = is_seq o.
    Proof.
      destruct o as [x | k v | u a | b w l r | c l r | d a | x a | a b]; cbn [Expr_model.temps]; unfold to_tmp; intros E;
        repeat match type of E with context [temps ?i ?T ?n ?a] => destruct (temps i T n a) as [[? ?] ?] end;
        try destruct asg; injection E as <- <- <-; reflexivity.
    Qed.
    Lemma temps_transparent o T n T1 n1 o1 : temps false T n o = (T1, n1, o1) -> transparent o1 = true.
    Proof.
      destruct o as [x | k v | u a | b w l r | c l r | d a | x a | a b]; cbn [Expr_model.temps]; unfold to_tmp; intros E;
        repeat match type of E with context [temps ?i ?T ?n ?a] => destruct (temps i T n a) as [[? ?] ?] end;
        injection E as <- <- <-; reflexivity.
    Qed.

    Lemma sub_final T n o T1 n1 o1 t asg Tf : sub TN T -> freshT n T -> wt TN o t ->
      temps asg T n o = (T1, n1, o1) -> sub T1 Tf -> sub TN Tf.
    Proof.
      intros S Fr W E S1. eapply sub_trans; [| exact S1]. eapply sub_trans; [exact S |].
      destruct (temps_static _ _ _ _ _ _ _ _ S Fr W E) as (_ & K & _). exact K.
    Qed.

    Lemma decode_encode t v : const_ok t v -> decode F D t (encode F D t v) = v.
    Proof.
      intros (V & Ns). destruct t, v; try contradiction V; try reflexivity; try congruence; cbn [encode decode];
        unfold value_ok, in_range in V; cbn [int_range fst snd] in V; apply andb_true_iff in V;
        rewrite Z.leb_le, Z.ltb_lt in V; f_equal.
      - change (2 ^ 7) with 128 in V. change (2 ^ 8) with 256. unfold wrap8, wrap.
        rewrite Z.mod_mod by lia. change (2 * 128) with 256.
        rewrite Z.add_mod_idemp_l by lia. rewrite Z.mod_small; lia.
      - change (2 ^ 31) with 2147483648 in V. change (2 ^ 32) with 4294967296. unfold wrap32, wrap.
        change (2 * 2147483648) with 4294967296.
        rewrite Z.add_mod_idemp_l by lia. rewrite Z.mod_small; lia.
    Qed.

    (** The two operands of an operator. *)
    Lemma pair_E l r T n tl tr T1 n1 l1 T2 n2 r1 Tf : doesE l -> doesE r ->
      sub TN T -> freshT n T -> (N <= n)%nat -> wt TN l tl -> wt TN r tr ->
      temps false T n l = (T1, n1, l1) -> temps false T1 n1 r = (T2, n2, r1) -> sub T2 Tf ->
      ostable l -> ostable r -> disjoint (late l) (oassigned r) -> ndrop l -> ndrop r ->
      exists c1 c2 p1 p2, gen Tf l1 = Some c1 /\ gen Tf r1 = Some c2 /\ place l1 = Some p1 /\ place r1 = Some p2 /\
        get_type Tf l1 = Some tl /\ get_type Tf r1 = Some tr /\ sub TN Tf /\
        forall R st, rep R st ->
          orel (fun q R2 => rep R2 (snd q) /\ R2 tl p1 = fst (fst q) /\ R2 tr p2 = snd (fst q) /\
                            chg n n2 (oassigned l ++ oassigned r) R R2)
            (let! p := ceval Tf l st in let! q := ceval Tf r (snd p) in Ret ((fst p, fst q), snd q))
            (run R (c1 ++ c2)).
    Proof.
      intros El Er S Fr L Wl Wr E1 E2 S2 Sl Sr Dj Nl Nr.
      destruct (temps_static _ _ _ _ _ _ _ _ S Fr Wl E1) as (L1 & S1 & F1 & G1).
      destruct (temps_static _ _ _ _ _ _ _ _ (sub_trans _ _ _ S S1) F1 Wr E2) as (L2 & S12 & F2 & G2).
      destruct (El T n tl T1 n1 l1 Tf S Fr L Wl E1 (sub_trans _ _ _ S12 S2) Sl Nl) as (c1 & p1 & C1 & P1 & Q1 & _ & X1).
      destruct (Er T1 n1 tr T2 n2 r1 Tf (sub_trans _ _ _ S S1) F1 ltac:(lia) Wr E2 S2 Sr Nr) as (c2 & p2 & C2 & P2 & Q2 & _ & X2).
      exists c1, c2, p1, p2. do 4 (split; [assumption |]).
      split; [apply G1; eapply sub_trans; eauto |]. split; [apply G2; auto |].
      split; [eapply sub_trans; [exact S |]; eapply sub_trans; [exact S1 |]; eapply sub_trans; eauto |].
      intros R st Rp. rewrite run_app. eapply orel_bind; [apply X1; auto |].
      intros [v s] R1 (A1 & A2 & A3). cbn [fst snd] in *.
      eapply orel_mono with (R := fun q R2 => postE n1 n2 (oassigned r) tr p2 R1 (snd (fst q), snd q) R2 /\ fst (fst q) = v).
      - rewrite <- (obind_ret_r (run R1 c2)). eapply orel_bind; [apply X2; auto |].
        intros [v2 s2] R2 H2. constructor. cbn [fst snd]. auto.
      - intros [[v1 v2] s2] R2 ((B1 & B2 & B3) & B4). cbn [fst snd] in *. subst v1.
        split; [auto |]. split; [| split; [auto |]].
        + rewrite B3; [auto | |].
          * destruct Q1 as [Q1 | Q1]; [apply Dj; auto |]. intros I. pose proof (wt_assigned_lt _ _ _ Wr I). lia.
          * destruct Q1 as [Q1 | Q1]; [| lia]. pose proof (wt_late_lt _ _ _ Wl Q1). lia.
        + eapply chg_seq; eauto.
    Qed.

    Lemma does o : doesE o /\ doesA o.
    Proof.
      induction o as [x | k v | u a IHa | b w l IHl r IHr | c l IHl r IHr | d a IHa | x a IHa | a IHa b IHb].
      - assert (HE : doesE (OVar x)).
        { intros T n t T1 n1 o1 Tf S Fr L W E S1 St Nd. cbn [Expr_model.temps] in E. injection E as <- <- <-.
          inversion W; subst. exists [], x. split; [reflexivity |]. split; [reflexivity |]. split; [left; left; auto |].
          split; [reflexivity |]. intros R st Rp. cbn [ceval Expr_model.run]. constructor.
          split; [auto |]. split; [apply Rp; auto | apply chg_refl]. }
        split; [auto |]. apply move_A; auto.
        + intros T n T1 n1 o1 E. cbn in E. injection E as <- <- <-. auto.
        + intros T n T1 n1 o1 a b E. cbn in E. injection E as <- <- <-. discriminate.
      - assert (HA : doesA (OConst k v)).
        { intros T n t T1 n1 o1 Tf x S Fr L W E S1 St Nd _ Tx. cbn [Expr_model.temps to_tmp] in E. injection E as <- <- <-.
          inversion W as [| ? ? Wc | | | | | |]; subst. exists [], [IConst F D t x (encode F D t v)], x.
          split; [reflexivity |]. split.
          { cbn [assign_source assign_instr]. assert (Ct : const_type t = true) by (destruct Wc; destruct t; try reflexivity; congruence).
            rewrite Ct. reflexivity. }
          split; [reflexivity |]. split; [auto |]. intros R st Rp.
          cbn [app Expr_model.run step obind ceval]. rewrite decode_encode by auto.
          apply (finish n n [] t x Tf R R st (Ret v)); auto; [eapply sub_trans; eauto | apply chg_refl]. }
        split; [| auto]. apply tmp_E; auto.
        intros T n T1 n1 o1 E. cbn in E. injection E as <- <- <-. reflexivity.
      - assert (HA : doesA (OUn u a)).
        { intros T n t T1 n1 o1 Tf x S Fr L W E S1 St Nd _ Tx. cbn [Expr_model.temps to_tmp] in E.
          destruct (temps false T n a) as [[Ta na] a1] eqn:Ea. injection E as <- <- <-.
          inversion W as [| | ? ? ? Wa Wu | | | | |]; subst.
          destruct IHa as (IE & _). destruct (IE T n t Ta na a1 Tf S Fr L Wa Ea S1 St Nd) as (c & p & G & Pl & Pp & Tr & X).
          pose proof (sub_final _ _ _ _ _ _ _ _ _ S Fr Wa Ea S1) as SN.
          set (i := match u with UPlus => IMove F D t x p | _ => IUn F D u t x p end).
          exists c, [i], x. split; [exact G |]. split.
          { cbn [assign_source assign_instr]. rewrite Pl. unfold i. destruct u; rewrite Wu; reflexivity. }
          split; [reflexivity |]. split; [auto |]. intros R st Rp. rewrite run_app. cbn [ceval].
          eapply orel_bind; [apply X; auto |]. intros [v s] R1 (A1 & A2 & A3). cbn [fst snd] in *.
          rewrite (wt_tyo TN Tf a t) by auto.
          pose proof (finish n na (oassigned a) t x Tf R R1 s
            match u with UPlus => Ret v | _ => run_un F D fl u t v end SN Tx A1 A3) as K.
          replace (run R1 [i]) with
            (let! v := match u with UPlus => Ret v | _ => run_un F D fl u t v end in Ret (rset F D R1 t x v)); [exact K |].
          unfold i. destruct u; cbn [Expr_model.run step]; rewrite A2; cbn [obind]; auto;
            destruct (run_un F D fl _ t v); reflexivity. }
        split; [| auto]. apply tmp_E; auto.
        + intros T n. cbn [Expr_model.temps]. destruct (temps false T n a) as [[? ?] ?]. reflexivity.
        + intros T n T1 n1 o1 E. cbn [Expr_model.temps to_tmp] in E. destruct (temps false T n a) as [[? ?] ?].
          injection E as <- <- <-. reflexivity.
      - assert (HA : doesA (OBin b w l r)).
        { intros T n t T2 n2 o1 Tf x S Fr L W E S2 St Nd _ Tx. cbn [Expr_model.temps to_tmp] in E.
          destruct (temps false T n l) as [[T1 n1] l1] eqn:E1.
          destruct (temps false T1 n1 r) as [[T2' n2'] r1] eqn:E2. injection E as <- <- <-.
          inversion W as [| | | ? ? ? ? ? ? Wl Wr Wt Wb | | | |]; subst.
          destruct IHl as (El & _), IHr as (Er & _). cbn [ostable ndrop] in St, Nd.
          destruct (pair_E _ _ _ _ _ _ _ _ _ _ _ _ _ El Er S Fr L Wl Wr E1 E2 S2 ltac:(tauto) ltac:(tauto) ltac:(tauto) ltac:(tauto) ltac:(tauto))
            as (c1 & c2 & p1 & p2 & G1 & G2 & P1 & P2 & Y1 & Y2 & SN & X).
          exists (c1 ++ c2), [IBin F D b t x p1 p2], x.
          split; [cbn [Expr_model.gen]; rewrite G1, G2; reflexivity |]. split.
          { cbn [assign_source assign_instr]. rewrite P1, P2.
            assert (Bi : bin_instr F D b t x p1 p2 = Some (IBin F D b t x p1 p2)).
            { destruct b; cbn [bin_instr]; try rewrite Wb; auto; destruct t; try discriminate Wb; reflexivity. }
            rewrite Bi. reflexivity. }
          split; [reflexivity |]. split; [auto |]. intros R st Rp. rewrite run_app.
          cbn [ceval oassigned]. rewrite (wt_tyo TN Tf l t) by auto.
          assert (Bt : bty b t = t) by (destruct b; cbn [bty]; auto; destruct t; try discriminate Wb; reflexivity).
          rewrite Bt.
          replace (let! p := ceval Tf l st in let! q := ceval Tf r (snd p) in
                   let! v := run_bin F D fl b t (fst p) (fst q) in Ret (v, snd q)) with
            (let! q := (let! p := ceval Tf l st in let! q := ceval Tf r (snd p) in Ret ((fst p, fst q), snd q)) in
             let! v := run_bin F D fl b t (fst (fst q)) (snd (fst q)) in Ret (v, snd q))
            by (destruct (ceval Tf l st) as [[? ?] | | |]; cbn [obind fst snd]; auto;
                destruct (ceval Tf r _) as [[? ?] | | |]; reflexivity).
          eapply orel_bind; [apply X; auto |]. intros [[v1 v2] s] R1 (A1 & A2 & A3 & A4). cbn [fst snd] in *.
          pose proof (finish n n2' _ t x Tf R R1 s (run_bin F D fl b t v1 v2) SN Tx A1 A4) as K.
          replace (run R1 [IBin F D b t x p1 p2]) with
            (let! v := run_bin F D fl b t v1 v2 in Ret (rset F D R1 t x v)); [exact K |].
          cbn [Expr_model.run step]. rewrite A2. unfold right_ty in A3.
          replace (R1 match b with BShl | BSar | BShr => TInt | _ => t end p2) with v2.
          destruct (run_bin F D fl b t v1 v2); reflexivity. }
        split; [| auto]. apply tmp_E; auto.
        + intros T n. cbn [Expr_model.temps]. destruct (temps false T n l) as [[? ?] ?]. destruct (temps false _ _ r) as [[? ?] ?]. reflexivity.
        + intros T n T1 n1 o1 E. cbn [Expr_model.temps to_tmp] in E. destruct (temps false T n l) as [[? ?] ?].
          destruct (temps false _ _ r) as [[? ?] ?]. injection E as <- <- <-. reflexivity.
      - assert (HA : doesA (OCmp c l r)).
        { intros T n t T2 n2 o1 Tf x S Fr L W E S2 St Nd _ Tx. cbn [Expr_model.temps to_tmp] in E.
          destruct (temps false T n l) as [[T1 n1] l1] eqn:E1.
          destruct (temps false T1 n1 r) as [[T2' n2'] r1] eqn:E2. injection E as <- <- <-.
          inversion W as [| | | | ? ? ? k Wl Wr Wb | | |]; subst.
          destruct IHl as (El & _), IHr as (Er & _). cbn [ostable ndrop] in St, Nd.
          destruct (pair_E _ _ _ _ _ _ _ _ _ _ _ _ _ El Er S Fr L Wl Wr E1 E2 S2 ltac:(tauto) ltac:(tauto) ltac:(tauto) ltac:(tauto) ltac:(tauto))
            as (c1 & c2 & p1 & p2 & G1 & G2 & P1 & P2 & Y1 & Y2 & SN & X).
          exists (c1 ++ c2), [ICmp F D c k x p1 p2], x.
          split; [cbn [Expr_model.gen]; rewrite G1, G2; reflexivity |]. split.
          { cbn [assign_source assign_instr]. rewrite P1, P2, Y1, Wb. reflexivity. }
          split; [reflexivity |]. split; [auto |]. intros R st Rp. rewrite run_app.
          cbn [ceval oassigned]. rewrite (wt_tyo TN Tf l k) by auto.
          replace (let! p := ceval Tf l st in let! q := ceval Tf r (snd p) in
                   let! v := run_cmp F D fl c k (fst p) (fst q) in Ret (v, snd q)) with
            (let! q := (let! p := ceval Tf l st in let! q := ceval Tf r (snd p) in Ret ((fst p, fst q), snd q)) in
             let! v := run_cmp F D fl c k (fst (fst q)) (snd (fst q)) in Ret (v, snd q))
            by (destruct (ceval Tf l st) as [[? ?] | | |]; cbn [obind fst snd]; auto;
                destruct (ceval Tf r _) as [[? ?] | | |]; reflexivity).
          eapply orel_bind; [apply X; auto |]. intros [[v1 v2] s] R1 (A1 & A2 & A3 & A4). cbn [fst snd] in *.
          pose proof (finish n n2' _ TInt x Tf R R1 s (run_cmp F D fl c k v1 v2) SN Tx A1 A4) as K.
          replace (run R1 [ICmp F D c k x p1 p2]) with
            (let! v := run_cmp F D fl c k v1 v2 in Ret (rset F D R1 TInt x v)); [exact K |].
          cbn [Expr_model.run step]. rewrite A2, A3. destruct (run_cmp F D fl c k v1 v2); reflexivity. }
        split; [| auto]. apply tmp_E; auto.
        + intros T n. cbn [Expr_model.temps]. destruct (temps false T n l) as [[? ?] ?]. destruct (temps false _ _ r) as [[? ?] ?]. reflexivity.
        + intros T n T1 n1 o1 E. cbn [Expr_model.temps to_tmp] in E. destruct (temps false T n l) as [[? ?] ?].
          destruct (temps false _ _ r) as [[? ?] ?]. injection E as <- <- <-. reflexivity.
      - assert (HA : doesA (OCast d a)).
        { intros T n t T1 n1 o1 Tf x S Fr L W E S1 St Nd _ Tx. cbn [Expr_model.temps to_tmp] in E.
          destruct (temps false T n a) as [[Ta na] a1] eqn:Ea. injection E as <- <- <-.
          inversion W as [| | | | | ? ? k Wa Wu | |]; subst.
          destruct IHa as (IE & _). destruct (IE T n k Ta na a1 Tf S Fr L Wa Ea S1 St Nd) as (c & p & G & Pl & Pp & Tr & X).
          pose proof (sub_final _ _ _ _ _ _ _ _ _ S Fr Wa Ea S1) as SN.
          destruct (temps_static _ _ _ _ _ _ _ _ S Fr Wa Ea) as (_ & _ & _ & Ga).
          exists c, [IConv F D k t x p], x. split; [exact G |]. split.
          { cbn [assign_source assign_instr]. rewrite Pl, (Ga Tf S1). destruct (nty_eqb_spec k t); [congruence | reflexivity]. }
          split; [reflexivity |]. split; [auto |]. intros R st Rp. rewrite run_app. cbn [ceval].
          eapply orel_bind; [apply X; auto |]. intros [v s] R1 (A1 & A2 & A3). cbn [fst snd] in *.
          rewrite (wt_tyo TN Tf a k) by auto. destruct (nty_eqb_spec k t); [congruence |].
          pose proof (finish n na (oassigned a) t x Tf R R1 s (run_conv F D fl k t v) SN Tx A1 A3) as K.
          replace (run R1 [IConv F D k t x p]) with
            (let! v := run_conv F D fl k t v in Ret (rset F D R1 t x v)); [exact K |].
          cbn [Expr_model.run step]. rewrite A2. destruct (run_conv F D fl k t v); reflexivity. }
        split; [| auto]. apply tmp_E; auto.
        + intros T n. cbn [Expr_model.temps]. destruct (temps false T n a) as [[? ?] ?]. reflexivity.
        + intros T n T1 n1 o1 E. cbn [Expr_model.temps to_tmp] in E. destruct (temps false T n a) as [[? ?] ?].
          injection E as <- <- <-. reflexivity.
      - assert (HE : doesE (OAssign x a)).
        { intros T n t T1 n1 o1 Tf S Fr L W E S1 St Nd. cbn [Expr_model.temps] in E.
          destruct (temps true T n a) as [[Ta na] a1] eqn:Ea. injection E as <- <- <-.
          inversion W as [| | | | | | ? ? ? Wa Wx |]; subst. cbn [ostable ndrop] in St, Nd. destruct Nd as (Nd & Nn).
          pose proof (sub_final _ _ _ _ _ _ _ _ _ S Fr Wa Ea S1) as SN.
          destruct IHa as (_ & IA).
          destruct (IA T n t Ta na a1 Tf x S Fr L Wa Ea S1 St Nd Nn (SN _ _ Wx)) as (c & ci & p & G & Ai & Pl & Pp & X).
          exists (c ++ ci), p. cbn [Expr_model.gen]. rewrite G, (SN _ _ Wx), Ai. split; [reflexivity |].
          split; [exact Pl |]. split; [cbn [late In]; destruct Pp as [-> | [Pp | Pp]]; auto |]. split; [reflexivity |].
          intros R st Rp. cbn [ceval]. rewrite <- (obind_ret_r (run R (c ++ ci))).
          eapply orel_bind; [apply X; auto |]. intros [v s] R1 (A1 & A2 & A3 & A4). constructor.
          split; [exact A1 |]. split; [exact A2 | exact A4]. }
        split; [auto |]. apply move_A; auto.
        + intros T n T1 n1 o1 E. split; [eapply temps_is_seq; eauto |]. intros _.
          cbn [Expr_model.temps] in E. destruct (temps true T n a) as [[? ?] ?]. injection E as <- <- <-. reflexivity.
        + intros T n T1 n1 o1 y z E. cbn [Expr_model.temps] in E. destruct (temps true T n a) as [[? ?] ?].
          injection E as <- <- <-. discriminate.
      - assert (HE : doesE (OSeq a b)).
        { intros T n t T2 n2 o1 Tf S Fr L W E S2 St Nd. cbn [Expr_model.temps] in E.
          destruct (temps false T n a) as [[T1 n1] a1] eqn:E1.
          destruct (temps false T1 n1 b) as [[T2' n2'] b1] eqn:E2. injection E as <- <- <-.
          inversion W as [| | | | | | | ? ? k ? Wa Wb]; subst. cbn [ostable ndrop] in St, Nd.
          destruct IHa as (Ea & _), IHb as (Eb & _).
          destruct (temps_static _ _ _ _ _ _ _ _ S Fr Wa E1) as (L1 & S1 & F1 & G1).
          destruct (temps_static _ _ _ _ _ _ _ _ (sub_trans _ _ _ S S1) F1 Wb E2) as (L2 & S12 & F2 & G2).
          destruct (Ea T n k T1 n1 a1 Tf S Fr L Wa E1 (sub_trans _ _ _ S12 S2) ltac:(tauto) ltac:(tauto)) as (c1 & p1 & C1 & P1 & Q1 & _ & X1).
          destruct (Eb T1 n1 t T2' n2' b1 Tf (sub_trans _ _ _ S S1) F1 ltac:(lia) Wb E2 S2 ltac:(tauto) ltac:(tauto)) as (c2 & p2 & C2 & P2 & Q2 & _ & X2).
          exists (c1 ++ c2), p2. cbn [Expr_model.gen]. rewrite C1, C2. split; [reflexivity |]. split; [exact P2 |].
          split; [cbn [late]; destruct Q2; [auto | right; lia] |]. split; [reflexivity |].
          intros R st Rp. rewrite run_app. cbn [ceval]. eapply orel_bind; [apply X1; auto |].
          intros [v s] R1 (A1 & A2 & A3). cbn [fst snd] in *. eapply orel_mono; [apply X2; auto |].
          intros q R2 (B1 & B2 & B3). split; [auto |]. split; [auto |]. cbn [oassigned]. eapply chg_seq; eauto. }
        split; [auto |]. apply move_A; auto.
        + intros T n T1 n1 o1 E. split; [eapply temps_is_seq; eauto |]. intros Nn.
          cbn [Expr_model.temps] in E. destruct (temps false T n a) as [[? ?] ?].
          destruct (temps false _ _ b) as [[? ?] ?] eqn:Eb. injection E as <- <- <-.
          cbn [is_nested] in Nn |- *. rewrite (temps_is_seq _ _ _ _ _ _ _ Eb). auto.
        + intros T n T1 n1 o1 y z E. cbn [Expr_model.temps] in E. destruct (temps false T n a) as [[? ?] ?].
          destruct (temps false _ _ b) as [[? ?] ?] eqn:Eb. injection E as <- <- <-.
          intros Q. injection Q as <- <-. eapply temps_transparent; eauto.
    Qed.

    (** Code is always found, also for the trees the two restrictions exclude. *)
    Lemma gen_total o :
      (forall T n t T1 n1 o1 Tf, sub TN T -> freshT n T -> wt TN o t -> temps false T n o = (T1, n1, o1) -> sub T1 Tf ->
        exists c p, gen Tf o1 = Some c /\ place o1 = Some p) /\
      (forall T n t T1 n1 o1 Tf, sub TN T -> freshT n T -> wt TN o t -> temps true T n o = (T1, n1, o1) -> sub T1 Tf ->
        exists c, gen Tf o1 = Some c /\ forall x, exists ci p,
          assign_instr F D Tf t x (assign_source F D o1) = Some ci /\ place (OAssign x o1) = Some p).
    Proof.
      assert (TMP : forall o, (forall T n, temps false T n o =
          (let '(T, n, o) := temps true T n o in to_tmp F D false T n o)) ->
        (forall T n t T1 n1 o1 Tf, sub TN T -> freshT n T -> wt TN o t -> temps true T n o = (T1, n1, o1) -> sub T1 Tf ->
          exists c, gen Tf o1 = Some c /\ forall x, exists ci p,
            assign_instr F D Tf t x (assign_source F D o1) = Some ci /\ place (OAssign x o1) = Some p) ->
        (forall T n t T1 n1 o1 Tf, sub TN T -> freshT n T -> wt TN o t -> temps false T n o = (T1, n1, o1) -> sub T1 Tf ->
          exists c p, gen Tf o1 = Some c /\ place o1 = Some p)).
      { intros o' Eq HA T n t T1 n1 o1 Tf S Fr W E S1. rewrite Eq in E.
        destruct (temps true T n o') as [[Ta na] a1] eqn:Ea. cbn [to_tmp] in E. injection E as <- <- <-.
        destruct (temps_static _ _ _ _ _ _ _ _ S Fr W Ea) as (L1 & Sa & Fa & Ga).
        assert (Sx : sub Ta (tset Ta na (get_type Ta a1))) by (apply sub_set, Fa; lia).
        assert (Tn : Tf na = Some t).
        { apply S1. unfold tset. rewrite Nat.eqb_refl. apply Ga, sub_refl. }
        destruct (HA _ _ _ _ _ _ Tf S Fr W Ea (sub_trans _ _ _ Sx S1)) as (c & G & X).
        destruct (X na) as (ci & p & Ai & Pl).
        exists (c ++ ci), p. cbn [Expr_model.gen]. rewrite G, Tn, Ai. auto. }
      assert (MV : forall o, (forall asg T n, temps asg T n o = temps false T n o) ->
        (forall T n t T1 n1 o1 Tf, sub TN T -> freshT n T -> wt TN o t -> temps false T n o = (T1, n1, o1) -> sub T1 Tf ->
          exists c p, gen Tf o1 = Some c /\ place o1 = Some p) ->
        (forall T n T1 n1 o1 a b, temps false T n o = (T1, n1, o1) -> o1 = OSeq a b -> transparent b = true) ->
        (forall T n t T1 n1 o1 Tf, sub TN T -> freshT n T -> wt TN o t -> temps true T n o = (T1, n1, o1) -> sub T1 Tf ->
          exists c, gen Tf o1 = Some c /\ forall x, exists ci p,
            assign_instr F D Tf t x (assign_source F D o1) = Some ci /\ place (OAssign x o1) = Some p)).
      { intros o' Eq HE Tb T n t T1 n1 o1 Tf S Fr W E S1. rewrite Eq in E.
        destruct (HE _ _ _ _ _ _ Tf S Fr W E S1) as (c & p & G & Pl). exists c. split; [auto |]. intros x.
        pose proof (temps_transparent _ _ _ _ _ _ E) as Tr.
        destruct o1 as [y | | | | | | y a | a b]; try discriminate Tr.
        - eexists _, _. split; reflexivity.
        - eexists _, p. cbn [assign_source assign_instr]. rewrite Pl. split; [reflexivity |]. exact Pl.
        - specialize (Tb _ _ _ _ _ _ _ E eq_refl). cbn [assign_source]. cbn [Expr_model.place] in Pl.
          destruct b as [y | | | | | | y b | b1 b2]; try discriminate Tb.
          + eexists _, _. split; reflexivity.
          + eexists _, _. cbn [assign_instr]. rewrite Pl. split; reflexivity.
          + eexists _, _. split; reflexivity. }
      induction o as [x | k v | u a IHa | b w l IHl r IHr | c l IHl r IHr | d a IHa | x a IHa | a IHa b IHb].
      - assert (HE : forall T n t T1 n1 o1 Tf, sub TN T -> freshT n T -> wt TN (OVar x) t -> temps false T n (OVar x) = (T1, n1, o1) -> sub T1 Tf ->
          exists c p, gen Tf o1 = Some c /\ place o1 = Some p).
        { intros T n t T1 n1 o1 Tf S Fr W E S1. cbn in E. injection E as <- <- <-. eexists _, _. split; reflexivity. }
        split; [exact HE |]. apply MV; auto. intros T n T1 n1 o1 a b E. cbn in E. injection E as <- <- <-. discriminate.
      - assert (HA : forall T n t T1 n1 o1 Tf, sub TN T -> freshT n T -> wt TN (OConst k v) t -> temps true T n (OConst k v) = (T1, n1, o1) -> sub T1 Tf ->
          exists c, gen Tf o1 = Some c /\ forall x, exists ci p,
            assign_instr F D Tf t x (assign_source F D o1) = Some ci /\ place (OAssign x o1) = Some p).
        { intros T n t T1 n1 o1 Tf S Fr W E S1. cbn in E. injection E as <- <- <-.
          inversion W as [| ? ? Wc | | | | | |]; subst. eexists. split; [reflexivity |]. intros x. eexists _, _.
          cbn [assign_source assign_instr].
          assert (Ct : const_type t = true) by (destruct Wc; destruct t; try reflexivity; congruence).
          rewrite Ct. split; reflexivity. }
        split; [| exact HA]. apply TMP; auto.
      - destruct IHa as (IE & _).
        assert (HA : forall T n t T1 n1 o1 Tf, sub TN T -> freshT n T -> wt TN (OUn u a) t -> temps true T n (OUn u a) = (T1, n1, o1) -> sub T1 Tf ->
          exists c, gen Tf o1 = Some c /\ forall x, exists ci p,
            assign_instr F D Tf t x (assign_source F D o1) = Some ci /\ place (OAssign x o1) = Some p).
        { intros T n t T1 n1 o1 Tf S Fr W E S1. cbn [Expr_model.temps to_tmp] in E.
          destruct (temps false T n a) as [[Ta na] a1] eqn:Ea. injection E as <- <- <-.
          inversion W as [| | ? ? ? Wa Wu | | | | |]; subst.
          destruct (IE _ _ _ _ _ _ Tf S Fr Wa Ea S1) as (c & p & G & Pl).
          exists c. split; [exact G |]. intros x. cbn [assign_source assign_instr]. rewrite Pl.
          destruct u; rewrite Wu; eexists _, _; split; reflexivity. }
        split; [| exact HA]. apply TMP; auto.
        intros T n. cbn [Expr_model.temps]. destruct (temps false T n a) as [[? ?] ?]. reflexivity.
      - destruct IHl as (El & _), IHr as (Er & _).
        assert (HA : forall T n t T1 n1 o1 Tf, sub TN T -> freshT n T -> wt TN (OBin b w l r) t -> temps true T n (OBin b w l r) = (T1, n1, o1) -> sub T1 Tf ->
          exists c, gen Tf o1 = Some c /\ forall x, exists ci p,
            assign_instr F D Tf t x (assign_source F D o1) = Some ci /\ place (OAssign x o1) = Some p).
        { intros T n t T2 n2 o1 Tf S Fr W E S2. cbn [Expr_model.temps to_tmp] in E.
          destruct (temps false T n l) as [[T1 n1] l1] eqn:E1.
          destruct (temps false T1 n1 r) as [[T2' n2'] r1] eqn:E2. injection E as <- <- <-.
          inversion W as [| | | ? ? ? ? ? ? Wl Wr Wt Wb | | | |]; subst.
          destruct (temps_static _ _ _ _ _ _ _ _ S Fr Wl E1) as (L1 & S1 & F1 & G1).
          destruct (temps_static _ _ _ _ _ _ _ _ (sub_trans _ _ _ S S1) F1 Wr E2) as (L2 & S12 & F2 & G2).
          destruct (El _ _ _ _ _ _ Tf S Fr Wl E1 (sub_trans _ _ _ S12 S2)) as (c1 & p1 & C1 & P1).
          destruct (Er _ _ _ _ _ _ Tf (sub_trans _ _ _ S S1) F1 Wr E2 S2) as (c2 & p2 & C2 & P2).
          exists (c1 ++ c2). cbn [Expr_model.gen]. rewrite C1, C2. split; [reflexivity |]. intros x.
          cbn [assign_source assign_instr]. rewrite P1, P2.
          destruct b; cbn [bin_instr]; try rewrite Wb; eexists _, _; split; reflexivity. }
        split; [| exact HA]. apply TMP; auto.
        intros T n. cbn [Expr_model.temps]. destruct (temps false T n l) as [[? ?] ?]. destruct (temps false _ _ r) as [[? ?] ?]. reflexivity.
      - destruct IHl as (El & _), IHr as (Er & _).
        assert (HA : forall T n t T1 n1 o1 Tf, sub TN T -> freshT n T -> wt TN (OCmp c l r) t -> temps true T n (OCmp c l r) = (T1, n1, o1) -> sub T1 Tf ->
          exists c, gen Tf o1 = Some c /\ forall x, exists ci p,
            assign_instr F D Tf t x (assign_source F D o1) = Some ci /\ place (OAssign x o1) = Some p).
        { intros T n t T2 n2 o1 Tf S Fr W E S2. cbn [Expr_model.temps to_tmp] in E.
          destruct (temps false T n l) as [[T1 n1] l1] eqn:E1.
          destruct (temps false T1 n1 r) as [[T2' n2'] r1] eqn:E2. injection E as <- <- <-.
          inversion W as [| | | | ? ? ? k Wl Wr Wb | | |]; subst.
          destruct (temps_static _ _ _ _ _ _ _ _ S Fr Wl E1) as (L1 & S1 & F1 & G1).
          destruct (temps_static _ _ _ _ _ _ _ _ (sub_trans _ _ _ S S1) F1 Wr E2) as (L2 & S12 & F2 & G2).
          destruct (El _ _ _ _ _ _ Tf S Fr Wl E1 (sub_trans _ _ _ S12 S2)) as (c1 & p1 & C1 & P1).
          destruct (Er _ _ _ _ _ _ Tf (sub_trans _ _ _ S S1) F1 Wr E2 S2) as (c2 & p2 & C2 & P2).
          exists (c1 ++ c2). cbn [Expr_model.gen]. rewrite C1, C2. split; [reflexivity |]. intros x.
          cbn [assign_source assign_instr]. rewrite P1, P2, (G1 Tf (sub_trans _ _ _ S12 S2)), Wb.
          eexists _, _; split; reflexivity. }
        split; [| exact HA]. apply TMP; auto.
        intros T n. cbn [Expr_model.temps]. destruct (temps false T n l) as [[? ?] ?]. destruct (temps false _ _ r) as [[? ?] ?]. reflexivity.
      - destruct IHa as (IE & _).
        assert (HA : forall T n t T1 n1 o1 Tf, sub TN T -> freshT n T -> wt TN (OCast d a) t -> temps true T n (OCast d a) = (T1, n1, o1) -> sub T1 Tf ->
          exists c, gen Tf o1 = Some c /\ forall x, exists ci p,
            assign_instr F D Tf t x (assign_source F D o1) = Some ci /\ place (OAssign x o1) = Some p).
        { intros T n t T1 n1 o1 Tf S Fr W E S1. cbn [Expr_model.temps to_tmp] in E.
          destruct (temps false T n a) as [[Ta na] a1] eqn:Ea. injection E as <- <- <-.
          inversion W as [| | | | | ? ? k Wa Wu | |]; subst.
          destruct (temps_static _ _ _ _ _ _ _ _ S Fr Wa Ea) as (_ & _ & _ & Ga).
          destruct (IE _ _ _ _ _ _ Tf S Fr Wa Ea S1) as (c & p & G & Pl).
          exists c. split; [exact G |]. intros x. cbn [assign_source assign_instr]. rewrite Pl, (Ga Tf S1).
          eexists _, _; split; reflexivity. }
        split; [| exact HA]. apply TMP; auto.
        intros T n. cbn [Expr_model.temps]. destruct (temps false T n a) as [[? ?] ?]. reflexivity.
      - destruct IHa as (_ & IA).
        assert (HE : forall T n t T1 n1 o1 Tf, sub TN T -> freshT n T -> wt TN (OAssign x a) t -> temps false T n (OAssign x a) = (T1, n1, o1) -> sub T1 Tf ->
          exists c p, gen Tf o1 = Some c /\ place o1 = Some p).
        { intros T n t T1 n1 o1 Tf S Fr W E S1. cbn [Expr_model.temps] in E.
          destruct (temps true T n a) as [[Ta na] a1] eqn:Ea. injection E as <- <- <-.
          inversion W as [| | | | | | ? ? ? Wa Wx |]; subst.
          pose proof (sub_final _ _ _ _ _ _ _ _ _ S Fr Wa Ea S1) as SN.
          destruct (IA _ _ _ _ _ _ Tf S Fr Wa Ea S1) as (c & G & X). destruct (X x) as (ci & p & Ai & Pl).
          exists (c ++ ci), p. cbn [Expr_model.gen]. rewrite G, (SN _ _ Wx), Ai. auto. }
        split; [exact HE |]. apply MV; auto.
        intros T n T1 n1 o1 y z E. cbn [Expr_model.temps] in E. destruct (temps true T n a) as [[? ?] ?].
        injection E as <- <- <-. discriminate.
      - destruct IHa as (Ea & _), IHb as (Eb & _).
        assert (HE : forall T n t T1 n1 o1 Tf, sub TN T -> freshT n T -> wt TN (OSeq a b) t -> temps false T n (OSeq a b) = (T1, n1, o1) -> sub T1 Tf ->
          exists c p, gen Tf o1 = Some c /\ place o1 = Some p).
        { intros T n t T2 n2 o1 Tf S Fr W E S2. cbn [Expr_model.temps] in E.
          destruct (temps false T n a) as [[T1 n1] a1] eqn:E1.
          destruct (temps false T1 n1 b) as [[T2' n2'] b1] eqn:E2. injection E as <- <- <-.
          inversion W as [| | | | | | | ? ? k ? Wa Wb]; subst.
          destruct (temps_static _ _ _ _ _ _ _ _ S Fr Wa E1) as (L1 & S1 & F1 & G1).
          destruct (temps_static _ _ _ _ _ _ _ _ (sub_trans _ _ _ S S1) F1 Wb E2) as (L2 & S12 & F2 & G2).
          destruct (Ea _ _ _ _ _ _ Tf S Fr Wa E1 (sub_trans _ _ _ S12 S2)) as (c1 & p1 & C1 & P1).
          destruct (Eb _ _ _ _ _ _ Tf (sub_trans _ _ _ S S1) F1 Wb E2 S2) as (c2 & p2 & C2 & P2).
          exists (c1 ++ c2), p2. cbn [Expr_model.gen]. rewrite C1, C2. auto. }
        split; [exact HE |]. apply MV; auto.
        intros T n T1 n1 o1 y z E. cbn [Expr_model.temps] in E. destruct (temps false T n a) as [[? ?] ?].
        destruct (temps false _ _ b) as [[? ?] ?] eqn:Eb'. injection E as <- <- <-.
        intros Q. injection Q as <- <-. eapply temps_transparent; eauto.
    Qed.
  End Gen.

  (** ** The whole compiler *)
  Section Whole.
    Variables (T : nat -> option nty) (n : nat) (e : expr).
    Hypothesis fresh : forall x, (n <= x)%nat -> T x = None.
    Hypothesis wf : well_formed T e.

    Lemma compile_accepts :
      match ty T e with Some _ => exists c, compile F D T n e = Some c | None => compile F D T n e = None end.
    Proof.
      unfold compile. pose proof (build_check T n fresh e n T (le_n n) wf) as B.
      pose proof (build_le e n) as L.
      destruct (build F D e n) as [o n1]. cbn [fst snd] in *.
      assert (E : env_ok T n n n1 T) by (split; auto; intros x H; apply fresh; lia). specialize (B E).
      destruct (ty T e) as [t |]; [| rewrite B; reflexivity].
      destruct B as (T1 & o1 & C & G). rewrite C.
      destruct (temps F D false T1 n1 o1) as [[T2 n2] o2] eqn:E2.
      assert (F1 : forall x, (n1 <= x)%nat -> T1 x = None).
      { intros x H. rewrite (g_frame _ _ _ _ _ _ _ _ _ G) by lia. apply fresh. lia. }
      destruct (proj1 (gen_total T1 o1) T1 n1 t T2 n2 o2 T2 (sub_refl _) F1 (g_wt _ _ _ _ _ _ _ _ _ G) E2 (sub_refl _))
        as (c & p & Gn & Pl).
      rewrite Gn, Pl. eauto.
    Qed.

    Lemma compile_correct c t R st : compile F D T n e = Some c -> ty T e = Some t ->
      stable T e -> not_dropped T e -> (forall x s, T x = Some s -> R s x = st x) ->
      orel (fun q R' => R' t (c_result F D c) = fst q /\ forall x s, T x = Some s -> R' s x = snd q x)
        (eval fl T e st) (run F D fl R (c_instrs F D c)).
    Proof.
      unfold compile. pose proof (build_check T n fresh e n T (le_n n) wf) as B.
      pose proof (build_le e n) as L.
      destruct (build F D e n) as [o n1]. cbn [fst snd] in *.
      assert (E : env_ok T n n n1 T) by (split; auto; intros x H; apply fresh; lia). specialize (B E).
      intros Cm Y St Nd Rp. rewrite Y in B.
      destruct B as (T1 & o1 & C & G). rewrite C in Cm.
      destruct (temps F D false T1 n1 o1) as [[T2 n2] o2] eqn:E2.
      assert (F1 : forall x, (n1 <= x)%nat -> T1 x = None).
      { intros x H. rewrite (g_frame _ _ _ _ _ _ _ _ _ G) by lia. apply fresh. lia. }
      destruct (proj1 (does T1 n1 F1 o1) T1 n1 t T2 n2 o2 T2 (sub_refl _) F1 (le_n _) (g_wt _ _ _ _ _ _ _ _ _ G) E2
        (sub_refl _) (g_stable _ _ _ _ _ _ _ _ _ G St) (g_drop _ _ _ _ _ _ _ _ _ G Nd)) as (cs & p & Gn & Pl & _ & _ & X).
      rewrite Gn, Pl in Cm. injection Cm as <-. cbn [c_result c_instrs].
      destruct (temps_static T1 _ _ _ _ _ _ _ _ (sub_refl _) F1 (g_wt _ _ _ _ _ _ _ _ _ G) E2) as (_ & S2 & _).
      set (sto := fun x => match T1 x with Some s => R s x | None => st x end).
      assert (Lt : forall x s, T x = Some s -> (x < n)%nat).
      { intros x s H. destruct (Nat.lt_ge_cases x n); auto. rewrite fresh in H by auto. congruence. }
      assert (Sub : forall x, (x < n)%nat -> T1 x = T x).
      { intros x H. apply (g_frame _ _ _ _ _ _ _ _ _ G). auto. }
      assert (Ag : agree n st sto).
      { intros x H. unfold sto. rewrite Sub by auto. destruct (T x) eqn:Tx; auto. symmetry. auto. }
      assert (Rt : rep T1 R sto) by (intros x s H; unfold sto; rewrite H; reflexivity).
      pose proof (g_sim _ _ _ _ _ _ _ _ _ G T2 st sto S2 Ag) as M. specialize (X R sto Rt).
      destruct M as [q q' (Q1 & Q2) | | |]; inversion X as [a b (A1 & A2 & A3) | | |]; subst; constructor.
      split; [congruence |]. intros x s H. rewrite (A1 x s) by (rewrite Sub; eauto). symmetry. apply Q2. eauto.
    Qed.
  End Whole.

  (** ** Types of the results *)
  Definition floats_ok : Prop :=
    (forall d f z, z_of_f F D fl d f = Some z -> in_range d z = true) /\
    (forall d f z, z_of_d F D fl d f = Some z -> in_range d z = true).

  Section Typed.
    Hypothesis FO : floats_ok.
    Variable T : nat -> option nty.

    Lemma wrapped_range d z : in_range d (wrapped d z) = true.
    Proof.
      unfold in_range, wrapped. apply andb_true_iff. rewrite Z.leb_le, Z.ltb_lt.
      assert (P : 0 < snd (int_range d) - fst (int_range d)) by (destruct d; reflexivity).
      pose proof (Z.mod_pos_bound (z - fst (int_range d)) _ P). lia.
    Qed.

    Lemma conv_typed s d v r : value_ok s v -> doc_conv fl s d v = Ret r -> value_ok d r.
    Proof.
      intros V. unfold doc_conv. destruct (same_spec s d) as [-> | Ne]; [congruence |].
      destruct FO as (F1 & F2).
      destruct v as [z | f | f]; destruct s; try contradiction V; cbn [integral rank Nat.leb same Nat.eqb];
        destruct d; try congruence; cbn [integral rank Nat.leb same Nat.eqb undefined_or]; intros E;
        try (injection E as <-; try exact I; apply wrapped_range).
      all: try (destruct (z_of_f F D fl _ f) as [z |] eqn:Z1; cbn [undefined_or] in E; [| discriminate];
                injection E as <-; apply (F1 _ _ _ Z1)).
      all: try (destruct (z_of_d F D fl _ f) as [z |] eqn:Z1; cbn [undefined_or] in E; [| discriminate];
                injection E as <-; apply (F2 _ _ _ Z1)).
    Qed.

    Lemma in_fits t z : t = TInt \/ t = TLong -> in_range t z = true ->
      fits (match t with TLong => 64 | _ => 32 end) z.
    Proof.
      intros H I. unfold in_range in I. apply andb_true_iff in I. rewrite Z.leb_le, Z.ltb_lt in I.
      unfold fits. destruct H as [-> | ->]; exact I.
    Qed.
    Lemma fits_in t z : t = TInt \/ t = TLong -> fits (match t with TLong => 64 | _ => 32 end) z -> in_range t z = true.
    Proof.
      intros H I. unfold in_range. apply andb_true_iff. rewrite Z.leb_le, Z.ltb_lt.
      unfold fits in I. destruct H as [-> | ->]; exact I.
    Qed.
    Lemma fits_32_64 z : fits 32 z -> fits 64 z.
    Proof. unfold fits. intros H. change (2 ^ (32 - 1)) with 2147483648 in H. change (2 ^ (64 - 1)) with 9223372036854775808. lia. Qed.

    Lemma int_op_typed t o a b r : t = TInt \/ t = TLong -> in_range t a = true ->
      fits (match t with TLong => 64 | _ => 32 end) b ->
      int_op (match t with TLong => 64 | _ => 32 end) o a b = Ret r -> in_range t r = true.
    Proof.
      intros H A B E. apply fits_in; auto.
      destruct (int_op_total (match t with TLong => 64 | _ => 32 end) o a b) as [(_ & _ & K) | [(_ & _ & K) | (_ & _ & r' & K & Fr & _)]];
        try (rewrite K in E; congruence); auto; [destruct H as [-> | ->]; hnf; auto |]. apply in_fits; auto.
    Qed.

    Lemma bin_typed b w v v' r : value_ok w v -> value_ok (right_ty b w) v' -> doc_bin fl b w v v' = Ret r ->
      value_ok w r.
    Proof.
      intros V V' E. unfold doc_bin in E. destruct v as [x | x | x], v' as [y | y | y]; try discriminate.
      - destruct (same_spec w TInt) as [-> | N1].
        + destruct (int_op 32 (doc_int b) x y) as [z | | |] eqn:K; cbn [obind] in E; try discriminate. injection E as <-.
          eapply (int_op_typed TInt (doc_int b) x y z); auto. apply (in_fits TInt); auto.
          destruct b; exact V'.
        + destruct (same_spec w TLong) as [-> | N2]; [| discriminate].
          destruct (int_op 64 (doc_int b) x y) as [z | | |] eqn:K; cbn [obind] in E; try discriminate. injection E as <-.
          eapply (int_op_typed TLong (doc_int b) x y z); auto.
          destruct b; try exact (in_fits TLong y (or_intror eq_refl) V');
            exact (fits_32_64 y (in_fits TInt y (or_introl eq_refl) V')).
      - destruct (same_spec w TFloat) as [-> | N1]; [| discriminate].
        destruct b; try discriminate; injection E as <-; exact I.
      - destruct (same_spec w TDouble) as [-> | N1]; [| discriminate].
        destruct b; try discriminate; injection E as <-; exact I.
    Qed.

    Lemma not_range t z : t = TInt \/ t = TLong -> in_range t z = true -> in_range t (Z.lnot z) = true.
    Proof.
      intros H A. apply (int_op_typed t ONot z 0); auto.
      unfold fits. destruct H as [-> | ->]; split; reflexivity || discriminate.
    Qed.

    Lemma un_typed u w v r : value_ok w v -> doc_un fl u w v = Ret r -> value_ok w r.
    Proof.
      intros V E. destruct u; cbn [doc_un] in E.
      - injection E as <-. auto.
      - destruct v as [z | f | f].
        + destruct (same_spec w TInt) as [-> | N1].
          * destruct (int_op 32 ONeg z 0) as [k | | |] eqn:K; cbn [obind] in E; try discriminate. injection E as <-.
            eapply (int_op_typed TInt ONeg z 0 k); auto. split; reflexivity || discriminate.
          * destruct (same_spec w TLong) as [-> | N2]; [| discriminate].
            destruct (int_op 64 ONeg z 0) as [k | | |] eqn:K; cbn [obind] in E; try discriminate. injection E as <-.
            eapply (int_op_typed TLong ONeg z 0 k); auto. split; reflexivity || discriminate.
        + destruct (same_spec w TFloat) as [-> | N1]; [| discriminate]. injection E as <-. exact I.
        + destruct (same_spec w TDouble) as [-> | N1]; [| discriminate]. injection E as <-. exact I.
      - destruct v as [z | f | f]; try discriminate. cbn in E.
        destruct w; cbn in E; try discriminate; injection E as <-; apply not_range; auto.
    Qed.

    Lemma cmp_typed c w v v' r : doc_cmp fl c w v v' = Ret r -> value_ok TInt r.
    Proof.
      assert (K : forall lt eq gt le ge, in_range TInt (doc_order c lt eq gt le ge) = true)
        by (intros lt eq gt le ge; destruct c, lt, eq, gt, le, ge; reflexivity).
      destruct w, v, v'; cbn [doc_cmp same rank Nat.eqb orb]; try discriminate;
        intros E; injection E as <-; apply K.
    Qed.

    Lemma eval_typed (e : expr) : forall t st v st', well_formed T e -> ty T e = Some t ->
      (forall x s, T x = Some s -> value_ok s (st x)) -> eval fl T e st = Ret (v, st') ->
      value_ok t v /\ forall x s, T x = Some s -> value_ok s (st' x).
    Proof.
      induction e as [x | k v | u a IHa | b l IHl r IHr | c l IHl r IHr | d a IHa | x a IHa | b x a IHa | dec post x | a IHa b IHb];
        intros t st v0 st' W Y Ok E; cbn [well_formed] in W.
      - cbn in Y, E. injection E as <- <-. auto.
      - cbn in Y, E. injection E as <- <-. injection Y as <-. tauto.
      - cbn [ty] in Y. cbn [eval] in E. destruct (ty T a) as [s |] eqn:Ya; [| discriminate].
        rewrite (typ_eq T _ _ Ya) in E.
        destruct (eval fl T a st) as [[v1 s1] | | |] eqn:E1; cbn [obind fst snd] in E; try discriminate.
        destruct (doc_conv fl s (widen s) v1) as [v2 | | |] eqn:E2; cbn [obind fst snd] in E; try discriminate.
        destruct (doc_un fl u (widen s) v2) as [v3 | | |] eqn:E3; cbn [obind fst snd] in E; try discriminate.
        injection E as <- <-. destruct (IHa _ _ _ _ W eq_refl Ok E1) as (V1 & O1). split; [| auto].
        replace t with (widen s) by (destruct u; [congruence .. | destruct (integral s); congruence]).
        eapply un_typed; [| eauto]. eapply conv_typed; eauto.
      - destruct W as (Wl & Wr). change (eval fl T (EBin F D b l r) st) with
            (let w := typ T (EBin F D b l r) in
             let! p := eval fl T l st in
             let! v := doc_conv fl (typ T l) w (fst p) in
             let! q := eval fl T r (snd p) in
             let! v' := doc_conv fl (typ T r) (right_ty b w) (fst q) in
             let! z := doc_bin fl b w v v' in Ret (z, snd q)) in E.
        cbv zeta in E. rewrite (typ_eq T _ _ Y) in E. cbn [ty] in Y.
        destruct (ty T l) as [tl |] eqn:Yl; [| discriminate]. destruct (ty T r) as [tr |] eqn:Yr; [| discriminate].
        rewrite (typ_eq T _ _ Yl), (typ_eq T _ _ Yr) in E.
        destruct (eval fl T l st) as [[v1 s1] | | |] eqn:E1; cbn [obind fst snd] in E; try discriminate.
        destruct (doc_conv fl tl t v1) as [v2 | | |] eqn:E2; cbn [obind fst snd] in E; try discriminate.
        destruct (eval fl T r s1) as [[v3 s3] | | |] eqn:E3; cbn [obind fst snd] in E; try discriminate.
        destruct (doc_conv fl tr _ v3) as [v4 | | |] eqn:E4; cbn [obind fst snd] in E; try discriminate.
        destruct (doc_bin fl b t v2 v4) as [v5 | | |] eqn:E5; cbn [obind fst snd] in E; try discriminate.
        injection E as <- <-. destruct (IHl _ _ _ _ Wl eq_refl Ok E1) as (V1 & O1).
        destruct (IHr _ _ _ _ Wr eq_refl O1 E3) as (V3 & O3). split; [| auto].
        apply (bin_typed b t v2 v4 v5); auto; [apply (conv_typed tl t v1) | apply (conv_typed tr (right_ty b t) v3)]; auto.
      - destruct W as (Wl & Wr). cbn [eval] in E. cbn [ty] in Y.
        destruct (ty T l) as [tl |] eqn:Yl; [| discriminate]. destruct (ty T r) as [tr |] eqn:Yr; [| discriminate].
        injection Y as <-.
        destruct (eval fl T l st) as [[v1 s1] | | |] eqn:E1; cbn [obind fst snd] in E; try discriminate.
        destruct (doc_conv fl _ _ v1) as [v2 | | |] eqn:E2; cbn [obind fst snd] in E; try discriminate.
        destruct (eval fl T r s1) as [[v3 s3] | | |] eqn:E3; cbn [obind fst snd] in E; try discriminate.
        destruct (doc_conv fl _ _ v3) as [v4 | | |] eqn:E4; cbn [obind fst snd] in E; try discriminate.
        destruct (doc_cmp fl c _ v2 v4) as [v5 | | |] eqn:E5; cbn [obind fst snd] in E; try discriminate.
        injection E as <- <-. destruct (IHl _ _ _ _ Wl eq_refl Ok E1) as (V1 & O1).
        destruct (IHr _ _ _ _ Wr eq_refl O1 E3) as (V3 & O3). split; [| auto]. eapply cmp_typed; eauto.
      - cbn [ty] in Y. cbn [eval] in E. destruct (ty T a) as [s |] eqn:Ya; [| discriminate]. injection Y as <-.
        rewrite (typ_eq T _ _ Ya) in E.
        destruct (eval fl T a st) as [[v1 s1] | | |] eqn:E1; cbn [obind fst snd] in E; try discriminate.
        destruct (doc_conv fl s d v1) as [v2 | | |] eqn:E2; cbn [obind fst snd] in E; try discriminate.
        injection E as <- <-. destruct (IHa _ _ _ _ W eq_refl Ok E1) as (V1 & O1). split; [| auto].
        eapply conv_typed; eauto.
      - destruct W as (Wx & W). rewrite ty_assign in Y. cbn [eval] in E. destruct (ty T a) as [s |] eqn:Ya; [| discriminate].
        destruct (T x) as [d |] eqn:X; [| discriminate].
        destruct (Nat.leb (rank s) (rank d) || narrowing_literal T d a); [| discriminate]. injection Y as <-.
        rewrite (typ_eq T _ _ Ya) in E. unfold vtyp in E. rewrite X in E.
        destruct (eval fl T a st) as [[v1 s1] | | |] eqn:E1; cbn [obind fst snd] in E; try discriminate.
        destruct (doc_conv fl s d v1) as [v2 | | |] eqn:E2; cbn [obind fst snd] in E; try discriminate.
        injection E as <- <-. destruct (IHa _ _ _ _ W eq_refl Ok E1) as (V1 & O1).
        assert (V2 : value_ok d v2) by (eapply conv_typed; eauto). split; [auto |].
        intros y k H. unfold supd. destruct (Nat.eqb_spec y x) as [-> | Ne]; [| auto].
        assert (k = d) by congruence. subst k. auto.
      - destruct W as (Wx & W). cbn [ty] in Y. cbn [eval] in E.
        destruct (T x) as [d |] eqn:X; [| discriminate]. destruct (ty T a) as [s |] eqn:Ya; [| discriminate].
        destruct (bin_ty b d s) as [w |] eqn:Yb; [| discriminate]. injection Y as <-.
        rewrite (typ_eq T _ _ Ya) in E. unfold vtyp in E. rewrite X, Yb in E.
        destruct (doc_conv fl d w (st x)) as [v1 | | |] eqn:E1; cbn [obind fst snd] in E; try discriminate.
        destruct (eval fl T a st) as [[v2 s2] | | |] eqn:E2; cbn [obind fst snd] in E; try discriminate.
        destruct (doc_conv fl s _ v2) as [v3 | | |] eqn:E3; cbn [obind fst snd] in E; try discriminate.
        destruct (doc_bin fl b w v1 v3) as [v4 | | |] eqn:E4; cbn [obind fst snd] in E; try discriminate.
        destruct (doc_conv fl w d v4) as [v5 | | |] eqn:E5; cbn [obind fst snd] in E; try discriminate.
        injection E as <- <-. destruct (IHa _ _ _ _ W eq_refl Ok E2) as (V2 & O2).
        assert (V5 : value_ok d v5).
        { apply (conv_typed w d v4); auto. apply (bin_typed b w v1 v3); auto;
            [apply (conv_typed d w (st x)) | apply (conv_typed s (right_ty b w) v2)]; auto. }
        split; [auto |].
        intros y k H. unfold supd. destruct (Nat.eqb_spec y x) as [-> | Ne]; [| auto].
        assert (k = d) by congruence. subst k. auto.
      - cbn [ty] in Y. cbn [eval] in E. rename t into d. unfold vtyp in E. rewrite Y in E.
        destruct (doc_conv fl d (common d TInt) (st x)) as [v1 | | |] eqn:E1; cbn [obind fst snd] in E; try discriminate.
        destruct (doc_conv fl TInt (common d TInt) (VI 1)) as [v2 | | |] eqn:E2; cbn [obind fst snd] in E; try discriminate.
        destruct (doc_bin fl _ (common d TInt) v1 v2) as [v4 | | |] eqn:E4; cbn [obind fst snd] in E; try discriminate.
        destruct (doc_conv fl (common d TInt) d v4) as [v5 | | |] eqn:E5; cbn [obind fst snd] in E; try discriminate.
        injection E as <- <-.
        assert (V5 : value_ok d v5).
        { apply (conv_typed (common d TInt) d v4); auto.
          apply (bin_typed (if dec then BSub else BAdd) (common d TInt) v1 v2); auto.
          - apply (conv_typed d (common d TInt) (st x)); auto.
          - replace (right_ty (if dec then BSub else BAdd) (common d TInt)) with (common d TInt) by (destruct dec; reflexivity).
            apply (conv_typed TInt (common d TInt) (VI 1)); auto; reflexivity. }
        split; [destruct post; auto |].
        intros y k H. unfold supd. destruct (Nat.eqb_spec y x) as [-> | Ne]; [| auto].
        assert (k = d) by congruence. subst k. auto.
      - destruct W as (Wl & Wr). cbn [eval] in E. cbn [ty] in Y.
        destruct (ty T a) as [tl |] eqn:Yl; [| discriminate].
        destruct (eval fl T a st) as [[v1 s1] | | |] eqn:E1; cbn [obind fst snd] in E; try discriminate.
        destruct (IHa _ _ _ _ Wl eq_refl Ok E1) as (V1 & O1). eauto.
    Qed.
  End Typed.

  Lemma eval_not_fuel T (e : expr) : forall st, eval fl T e st <> Fuel.
  Proof.
    assert (NB : forall A B (o : outcome A) (f : A -> outcome B), o <> Fuel -> (forall a, f a <> Fuel) -> obind o f <> Fuel)
      by (intros A B [a | | |] f X Z; cbn [obind]; auto; congruence).
    assert (NI : forall k o a b, int_op k o a b <> Fuel).
    { intros k o a b. destruct o; cbn [int_op];
        unfold add_i, sub_i, mul_i, div_i, divu_i, mod_i, modu_i, shl_i, sar_i, shr_i, and_i, or_i, xor_i, not_i, neg_i, c_rem, c_div, c_signed;
        repeat match goal with
               | |- context [if ?b then _ else _] => destruct b
               | |- obind _ _ <> Fuel => apply NB; [| intros ?]
               | |- _ => congruence
               end. }
    assert (NC : forall s d v, doc_conv fl s d v <> Fuel).
    { intros s d v. unfold doc_conv, undefined_or.
      destruct v; repeat match goal with
        | |- context [if ?b then _ else _] => destruct b
        | |- context [match ?b with Some _ => _ | None => _ end] => destruct b
        end; congruence. }
    assert (NO : forall b t v w, doc_bin fl b t v w <> Fuel).
    { intros b t v w. unfold doc_bin. destruct v, w; try congruence;
        repeat match goal with
        | |- context [if ?b then _ else _] => destruct b
        end; try congruence; try (apply NB; [apply NI | congruence]); destruct b; congruence. }
    assert (NU : forall u t v, doc_un fl u t v <> Fuel).
    { intros u t v. unfold doc_un. destruct u, v; try congruence;
        repeat match goal with
        | |- context [if ?b then _ else _] => destruct b
        end; try congruence; apply NB; [apply NI | congruence | apply NI | congruence ..]; auto. }
    assert (NM : forall c t v w, doc_cmp fl c t v w <> Fuel).
    { intros c t v w. unfold doc_cmp. destruct v, w; try congruence; destruct t; cbn [same rank Nat.eqb orb]; congruence. }
    induction e; intros st; cbn [eval];
      repeat match goal with
             | |- obind _ _ <> Fuel => apply NB; [| intros ?]
             | |- Ret _ <> Fuel => congruence
             end; auto.
  Qed.
End Float.
