(** * Proofs about variable names: scopes *)
From Coq Require Import Lia.
From Verif Require Import Base CLib Dec Type_model Dispatch_model Names_model Names_spec.
Local Open Scope Z_scope.

Lemma name_eqb_iff a b : name_eqb a b = true <-> a = b.
Proof. unfold name_eqb. destruct (list_eq_dec Z.eq_dec a b); split; congruence. Qed.
Lemma name_eqb_rf a : name_eqb a a = true.
Proof. now apply name_eqb_iff. Qed.

(** ** The walk over the tree as a run over events with nested scopes *)
Inductive fev := FO | FC | FD (l : label) (x : name) | FU (l : label) (x : name).
Notation entry := (name * label)%type (only parsing).
Notation scopes := (list (list (name * label))) (only parsing).

Fixpoint fevents (t : tree) : list fev :=
  match t with
  | TNil => []
  | TVar true l x => [FD l x]
  | TVar false l x => [FU l x]
  | TPair t u => fevents t ++ fevents u
  | TBlock true t => fevents t
  | TBlock false t => FO :: fevents t ++ [FC]
  end.

Definition is_hidden (x : name) : bool := is_prefix (bytes "$.") x.
Fixpoint has (s : list entry) (x : name) : bool :=
  match s with [] => false | (y, _) :: s => name_eqb x y || has s x end.

Section Run.
  Variable cs : classes.
  Variable current : name.
  Variable accessible : name -> name -> bool.

  Definition fresolve (x : name) (sc : scopes) : result target :=
    match search (concat sc) x with
    | Some d => Good (Local d)
    | None => match class_var cs current x with
              | Fail e => Fail e
              | Good None => Fail (Not_found x)
              | Good (Some (c, y)) => if accessible c y then Good (ClassVar c y) else Fail (No_access c y)
              end
    end.

  Definition add_out {A} (o : list A) (r : result (scopes * list A)) : result (scopes * list A) :=
    match r with Good (sc, o') => Good (sc, o ++ o') | Fail e => Fail e end.

  Fixpoint frun (es : list fev) (sc : scopes) : result (scopes * list (label * target)) :=
    match es with
    | [] => Good (sc, [])
    | FO :: es => frun es ([] :: sc)
    | FC :: es => match sc with [] => Fail Undefined | _ :: sc => frun es sc end
    | FD l x :: es =>
        match sc with
        | [] => Fail Undefined
        | s :: sc => if has s x && negb (is_hidden x) then Fail (Redeclaration x)
                     else add_out [(l, Local l)] (frun es (((x, l) :: s) :: sc))
        end
    | FU l x :: es =>
        match fresolve x sc with
        | Fail e => Fail e
        | Good t => add_out [(l, t)] (frun es sc)
        end
    end.

  Lemma frun_app a : forall b sc,
    frun (a ++ b) sc = match frun a sc with Fail e => Fail e | Good (sc1, o) => add_out o (frun b sc1) end.
  Proof.
    induction a as [| [| | l x | l x] a IH]; intros b sc; cbn [app frun].
    - unfold add_out. destruct (frun b sc) as [[sc2 o] |]; reflexivity.
    - apply IH.
    - destruct sc; [reflexivity | apply IH].
    - destruct sc as [| s sc]; [reflexivity |]. destruct (has s x && _); [reflexivity |].
      rewrite IH. unfold add_out. destruct (frun a _) as [[sc1 o1] |]; [| reflexivity].
      destruct (frun b sc1) as [[sc2 o2] |]; reflexivity.
    - destruct (fresolve x sc) as [t |]; [| reflexivity].
      rewrite IH. unfold add_out. destruct (frun a _) as [[sc1 o1] |]; [| reflexivity].
      destruct (frun b sc1) as [[sc2 o2] |]; reflexivity.
  Qed.

  Fixpoint bases_of (sc : scopes) : list Z :=
    match sc with [] => [] | _ :: sc => zlen (concat sc) :: bases_of sc end.
  Definition rel (s : state) (sc : scopes) : Prop :=
    rev (stack s) = concat sc /\ bases s = bases_of sc.

  Lemma redeclared_has l x : redeclared l x = has l x && negb (is_hidden x).
  Proof.
    induction l as [| [y d] l IH]; [reflexivity |]. cbn. destruct (name_eqb x y); [reflexivity | exact IH].
  Qed.
  Lemma has_app a b x : has (a ++ b) x = has a x || has b x.
  Proof. induction a as [| [y d] a IH]; cbn; [reflexivity |]. rewrite IH. now rewrite Bool.orb_assoc. Qed.
  Lemma has_rev l x : has (rev l) x = has l x.
  Proof.
    induction l as [| [y d] l IH]; [reflexivity |]. cbn [rev]. rewrite has_app, IH. cbn.
    rewrite Bool.orb_false_r. apply Bool.orb_comm.
  Qed.

  Lemma rel_stack s b sc : rel s (b :: sc) -> stack s = rev (concat sc) ++ rev b.
  Proof.
    intros [H _]. cbn [concat] in H. rewrite <- (rev_involutive (stack s)), H. apply rev_app_distr.
  Qed.
  Lemma zlen_rev' {A} (l : list A) : zlen (rev l) = zlen l.
  Proof. unfold zlen. now rewrite rev_length. Qed.

  Lemma resolve_run x l s sc :
    rel s sc ->
    match resolve cs current accessible x l s, fresolve x sc with
    | Good s', Good t => rel s' sc /\ out s' = out s ++ [(l, t)]
    | Fail e, Fail e' => e = e'
    | _, _ => False
    end.
  Proof.
    intros [H1 H2]. unfold resolve, fresolve. rewrite H1.
    destruct (search (concat sc) x) as [d |].
    - repeat split; assumption.
    - destruct (class_var cs current x) as [[[c y] |] | e]; [| reflexivity | reflexivity].
      destruct (accessible c y); [repeat split; assumption | reflexivity].
  Qed.

  Lemma search_hd x l b : search ((x, l) :: b) x = Some l.
  Proof. cbn. now rewrite name_eqb_rf. Qed.

  Lemma walk_run t : forall s sc,
    rel s sc ->
    match walk cs current accessible t s, frun (fevents t) sc with
    | Good s', Good (sc', o) => rel s' sc' /\ out s' = out s ++ o
    | Fail e, Fail e' => e = e'
    | _, _ => False
    end.
  Proof.
    induction t as [| d l x | t IHt u IHu | ns t IH]; intros s sc R.
    - cbn. split; [assumption |]. now rewrite app_nil_r.
    - destruct d; cbn [walk fevents frun].
      + unfold declare. destruct sc as [| b sc].
        * destruct R as [_ E]. cbn in E. now rewrite E.
        * destruct R as [R1 R2]. pose proof (rel_stack s b sc (conj R1 R2)) as ST.
          cbn [bases_of] in R2. rewrite R2.
          assert (E : redeclared (zdrop (zlen (concat sc)) (stack s)) x = has b x && negb (is_hidden x)).
          { rewrite ST, zdrop_app_r by (rewrite zlen_rev'; lia).
            rewrite zlen_rev', Z.sub_diag, zdrop_0 by lia. rewrite redeclared_has, has_rev. reflexivity. }
          rewrite E. destruct (has b x && negb (is_hidden x)); [reflexivity |].
          assert (R' : rel (State (stack s ++ [(x, l)]) (zlen (concat sc) :: bases_of sc) (out s))
                           (((x, l) :: b) :: sc)).
          { split; cbn [stack bases]; [| reflexivity]. rewrite rev_app_distr, R1. reflexivity. }
          pose proof (resolve_run x l _ _ R') as RR.
          unfold fresolve in RR. cbn [concat app] in RR. rewrite search_hd in RR.
          destruct (resolve cs current accessible x l _) as [s' |]; [| contradiction].
          cbn [add_out frun]. exact RR.
      + pose proof (resolve_run x l _ _ R) as RR.
        destruct (resolve cs current accessible x l s) as [s' |], (fresolve x sc) as [t |]; try assumption.
    - cbn [walk fevents]. rewrite frun_app. specialize (IHt s sc R).
      destruct (walk cs current accessible t s) as [s1 |], (frun (fevents t) sc) as [[sc1 o1] |];
        try contradiction; [| assumption].
      destruct IHt as [R1 O1]. specialize (IHu s1 sc1 R1).
      destruct (walk cs current accessible u s1) as [s2 |], (frun (fevents u) sc1) as [[sc2 o2] |];
        cbn [add_out]; try contradiction; [| assumption].
      destruct IHu as [R2 O2]. split; [assumption |]. now rewrite O2, O1, app_assoc.
    - destruct ns; cbn [walk fevents]; [now apply IH |].
      cbn [frun]. rewrite frun_app.
      assert (R0 : rel (State (stack s) (zlen (stack s) :: bases s) (out s)) ([] :: sc)).
      { destruct R as [R1 R2]. split; cbn [stack bases concat app bases_of]; [assumption |].
        rewrite R2, <- R1, zlen_rev'. reflexivity. }
      specialize (IH _ _ R0).
      destruct (walk cs current accessible t _) as [s1 |], (frun (fevents t) ([] :: sc)) as [[sc1 o1] |];
        try contradiction; [| assumption].
      destruct IH as [R1 O1]. destruct sc1 as [| b sc1]; cbn [frun add_out].
      + destruct R1 as [_ R1]. cbn in R1. rewrite R1. reflexivity.
      + pose proof (rel_stack _ _ _ R1) as ST. destruct R1 as [R1 R2]. cbn [bases_of] in R2. rewrite R2.
        split; [split |]; cbn [stack bases out]; [| reflexivity |].
        * replace (zlen (stack s1) - (zlen (stack s1) - zlen (concat sc1))) with (zlen (rev (concat sc1)))
            by (rewrite zlen_rev'; lia).
          rewrite ST, ztake_app_l by lia. rewrite ztake_all by lia. now rewrite rev_involutive.
        * rewrite O1, app_nil_r. reflexivity.
  Qed.
End Run.
