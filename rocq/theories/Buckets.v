(** * Hash tables with separate chaining: the mathematics shared by the two
    hash tables of SPVM (lemmas only, no model). *)

From Coq Require Import Permutation.
From Verif Require Import Base.

Definition key := list Z.
Definition key_dec : forall a b : key, {a = b} + {a <> b} := list_eq_dec Z.eq_dec.
Global Arguments key_dec : simpl never.

Section Buckets.
  Context {E : Type} (ekey : E -> key).

  (** The first entry with key [k]. *)
  Fixpoint efind (k : key) (l : list E) : option E :=
    match l with
    | [] => None
    | e :: l' => if key_dec (ekey e) k then Some e else efind k l'
    end.

  Definition keys_of (l : list E) : list key := map ekey l.

  Lemma efind_Some k l e : efind k l = Some e -> In e l /\ ekey e = k.
  Proof.
    induction l as [| x l IH]; cbn; [discriminate |].
    destruct (key_dec (ekey x) k).
    - intros [= <-]; auto.
    - intros H; destruct (IH H); auto.
  Qed.

  Lemma efind_None k l : efind k l = None <-> ~ In k (keys_of l).
  Proof.
    induction l as [| x l IH]; cbn; [tauto |].
    destruct (key_dec (ekey x) k).
    - split; [discriminate | intros H; exfalso; apply H; auto].
    - rewrite IH. tauto.
  Qed.

  Lemma efind_In k l e :
    NoDup (keys_of l) -> In e l -> ekey e = k -> efind k l = Some e.
  Proof.
    induction l as [| x l IH]; cbn; [tauto |].
    intros N [-> | I] K; inversion N; subst.
    - destruct (key_dec (ekey e) (ekey e)); congruence.
    - destruct (key_dec (ekey x) (ekey e)) as [Q |]; auto.
      exfalso. match goal with H : ~ In _ _ |- _ => apply H end.
      rewrite Q. apply in_map; auto.
  Qed.

  Lemma efind_app k l l' :
    efind k (l ++ l') = match efind k l with Some e => Some e | None => efind k l' end.
  Proof.
    induction l as [| x l IH]; cbn; auto. destruct (key_dec (ekey x) k); auto.
  Qed.

  Lemma efind_perm k l l' :
    NoDup (keys_of l) -> Permutation l l' -> efind k l = efind k l'.
  Proof.
    intros N P.
    assert (N' : NoDup (keys_of l')).
    { eapply Permutation_NoDup; [| exact N]. apply Permutation_map; auto. }
    destruct (efind k l) eqn:F.
    - apply efind_Some in F. destruct F as [I K]. symmetry. apply efind_In; auto.
      eapply Permutation_in; eauto.
    - symmetry. apply efind_None. apply efind_None in F. intros C. apply F.
      eapply Permutation_in; [| exact C]. apply Permutation_map. symmetry; auto.
  Qed.

  (** A table is well formed for an index function. *)
  Record wf_table (idx : key -> Z) (t : list (list E)) : Prop := {
    wf_home : forall i c e, znth t i = Some c -> In e c -> idx (ekey e) = i;
    wf_nodup : NoDup (keys_of (concat t))
  }.

  Lemma table_split (t : list (list E)) i c :
    znth t i = Some c -> exists t1 t2, t = t1 ++ c :: t2 /\ zlen t1 = i.
  Proof.
    intros H. pose proof (znth_Some _ _ _ H).
    exists (ztake i t), (zdrop (i + 1) t). split.
    - rewrite <- (zdrop_cons t i c H). symmetry. apply ztake_zdrop.
    - rewrite zlen_take. lia.
  Qed.

  Lemma zupd_split (t1 t2 : list (list E)) c c' :
    zupd (t1 ++ c :: t2) (zlen t1) c' = t1 ++ c' :: t2.
  Proof. zlen_facts. zext. Qed.

  Lemma znth_split (t1 t2 : list (list E)) c : znth (t1 ++ c :: t2) (zlen t1) = Some c.
  Proof. znorm. zcase; auto. Qed.

  Lemma concat_split (t1 t2 : list (list E)) c :
    concat (t1 ++ c :: t2) = concat t1 ++ c ++ concat t2.
  Proof. rewrite concat_app; reflexivity. Qed.

  (** Looking only at the home bucket is enough. *)
  Lemma lookup_home idx t k c :
    wf_table idx t -> znth t (idx k) = Some c -> efind k c = efind k (concat t).
  Proof.
    intros W H. destruct (efind k c) eqn:F.
    - apply efind_Some in F. destruct F as [I K].
      symmetry. apply efind_In; auto; [apply (wf_nodup _ _ W) |].
      apply in_concat. exists c. split; auto. eapply znth_In; eauto.
    - symmetry. apply efind_None. apply efind_None in F. intros C. apply F.
      apply in_map_iff in C. destruct C as (e & K & I). apply in_map_iff. exists e; split; auto.
      apply in_concat in I. destruct I as (c' & I1 & I2).
      apply In_znth in I1. destruct I1 as (i & _ & I1).
      pose proof (wf_home _ _ W _ _ _ I1 I2). congruence.
  Qed.

  (** Appending a new entry to its home bucket. *)
  Lemma wf_append idx t c e :
    wf_table idx t -> znth t (idx (ekey e)) = Some c -> ~ In (ekey e) (keys_of (concat t)) ->
    wf_table idx (zupd t (idx (ekey e)) (c ++ [e])) /\
    Permutation (concat (zupd t (idx (ekey e)) (c ++ [e]))) (e :: concat t).
  Proof.
    intros W H N. destruct (table_split _ _ _ H) as (t1 & t2 & -> & L).
    rewrite <- L. rewrite zupd_split.
    assert (P : Permutation (concat (t1 ++ (c ++ [e]) :: t2)) (e :: concat (t1 ++ c :: t2))).
    { rewrite !concat_split. rewrite <- !app_assoc. cbn [app].
      rewrite (app_assoc (concat t1)), (app_assoc (concat t1)).
      symmetry. apply Permutation_middle. }
    split; auto. split.
    - intros i c0 e0 Hz I. destruct (Z.eq_dec i (zlen t1)) as [-> | Ne].
      + rewrite znth_split in Hz. inversion Hz; subst. apply in_app_or in I.
        destruct I as [I | [<- | []]]; auto.
        rewrite L. eapply (wf_home _ _ W); eauto. 
      + eapply (wf_home _ _ W); eauto. revert Hz. znorm. zcase; auto.
    - eapply Permutation_NoDup.
      { symmetry. apply Permutation_map. exact P. }
      cbn. constructor; auto. apply (wf_nodup _ _ W).
  Qed.

  (** Replacing the entry with key [k] inside a chain. *)
  Fixpoint ereplace (k : key) (f : E -> E) (l : list E) : list E :=
    match l with
    | [] => []
    | e :: l' => if key_dec (ekey e) k then f e :: l' else e :: ereplace k f l'
    end.

  Lemma keys_ereplace k f l :
    (forall e, ekey (f e) = ekey e) -> keys_of (ereplace k f l) = keys_of l.
  Proof.
    intros F. unfold keys_of. induction l as [| x l IH]; cbn; auto.
    destruct (key_dec (ekey x) k); cbn; [rewrite F | rewrite IH]; auto.
  Qed.

  Lemma efind_ereplace_same k f l e :
    (forall e, ekey (f e) = ekey e) ->
    efind k l = Some e -> efind k (ereplace k f l) = Some (f e).
  Proof.
    intros F. induction l as [| x l IH]; cbn; [discriminate |].
    destruct (key_dec (ekey x) k) as [Q | Q]; cbn.
    - intros [= <-]. destruct (key_dec (ekey (f x)) k); congruence.
    - destruct (key_dec (ekey x) k); [contradiction |]. auto.
  Qed.

  Lemma efind_ereplace_other k k' f l :
    (forall e, ekey (f e) = ekey e) -> k' <> k ->
    efind k' (ereplace k f l) = efind k' l.
  Proof.
    intros F D. induction l as [| x l IH]; cbn; auto.
    destruct (key_dec (ekey x) k) as [Q | Q]; cbn.
    - rewrite F. destruct (key_dec (ekey x) k'); auto. congruence.
    - destruct (key_dec (ekey x) k'); auto.
  Qed.

  Lemma In_ereplace k f l e :
    In e (ereplace k f l) -> In e l \/ exists e0, In e0 l /\ e = f e0.
  Proof.
    induction l as [| x l IH]; cbn; auto.
    destruct (key_dec (ekey x) k); cbn; intros [<- | I]; eauto.
    destruct (IH I) as [| (e0 & ? & ?)]; eauto.
  Qed.

  Lemma concat_ereplace idx k f t c :
    wf_table idx t -> znth t (idx k) = Some c ->
    concat (zupd t (idx k) (ereplace k f c)) = ereplace k f (concat t).
  Proof.
    intros W H. destruct (table_split _ _ _ H) as (t1 & t2 & -> & L).
    rewrite <- L, zupd_split, !concat_split.
    assert (A : forall l l', ~ In k (keys_of l) -> ereplace k f (l ++ l') = l ++ ereplace k f l').
    { induction l as [| x l IH]; cbn; auto. intros l' N.
      destruct (key_dec (ekey x) k); [exfalso; apply N; auto |]. rewrite IH; auto. }
    assert (N1 : ~ In k (keys_of (concat t1))).
    { intros C. apply in_map_iff in C. destruct C as (e & K & I). apply in_concat in I.
      destruct I as (c' & I1 & I2). apply In_znth in I1. destruct I1 as (i & B & I1).
      assert (Z1 : znth (t1 ++ c :: t2) i = Some c').
      { rewrite znth_app. replace (i <? zlen t1) with true by lia. auto. }
      pose proof (wf_home _ _ W _ _ _ Z1 I2). subst k. lia. }
    assert (N2 : ~ In k (keys_of (concat t2))).
    { intros C. apply in_map_iff in C. destruct C as (e & K & I). apply in_concat in I.
      destruct I as (c' & I1 & I2). apply In_znth in I1. destruct I1 as (i & B & I1).
      assert (Z1 : znth (t1 ++ c :: t2) (zlen t1 + 1 + i) = Some c').
      { zlen_facts. znorm. zcase. replace (zlen t1 + 1 + i - zlen t1 - 1) with i by lia. auto. }
      pose proof (wf_home _ _ W _ _ _ Z1 I2). subst k. lia. }
    rewrite A by auto. f_equal.
    assert (B : forall l, ~ In k (keys_of l) -> ereplace k f l = l).
    { induction l as [| x l IH]; cbn; auto. intros N.
      destruct (key_dec (ekey x) k); [exfalso; apply N; auto |]. rewrite IH; auto. }
    clear -N2 B A. induction c as [| x c IH]; cbn; [symmetry; apply B; auto |].
    destruct (key_dec (ekey x) k); cbn; auto. rewrite IH; auto.
  Qed.

  Lemma wf_ereplace idx k f t c :
    (forall e, ekey (f e) = ekey e) ->
    wf_table idx t -> znth t (idx k) = Some c ->
    wf_table idx (zupd t (idx k) (ereplace k f c)).
  Proof.
    intros F W H. split.
    - intros i c0 e0 Hz I. rewrite znth_upd in Hz.
      pose proof (znth_Some _ _ _ H).
      destruct (Z.eqb_spec i (idx k)).
      + subst i. replace (0 <=? idx k) with true in Hz by lia.
        replace (idx k <? zlen t) with true in Hz by lia. cbn in Hz. inversion Hz; subst.
        apply In_ereplace in I. destruct I as [I | (e1 & I & ->)].
        * eapply (wf_home _ _ W); eauto.
        * rewrite F. eapply (wf_home _ _ W); eauto.
      + cbn in Hz. eapply (wf_home _ _ W); eauto.
    - rewrite (concat_ereplace idx) by auto. rewrite keys_ereplace by auto. apply (wf_nodup _ _ W).
  Qed.

  (** Removing the entry with key [k]. *)
  Fixpoint eremove (k : key) (l : list E) : list E :=
    match l with
    | [] => []
    | e :: l' => if key_dec (ekey e) k then l' else e :: eremove k l'
    end.

  Lemma eremove_perm k l e :
    efind k l = Some e -> Permutation l (e :: eremove k l).
  Proof.
    induction l as [| x l IH]; cbn; [discriminate |].
    destruct (key_dec (ekey x) k).
    - intros [= <-]; auto.
    - intros H. rewrite perm_swap. constructor. auto.
  Qed.

  Lemma In_eremove k l e : In e (eremove k l) -> In e l.
  Proof.
    induction l as [| x l IH]; cbn; auto.
    destruct (key_dec (ekey x) k); cbn; auto. intros [|]; auto.
  Qed.

  Lemma efind_eremove_other k k' l : k' <> k -> efind k' (eremove k l) = efind k' l.
  Proof.
    intros D. induction l as [| x l IH]; cbn; auto.
    destruct (key_dec (ekey x) k) as [Q | Q]; cbn.
    - destruct (key_dec (ekey x) k'); auto. congruence.
    - destruct (key_dec (ekey x) k'); auto.
  Qed.

  Lemma eremove_notin k l : NoDup (keys_of l) -> ~ In k (keys_of (eremove k l)).
  Proof.
    induction l as [| x l IH]; cbn; auto. intros N. inversion N; subst.
    destruct (key_dec (ekey x) k) as [Q | Q]; cbn.
    - subst k. auto.
    - intros [C | C]; [auto | apply IH; auto].
  Qed.

  Lemma wf_eremove idx k t c e :
    wf_table idx t -> znth t (idx k) = Some c -> efind k c = Some e ->
    wf_table idx (zupd t (idx k) (eremove k c)) /\
    Permutation (concat t) (e :: concat (zupd t (idx k) (eremove k c))).
  Proof.
    intros W H F.
    assert (P : Permutation (concat t) (e :: concat (zupd t (idx k) (eremove k c)))).
    { destruct (table_split _ _ _ H) as (t1 & t2 & -> & L).
      rewrite <- L, zupd_split, !concat_split.
      rewrite (eremove_perm _ _ _ F) at 1. cbn [app].
      symmetry. apply Permutation_middle. }
    split; auto. split.
    - intros i c0 e0 Hz I. rewrite znth_upd in Hz.
      pose proof (znth_Some _ _ _ H).
      destruct (Z.eqb_spec i (idx k)).
      + subst i. replace (0 <=? idx k) with true in Hz by lia.
        replace (idx k <? zlen t) with true in Hz by lia. cbn in Hz. inversion Hz; subst.
        apply In_eremove in I. eapply (wf_home _ _ W); eauto.
      + cbn in Hz. eapply (wf_home _ _ W); eauto.
    - pose proof (wf_nodup _ _ W) as N.
      assert (N' : NoDup (keys_of (e :: concat (zupd t (idx k) (eremove k c))))).
      { eapply Permutation_NoDup; [| exact N]. apply Permutation_map; auto. }
      cbn in N'. inversion N'; auto.
  Qed.

  Lemma concat_empty (t : list (list E)) : Forall (fun c => c = []) t -> concat t = [].
  Proof. induction 1; subst; cbn; auto. Qed.

  Lemma wf_empty idx (n : Z) : wf_table idx (zrep n []) /\ concat (zrep n (@nil E)) = [].
  Proof.
    assert (Q : concat (zrep n (@nil E)) = []).
    { apply concat_empty. apply Forall_forall. intros x I. apply repeat_spec in I. auto. }
    split; auto. split.
    - intros i c e H I. rewrite znth_rep in H.
      destruct ((0 <=? i) && (i <? n)); inversion H; subst. contradiction.
    - rewrite Q. constructor.
  Qed.
End Buckets.
