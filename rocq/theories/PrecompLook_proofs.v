(** * Looking up by name finds what the id means *)

From Coq Require Import String.
From Coq Require Import List Lia.
Import ListNotations.
From Verif Require Import Base CLib Bytes Type_model Dispatch_model Dispatch_proofs Switch_model.
From Verif Require Import Precomp_syntax Precomp_table Precomp_model Precomp_spec PrecompName_proofs PrecompLit_proofs.

Lemma index_of_spec {A} (nm : A -> name) l : NoDup (map nm l) ->
  forall i x k, znth l i = Some x -> index_of nm l (nm x) k = Some (k + i).
Proof.
  induction l as [| y l IH]; intros N i x k E; [rewrite znth_nil in E; discriminate |].
  inversion N as [| ? ? NI N']; subst. rewrite znth_cons in E. cbn [index_of].
  destruct (Z.eqb_spec i 0) as [-> | Ni].
  - injection E as ->. rewrite name_eq_refl. f_equal. lia.
  - destruct (name_eq (nm y) (nm x)) eqn:Q.
    + exfalso. apply name_eq_spec in Q. apply NI. rewrite Q. apply in_map. eapply znth_In; eauto.
    + rewrite (IH N' (i - 1) x (k + 1) E). f_equal. lia.
Qed.

Lemma NoDup_map_inj {A B} (f : A -> B) l x y : NoDup (map f l) -> In x l -> In y l -> f x = f y -> x = y.
Proof.
  induction l as [| z l IH]; intros N Ix Iy E; [destruct Ix |]. inversion N as [| ? ? NI N']; subst.
  destruct Ix as [<- | Ix], Iy as [<- | Iy]; auto.
  - exfalso. apply NI. rewrite E. apply in_map; auto.
  - exfalso. apply NI. rewrite <- E. apply in_map; auto.
Qed.

Lemma method_by_name_ok c x : class_ok c -> In x (k_methods c) -> method_by_name c (m_name x) = Some x.
Proof.
  intros C I. unfold method_by_name.
  destruct (get_method_by_name_spec (k_methods c) (co_sorted c C) (m_name x) (S (length (k_methods c)))) as (r & -> & R1 & R2).
  { unfold zlen. lia. }
  destruct r as [y |].
  - destruct (R1 y eq_refl) as (Iy & Ey). f_equal. eapply NoDup_map_inj; eauto. apply C.
  - exfalso. apply (R2 eq_refl x I). reflexivity.
Qed.

Section Look.
  Variable rt : runtime.
  Hypothesis OK : runtime_ok rt.

  Lemma class_of i c : by_id rt i = Some c -> class_ok c.
  Proof using OK.
    intros E. destruct OK as (_ & F). rewrite Forall_forall in F. apply F. eapply znth_In; exact E.
  Qed.

  Lemma type_by_name_ok i c : by_id rt i = Some c -> type_by_name rt (k_name c) = Some i.
  Proof using OK.
    intros E. unfold type_by_name. rewrite (index_of_spec k_name rt (proj1 OK) i c 0 E). reflexivity.
  Qed.

  Lemma eval_decl_ok d a : denotes rt d a -> eval_decl rt d = Some a.
  Proof using OK.
    intros (i & c & E & N & K). pose proof (class_of i c E) as C. unfold eval_decl.
    rewrite <- N, (plain_string _ (co_name c C)), (type_by_name_ok i c E), E.
    destruct (d_kind d).
    - subst. reflexivity.
    - destruct K as (j & x & F & M & ->). rewrite <- M.
      assert (P : plain (fst x)).
      { pose proof (co_fields_plain c C) as Q. rewrite Forall_forall in Q. apply Q, in_map. eapply znth_In; eauto. }
      rewrite (plain_string _ P). unfold field_by_name.
      rewrite (index_of_spec fst (k_fields c) (co_fields c C) j x 0 F). rewrite Z.add_0_l, F. reflexivity.
    - destruct K as (j & F & ->).
      assert (P : plain (d_member d)).
      { pose proof (co_class_vars_plain c C) as Q. rewrite Forall_forall in Q. apply Q. eapply znth_In; eauto. }
      rewrite (plain_string _ P). unfold class_var_by_name.
      assert (ND : NoDup (map (fun x : name => x) (k_class_vars c))) by (rewrite map_id; apply C).
      rewrite (index_of_spec (fun x => x) (k_class_vars c) ND j _ 0 F). reflexivity.
    - destruct K as (j & x & F & M & ->). rewrite <- M.
      assert (P : plain (m_name x)).
      { pose proof (co_methods_plain c C) as Q. rewrite Forall_forall in Q. apply Q, in_map. eapply znth_In; eauto. }
      rewrite (plain_string _ P), method_by_name_ok; auto. eapply znth_In; eauto.
  Qed.

  (** Every declaration of the first pass is for something. *)
  Lemma decls_of_denote o ds : decls_of rt o = Some ds -> Forall (fun d => exists a, denotes rt d a) ds.
  Proof using.
    unfold decls_of. destruct (decl_case (o_id o)) as [[k | k f | k f | k f] |]; intros E;
    [| | | | injection E as <-; constructor]; destruct (by_id rt (get_int k o)) as [c |] eqn:B; try discriminate E.
    - injection E as <-. apply Forall_cons; [| apply Forall_nil]. exists (AType (get_int k o)), (get_int k o), c. cbn. auto.
    - destruct (znth (k_fields c) (get_int f o)) as [(n, v) |] eqn:F; [| discriminate E]. injection E as <-.
      apply Forall_cons; [| apply Forall_cons; [| apply Forall_nil]].
      + exists (AType (get_int k o)), (get_int k o), c. cbn. auto.
      + exists (AInt v), (get_int k o), c. cbn. eauto 8.
    - destruct (znth (k_class_vars c) (get_int f o)) as [n |] eqn:F; [| discriminate E]. injection E as <-.
      apply Forall_cons; [| apply Forall_cons; [| apply Forall_nil]].
      + exists (AType (get_int k o)), (get_int k o), c. cbn. auto.
      + exists (AClassVar (get_int k o) (get_int f o)), (get_int k o), c. cbn. eauto 8.
    - destruct (znth (k_methods c) (get_int f o)) as [x |] eqn:F; [| discriminate E]. injection E as <-.
      apply Forall_cons; [| apply Forall_cons; [| apply Forall_nil]].
      + exists (AType (get_int k o)), (get_int k o), c. cbn. auto.
      + exists (AMethod (get_int k o) x), (get_int k o), c. cbn. eauto 8.
  Qed.

  Lemma uses_spec ops us : uses rt ops = Some us ->
    Forall (fun d => exists a, denotes rt d a) us /\
    (forall o, In o ops -> exists ds, decls_of rt o = Some ds /\ forall d, In d ds -> In d us).
  Proof using.
    revert us. induction ops as [| o ops IH]; intros us E; cbn [uses] in E.
    - injection E as <-. split; [constructor | intros o []].
    - destruct (decls_of rt o) as [a |] eqn:D; [| discriminate]. destruct (uses rt ops) as [b |] eqn:U; [| discriminate].
      injection E as <-. destruct (IH b eq_refl) as (F & G). split.
      + apply Forall_app. split; auto. eapply decls_of_denote; eauto.
      + intros o' [<- | I].
        * exists a. split; auto. intros d Id. apply in_or_app. auto.
        * destruct (G o' I) as (ds & E & Q). exists ds. split; auto. intros d Id. apply in_or_app. auto.
  Qed.

  Lemma all_some {A B} (f : A -> option B) l : (forall x, In x l -> f x <> None) -> exists r, all f l = Some r.
  Proof using.
    induction l as [| x l IH]; intros H; cbn [all]; [eauto |].
    destruct (f x) as [y |] eqn:E; [| exfalso; apply (H x); [left; auto | auto]].
    destruct IH as (r & ->); [intros z I; apply H; right; auto |]. eauto.
  Qed.

  (** The variables after the declarations were executed. *)
  Lemma start_ok us : Forall good_decl us -> Forall (fun d => exists a, denotes rt d a) us ->
    exists e, start rt (declare_all us) = Some e /\
      forall u, In u us -> In (ident u) (map ident (declare_all us)) /\
        forall a, denotes rt u a -> resolve e (ident u) = Some a.
  Proof using OK.
    intros G D. destruct (declare_all_ok us G) as (A & N & C). set (ds := declare_all us) in *.
    unfold start. destruct (all_some (fun d => omap (pair (ident d)) (eval_decl rt d)) ds) as (e & E).
    { intros d I. rewrite Forall_forall in D. destruct (D d (A d I)) as (a & Da). rewrite (eval_decl_ok d a Da). discriminate. }
    exists e. split; auto.
    assert (R : forall d a, In d ds -> eval_decl rt d = Some a -> resolve e (ident d) = Some a).
    { clear A C G D. revert e E N. induction ds as [| d0 ds IH]; intros e E N d a I V; [destruct I |].
      cbn [all] in E. destruct (eval_decl rt d0) as [a0 |] eqn:V0; cbn [omap] in E; [| discriminate].
      destruct (all _ ds) as [e' |] eqn:E'; [| discriminate]. injection E as <-.
      cbn [map] in N. inversion N as [| ? ? NI N']; subst. cbn [resolve].
      destruct I as [<- | I].
      - rewrite name_eq_refl. congruence.
      - destruct (name_eq (ident d0) (ident d)) eqn:Q.
        + exfalso. apply name_eq_spec in Q. apply NI. rewrite Q. apply in_map; auto.
        + apply IH; auto. }
    intros u I. destruct (C u I) as (d & Id & S). rewrite (same_ident u d S). split.
    - apply in_map; auto.
    - intros a Da. apply R; auto. rewrite <- (same_eval rt u d S). apply eval_decl_ok; auto.
  Qed.
End Look.
