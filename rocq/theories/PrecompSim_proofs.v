(** * The generated function simulates the interpreter *)

From Coq Require Import String.
From Coq Require Import List Lia.
Import ListNotations.
From Verif Require Import Base CLib Bytes Type_model Dispatch_model Switch_model Switch_proofs.
From Verif Require Import Precomp_syntax Precomp_table Precomp_model Precomp_spec PrecompName_proofs PrecompLit_proofs
  PrecompLook_proofs PrecompTable_proofs.

(** ** Lists *)
Lemma match_all {A B C D} (f : A -> B -> bool) (g : B -> option C) (P : C -> Prop) (Q : A -> Prop) (R : D -> A -> C -> Prop) :
  (forall x y, f x y = true -> Q x -> exists z, g y = Some z /\ P z /\ forall s, R s x z) ->
  forall a b, match_list f a b = true -> Forall Q a ->
  exists c, all g b = Some c /\ Forall P c /\ forall s, Forall2 (R s) a c.
Proof.
  intros H. induction a as [| x a IH]; intros [| y b] M F; try discriminate M.
  - exists []. repeat split; auto.
  - cbn [match_list] in M. apply andb_prop in M as (M1 & M2). inversion F as [| ? ? F1 F2]; subst.
    destruct (H x y M1 F1) as (z & E & Pz & Rz). destruct (IH b M2 F2) as (c & E' & Pc & Rc).
    exists (z :: c). cbn [all]. rewrite E, E'. repeat split; auto.
Qed.

Lemma all_eq {A B C} (f : A -> option C) (g : B -> option C) a : forall b,
  Forall2 (fun x y => f x = g y) a b -> all f a = all g b.
Proof. intros b H. induction H as [| x y a b E _ IH]; auto. cbn [all]. rewrite E, IH. reflexivity. Qed.

Lemma all_app {A B} (f : A -> option B) a b :
  all f (a ++ b) = match all f a, all f b with Some x, Some y => Some (x ++ y) | _, _ => None end.
Proof.
  induction a as [| x a IH]; cbn [app all].
  - destruct (all f b); reflexivity.
  - rewrite IH. destruct (f x), (all f a), (all f b); reflexivity.
Qed.

Lemma sorted_tail x l : strictly_sorted (x :: l) -> strictly_sorted l /\ forall t, ~ In (fst x, t) l.
Proof.
  intros S. split.
  - intros p q vp vq Hp (tp & P) (tq & Q). apply (S (p + 1) (q + 1)); [lia | |].
    + exists tp. rewrite znth_cons. destruct (Z.eqb_spec (p + 1) 0); [lia |]. replace (p + 1 - 1) with p by lia. auto.
    + exists tq. rewrite znth_cons. destruct (Z.eqb_spec (q + 1) 0); [lia |]. replace (q + 1 - 1) with q by lia. auto.
  - intros t I. apply In_znth in I as (i & _ & I). pose proof (znth_Some _ _ _ I).
    assert (fst x < fst x); [| lia]. apply (S 0 (i + 1)); [lia | |].
    + exists (snd x). rewrite znth_cons, Z.eqb_refl. destruct x; reflexivity.
    + exists t. rewrite znth_cons. destruct (Z.eqb_spec (i + 1) 0); [lia |]. replace (i + 1 - 1) with i by lia. auto.
Qed.

(** ** Labels *)
Lemma labels_app a b : labels (a ++ b) = labels a ++ labels b.
Proof. induction a as [| x a IH]; auto. destruct x; cbn [app labels]; rewrite ?IH; reflexivity. Qed.

Lemma find_label_app x a b : labels a = [] -> find_label x (a ++ b) = find_label x b.
Proof. induction a as [| y a IH]; intros L; auto. destruct y; cbn [labels] in L; [discriminate | | | |]; cbn; auto. Qed.

Lemma name_eq_add_int v w : v <> w -> name_eq (add_int v) (add_int w) = false.
Proof. intros N. apply name_eq_neq. intros E. apply N, add_int_inj, E. Qed.

Lemma emit_stmt_labels rt m i o st l : emit_stmt rt m i o st = Some l -> labels l = [].
Proof.
  destruct st; cbn [emit_stmt]; intros E; try discriminate E.
  - destruct (all _ args); [| discriminate]. injection E as <-. reflexivity.
  - injection E as <-. reflexivity.
  - destruct (all _ pre); [| discriminate]. injection E as <-. reflexivity.
  - destruct (emit_cases _ _ _ _); [| discriminate]. injection E as <-. reflexivity.
  - destruct (mc_mortal_length m >? 0); [destruct (all _ args); [| discriminate] |]; injection E as <-; reflexivity.
Qed.

Lemma emit_stmts_labels rt m i o sts : forall l, all (emit_stmt rt m i o) sts = Some l -> labels (List.concat l) = [].
Proof.
  induction sts as [| st sts IH]; intros l E; cbn [all] in E; [injection E as <-; reflexivity |].
  destruct (emit_stmt rt m i o st) as [a |] eqn:A; [| discriminate].
  destruct (all _ sts) as [b |] eqn:B; [| discriminate]. injection E as <-. cbn [List.concat].
  rewrite labels_app, (emit_stmt_labels _ _ _ _ _ _ A), (IH b eq_refl). reflexivity.
Qed.

Lemma emit_ops_labels rt m ops : forall i code, emit_ops rt m i ops = Some code ->
  labels code = map (fun k => add_int (i + Z.of_nat k)) (seq 0 (length ops)).
Proof.
  induction ops as [| o ops IH]; intros i code E; cbn [emit_ops] in E; [injection E as <-; reflexivity |].
  unfold emit_op in E. destruct (all _ (pc_case (o_id o))) as [l |] eqn:L; [| discriminate]. cbn [omap] in E.
  destruct (emit_ops rt m (i + 1) ops) as [b |] eqn:B; [| discriminate]. injection E as <-.
  cbn [app labels length seq map]. rewrite labels_app, (emit_stmts_labels _ _ _ _ _ _ L), (IH _ _ B). cbn [app].
  f_equal; [f_equal; lia |]. rewrite <- seq_shift, map_map. apply map_ext. intros k. f_equal. lia.
Qed.

Lemma emit_ops_at rt m ops : forall i code, emit_ops rt m i ops = Some code ->
  forall t, 0 <= t < zlen ops -> exists o l X,
    znth ops t = Some o /\ all (emit_stmt rt m (i + t) o) (pc_case (o_id o)) = Some l /\
    emit_ops rt m (i + t + 1) (zdrop (t + 1) ops) = Some X /\
    emit_ops rt m (i + t) (zdrop t ops) = Some (CLabel (add_int (i + t)) :: List.concat l ++ X) /\
    find_label (add_int (i + t)) code = Some (List.concat l ++ X).
Proof.
  induction ops as [| o ops IH]; intros i code E t T; [unfold zlen in T; cbn in T; lia |].
  rewrite zlen_cons in T. pose proof E as E0. cbn [emit_ops] in E.
  unfold emit_op in E. destruct (all _ (pc_case (o_id o))) as [l |] eqn:L; [| discriminate]. cbn [omap] in E.
  destruct (emit_ops rt m (i + 1) ops) as [b |] eqn:B; [| discriminate]. injection E as <-.
  destruct (Z.eq_dec t 0) as [-> | N].
  - exists o, l, b. rewrite Z.add_0_r, znth_cons, Z.eqb_refl. repeat split; auto.
    + cbn [app find_label]. rewrite name_eq_refl. reflexivity.
  - destruct (IH (i + 1) b B (t - 1) ltac:(lia)) as (o' & l' & X & A1 & A2 & A3 & A4 & A5).
    replace (i + 1 + (t - 1)) with (i + t) in * by lia. exists o', l', X.
    rewrite znth_cons. destruct (Z.eqb_spec t 0); [lia |].
    assert (Z1 : zdrop (t + 1) (o :: ops) = zdrop (t - 1 + 1) ops).
    { unfold zdrop. replace (Z.to_nat (t + 1)) with (S (Z.to_nat (t - 1 + 1))) by lia. reflexivity. }
    assert (Z2 : zdrop t (o :: ops) = zdrop (t - 1) ops).
    { unfold zdrop. replace (Z.to_nat t) with (S (Z.to_nat (t - 1))) by lia. reflexivity. }
    rewrite Z1, Z2. repeat split; auto.
    cbn [app find_label]. rewrite name_eq_add_int by lia.
    rewrite find_label_app by (eapply emit_stmts_labels; eauto). exact A5.
Qed.

Lemma emit_ops_total rt m ops : forall i,
  (forall t o, znth ops t = Some o -> exists l, all (emit_stmt rt m (i + t) o) (pc_case (o_id o)) = Some l) ->
  exists code, emit_ops rt m i ops = Some code.
Proof.
  induction ops as [| o ops IH]; intros i H; cbn [emit_ops]; [eauto |].
  destruct (H 0 o) as (l & E); [rewrite znth_cons, Z.eqb_refl; reflexivity |]. rewrite Z.add_0_r in E.
  unfold emit_op. rewrite E. cbn [omap].
  destruct (IH (i + 1)) as (code & ->); [| eauto].
  intros t o' Z. pose proof (znth_Some _ _ _ Z). destruct (H (t + 1) o') as (l' & E').
  { rewrite znth_cons. destruct (Z.eqb_spec (t + 1) 0); [lia |]. replace (t + 1 - 1) with t by lia. auto. }
  exists l'. replace (i + 1 + t) with (i + (t + 1)) by lia. exact E'.
Qed.

Section Sim.
  Variable rt : runtime.
  Variable m : method_code.
  Hypothesis OK : runtime_ok rt.
  Hypothesis MOK : method_ok rt m.
  Local Notation ops := (mc_ops m).

  Lemma op_of t o : znth ops t = Some o -> op_ok rt m o.
  Proof using MOK.
    intros Z. pose proof (mo_ops rt m MOK) as F. rewrite Forall_forall in F. apply F. eapply znth_In; exact Z.
  Qed.

  Lemma get_range k o : op_ok rt m o -> 0 <= get k o < 4294967296.
  Proof using. intros O. destruct O. destruct k; cbn [get]; lia. Qed.

  Lemma get_int_small k o : op_ok rt m o -> get k o <= INT32_MAX -> get_int k o = get k o.
  Proof using. intros O L. apply wrap32_id. pose proof (get_range k o O). unfold in_i32 in *. lia. Qed.

  (** ** Everything used exists *)
  Lemma existsb_ex {A} (f : A -> bool) l : existsb f l = true -> exists x, In x l /\ f x = true.
  Proof using. apply existsb_exists. Qed.

  Lemma decls_some o : op_ok rt m o -> exists ds, decls_of rt o = Some ds.
  Proof using.
    intros O. pose proof (decl_table (o_id o)) as T. unfold decl_ok in T. unfold decls_of.
    destruct (decl_case (o_id o)) as [u |]; [| eauto].
    apply orb_prop in T as [T | T].
    - apply andb_prop in T as (T1 & T2).
      assert (E : o_id o = OP_SET_ERROR_ID_BY_TYPE) by (destruct (o_id o); (reflexivity || discriminate T1)).
      destruct u as [[| | |] | | |]; try discriminate T2.
      destruct (oo_error rt m o O E) as (c & -> & _). eauto.
    - assert (X : exists e, uses_expr u e = true /\ expr_ok rt m o e).
      { apply existsb_ex in T as (st & I & U). pose proof (oo_stmts rt m o O) as F. rewrite Forall_forall in F.
        specialize (F st I). destruct st as [f a | | c pre k | | | |]; cbn [uses_stmt] in U; try discriminate U.
        - apply existsb_ex in U as (e & Ie & Ue). cbn [stmt_ok] in F. rewrite Forall_forall in F. eauto.
        - apply existsb_ex in U as (x & Ix & Ux). apply existsb_ex in Ux as (e & Ie & Ue).
          destruct F as (_ & F & _). rewrite Forall_forall in F. specialize (F x Ix). rewrite Forall_forall in F. eauto. }
      destruct X as (e & U & F).
      destruct u as [k | k f | k f | k f], e; cbn [uses_expr] in U; try discriminate U; cbn [expr_ok] in F.
      + apply op_eq_ok in U as ->. destruct F as (c & -> & _). eauto.
      + apply andb_prop in U as (U1 & U2). apply op_eq_ok in U1 as ->. apply op_eq_ok in U2 as ->.
        destruct F as (c & -> & F). destruct (znth (k_fields c) _) as [(n, v) |]; [eauto | congruence].
      + apply andb_prop in U as (U1 & U2). apply op_eq_ok in U1 as ->. apply op_eq_ok in U2 as ->.
        destruct F as (c & -> & F). destruct (znth (k_class_vars c) _) as [n |]; [eauto | congruence].
      + apply andb_prop in U as (U1 & U2). apply op_eq_ok in U1 as ->. apply op_eq_ok in U2 as ->.
        destruct F as (c & -> & F). destruct (znth (k_methods c) _) as [n |]; [eauto | congruence].
  Qed.

  Lemma uses_some : exists us, uses rt ops = Some us.
  Proof using MOK.
    pose proof (mo_ops rt m MOK) as F. induction F as [| o l O F IH]; [eexists; reflexivity |].
    cbn [uses]. destruct (decls_some o O) as (a & ->), IH as (b & ->). eauto.
  Qed.

  (** ** Arguments *)
  Section Env.
    Variable us : list decl.
    Hypothesis US : uses rt ops = Some us.
    Variable e : env.
    Variable ids : list name.
    Hypothesis RES : forall u, In u us -> In (ident u) ids /\ forall a, denotes rt u a -> resolve e (ident u) = Some a.
    Variable labs : list name.
    Hypothesis LABS : forall t, target_ok m t -> In (add_int t) labs.

    Variable St : Type.
    Variable macro : string -> list arg -> St -> option St.
    Variable load : vt -> Z -> St -> Z.
    Variable err : St -> bool.

    Definition T (n : name) := {| d_kind := KType; d_class := n; d_member := [] |}.

    Lemma has_type_in o k c : In o ops -> has_type (o_id o) k = true -> by_id rt (get_int k o) = Some c -> In (T (k_name c)) us.
    Proof using US.
      intros I H B. destruct (proj2 (uses_spec rt ops us US) o I) as (ds & D & Q). apply Q.
      unfold has_type in H. unfold decls_of in D.
      destruct (decl_case (o_id o)) as [[k' | k' f | k' f | k' f] |]; [| | | | discriminate H]; apply op_eq_ok in H as <-;
      rewrite B in D.
      - injection D as <-. left. reflexivity.
      - destruct (znth _ _) as [(n, v) |]; [| discriminate D]. injection D as <-. left. reflexivity.
      - destruct (znth _ _) as [n |]; [| discriminate D]. injection D as <-. left. reflexivity.
      - destruct (znth _ _) as [n |]; [| discriminate D]. injection D as <-. left. reflexivity.
    Qed.

    Lemma resolve_type o k c : In o ops -> has_type (o_id o) k = true -> by_id rt (get_int k o) = Some c ->
      In (ident (T (k_name c))) ids /\ resolve e (ident (T (k_name c))) = Some (AType (get_int k o)).
    Proof using US RES.
      intros I H B. destruct (RES _ (has_type_in o k c I H B)) as (R1 & R2). split; auto. apply R2.
      exists (get_int k o), c. cbn. auto.
    Qed.

    Lemma resolve_member o k f c d a : In o ops -> by_id rt (get_int k o) = Some c ->
      (decl_case (o_id o) = Some (UField k f) /\ (exists x, znth (k_fields c) (get_int f o) = Some x /\
         d = {| d_kind := KField; d_class := k_name c; d_member := fst x |} /\ a = AInt (snd x))) \/
      (decl_case (o_id o) = Some (UClassVar k f) /\ (exists x, znth (k_class_vars c) (get_int f o) = Some x /\
         d = {| d_kind := KClassVar; d_class := k_name c; d_member := x |} /\ a = AClassVar (get_int k o) (get_int f o))) \/
      (decl_case (o_id o) = Some (UMethod k f) /\ (exists x, znth (k_methods c) (get_int f o) = Some x /\
         d = {| d_kind := KMethod; d_class := k_name c; d_member := m_name x |} /\ a = AMethod (get_int k o) x)) ->
      In (ident d) ids /\ resolve e (ident d) = Some a.
    Proof using US RES.
      intros I B H. destruct (proj2 (uses_spec rt ops us US) o I) as (ds & D & Q). unfold decls_of in D.
      destruct H as [(C & x & Z & -> & ->) | [(C & x & Z & -> & ->) | (C & x & Z & -> & ->)]]; rewrite C, B, Z in D.
      - destruct x as (n, v). injection D as <-. destruct (RES _ (Q _ (or_intror (or_introl eq_refl)))) as (R1 & R2).
        split; auto. apply R2. exists (get_int k o), c. cbn. eauto 8.
      - injection D as <-. destruct (RES _ (Q _ (or_intror (or_introl eq_refl)))) as (R1 & R2).
        split; auto. apply R2. exists (get_int k o), c. cbn. eauto 8.
      - injection D as <-. destruct (RES _ (Q _ (or_intror (or_introl eq_refl)))) as (R1 & R2).
        split; auto. apply R2. exists (get_int k o), c. cbn. eauto 8.
    Qed.

    Lemma c_string_omap t s : c_string t = Some s -> c_string t <> None /\ omap AStr (c_string t) = Some (AStr s).
    Proof using. intros ->. split; [discriminate | reflexivity]. Qed.

    Lemma str_plain s : plain s -> cexpr_ok ids (CStr (c_str s)) /\
      forall st, c_eval St load e st (CStr (c_str s)) = Some (AStr s).
    Proof using.
      intros P. rewrite (plain_c_str s P). cbn [cexpr_ok c_eval]. rewrite (plain_string s P). split; [discriminate | reflexivity].
    Qed.

    Ltac ands := repeat match goal with
      | H : (_ && _)%bool = true |- _ => apply andb_prop in H as (? & ?)
      | H : op_eq _ _ = true |- _ => apply op_eq_ok in H; subst
      | H : vt_eq _ _ = true |- _ => apply vt_eq_ok in H; subst
      | H : String.eqb _ _ = true |- _ => apply String.eqb_eq in H; subst
      | H : negb _ = true |- _ => apply Bool.negb_true_iff in H
      end.

    Lemma read_int v : readable (add_int v).
    Proof using. unfold readable. rewrite c_int_add_int. discriminate. Qed.

    Lemma has_field_case id k f : has_field id k f = true -> decl_case id = Some (UField k f).
    Proof using. unfold has_field. destruct (decl_case id) as [[] |]; try discriminate. intros H. ands. reflexivity. Qed.
    Lemma has_class_var_case id k f : has_class_var id k f = true -> decl_case id = Some (UClassVar k f).
    Proof using. unfold has_class_var. destruct (decl_case id) as [[] |]; try discriminate. intros H. ands. reflexivity. Qed.
    Lemma has_method_case id k f : has_method id k f = true -> decl_case id = Some (UMethod k f).
    Proof using. unfold has_method. destruct (decl_case id) as [[] |]; try discriminate. intros H. ands. reflexivity. Qed.

    Lemma expr_sim o f v p : In o ops -> op_ok rt m o -> match_expr (o_id o) f v p = true -> expr_ok rt m o v ->
      exists x, emit_expr rt m o p = Some x /\ cexpr_ok ids x /\
        forall s, eval St load rt m f o s v = c_eval St load e s x.
    Proof using OK MOK US RES.
      intros I O M V.
      destruct v, p; cbn [match_expr] in M; try discriminate M; cbn [emit_expr eval]; ands;
        try (eexists; split; [reflexivity |]; cbn [expr_ok] in V; rewrite ?(get_int_small _ o O V);
             cbn [cexpr_ok c_eval]; unfold readable;
             rewrite ?c_int_add_int, ?c_int_add_long, ?c_int_add_byte; split; [discriminate || exact I | reflexivity]);
        try (eexists; split; [reflexivity |]; cbn [expr_ok] in V; rewrite ?(get_int_small _ o O V);
             cbn [cexpr_ok c_eval]; unfold readable;
             rewrite ?c_int_add_int; split; [discriminate | intros s; match goal with H : by_value _ = _ |- _ => rewrite H end; reflexivity]).
      - match goal with H : is_set_error _ = true |- _ => rename H into SE end.
        match goal with H : has_type _ _ = true |- _ => rename H into HT end.
        assert (E : o_id o = OP_SET_ERROR_ID_BY_TYPE) by (destruct (o_id o); (reflexivity || discriminate SE)).
        destruct (oo_error rt m o O E) as (c & B & _). rewrite B. cbn [omap]. eexists; split; [reflexivity |].
        destruct (resolve_type o O0 c I HT B) as (R1 & R2). cbn [cexpr_ok c_eval]. split; auto. intros s.
        change {| d_kind := KType; d_class := k_name c; d_member := [] |} with (T (k_name c)). rewrite R2. reflexivity.
      - eexists; split; [reflexivity |]. split; [exact Logic.I | reflexivity].
      - destruct V as (c & B & _). unfold member. rewrite B. cbn [omap]. eexists; split; [reflexivity |].
        match goal with H : has_type _ _ = true |- _ => destruct (resolve_type o _ c I H B) as (R1 & R2) end.
        cbn [cexpr_ok c_eval]. split; auto.
      - destruct V as (c & B & V). unfold member. rewrite B.
        destruct (znth (k_fields c) _) as [x |] eqn:Z; [| congruence]. cbn [omap]. eexists; split; [reflexivity |].
        match goal with H : has_field _ _ _ = true |- _ => apply has_field_case in H; rename H into DC end.
        destruct (resolve_member o _ _ c _ _ I B (or_introl (conj DC (ex_intro _ x (conj Z (conj eq_refl eq_refl)))))) as (R1 & R2).
        cbn [cexpr_ok c_eval]. split; auto.
      - destruct V as (c & B & V). unfold member. rewrite B.
        destruct (znth (k_class_vars c) _) as [x |] eqn:Z; [| congruence]. cbn [omap]. eexists; split; [reflexivity |].
        match goal with H : has_class_var _ _ _ = true |- _ => apply has_class_var_case in H; rename H into DC end.
        destruct (resolve_member o _ _ c _ _ I B (or_intror (or_introl (conj DC (ex_intro _ x (conj Z (conj eq_refl eq_refl))))))) as (R1 & R2).
        cbn [cexpr_ok c_eval]. split; auto.
      - destruct V as (c & B & V). unfold member. rewrite B.
        destruct (znth (k_methods c) _) as [x |] eqn:Z; [| congruence]. cbn [omap]. eexists; split; [reflexivity |].
        match goal with H : has_method _ _ _ = true |- _ => apply has_method_case in H; rename H into DC end.
        destruct (resolve_member o _ _ c _ _ I B (or_intror (or_intror (conj DC (ex_intro _ x (conj Z (conj eq_refl eq_refl))))))) as (R1 & R2).
        cbn [cexpr_ok c_eval]. split; auto.
      - destruct t; try discriminate M. ands. destruct V as (c & B & V). cbn [text]. rewrite B.
        destruct (znth (k_methods c) _) as [x |] eqn:Z; [| congruence]. cbn [omap]. eexists; split; [reflexivity |].
        assert (P : plain (m_name x)).
        { pose proof (co_methods_plain c (class_of rt OK _ c B)) as Q. rewrite Forall_forall in Q. apply Q, in_map. eapply znth_In; eauto. }
        destruct (str_plain (m_name x) P) as (Q1 & Q2). split; auto.
      - destruct t; try discriminate M. ands. destruct V as (c & B & V). cbn [text]. rewrite B.
        destruct (znth (k_methods c) _) as [x |] eqn:Z; [| congruence]. cbn [omap]. eexists; split; [reflexivity |].
        destruct (str_plain (k_name c) (co_name c (class_of rt OK _ c B))) as (Q1 & Q2). split; auto.
      - destruct t; try discriminate M. ands. destruct V as (s0 & C & B & V). cbn [text]. rewrite C. cbn [omap].
        eexists; split; [reflexivity |].
        match goal with H : is_can _ = true |- _ => rename H into SE end.
        assert (E : o_id o = OP_CAN) by (destruct (o_id o); (reflexivity || discriminate SE)).
        destruct (oo_can rt m o O E) as (s1 & C1 & P). assert (s1 = s0) by congruence. subst s1.
        destruct (str_plain s0 P) as (Q1 & Q2). split; auto.
      - destruct t; try discriminate M. ands. destruct V as (s0 & C & B & V). cbn [text]. rewrite C. cbn [omap].
        eexists; split; [reflexivity |]. cbn [cexpr_ok c_eval]. rewrite (hex_string s0 B). split; [discriminate | reflexivity].
      - destruct V as (s0 & C & B & V). rewrite C. cbn [omap]. eexists; split; [reflexivity |].
        cbn [cexpr_ok c_eval]. rewrite c_int_add_int. split; [apply read_int | reflexivity].
      - destruct t; try discriminate M. cbn [text]. destruct (mo_class rt m MOK) as (c & B & _). rewrite B. cbn [omap].
        eexists; split; [reflexivity |].
        destruct (str_plain (k_name c) (co_name c (class_of rt OK _ c B))) as (Q1 & Q2). split; auto.
      - destruct t; try discriminate M. cbn [text omap]. eexists; split; [reflexivity |].
        destruct (str_plain (mc_name m) (mo_name rt m MOK)) as (Q1 & Q2). split; auto.
      - destruct t; try discriminate M. cbn [text]. destruct (mo_class rt m MOK) as (c & B & P). rewrite B. cbn [omap].
        eexists; split; [reflexivity |]. destruct (str_plain (k_file c) P) as (Q1 & Q2). split; auto.
    Qed.

    Local Notation call' := (call St macro load rt m).
    Local Notation c_call' := (c_call St macro load e).

    Lemma call_sim o f a f' a' : In o ops -> op_ok rt m o -> match_call (o_id o) (f, a) (f', a') = true ->
      Forall (expr_ok rt m o) a ->
      f = f' /\ exists xs, all (emit_expr rt m o) a' = Some xs /\ Forall (cexpr_ok ids) xs /\
        forall s, call' o f a s = c_call' f xs s.
    Proof using OK MOK US RES.
      intros I O M F. apply andb_prop in M as (M1 & M2). cbn [fst snd] in *. apply String.eqb_eq in M1 as <-. split; auto.
      destruct (match_all (match_expr (o_id o) f) (emit_expr rt m o) (cexpr_ok ids) (expr_ok rt m o)
                  (fun s v x => eval St load rt m f o s v = c_eval St load e s x)
                  (fun v p M V => expr_sim o f v p I O M V) a a' M2 F) as (xs & E & P & R).
      exists xs. split; auto. split; auto. intros s. unfold call, c_call. rewrite (all_eq _ _ _ _ (R s)). reflexivity.
    Qed.

    Lemma calls_sim o pre pre' : In o ops -> op_ok rt m o -> match_list (match_call (o_id o)) pre pre' = true ->
      Forall (fun x => Forall (expr_ok rt m o) (snd x)) pre ->
      exists ps, all (fun x => omap (pair (fst x)) (all (emit_expr rt m o) (snd x))) pre' = Some ps /\
        Forall (fun x => Forall (cexpr_ok ids) (snd x)) ps /\
        forall s, calls St macro load rt m o pre s = c_calls St macro load e ps s.
    Proof using OK MOK US RES.
      intros I O. revert pre'. induction pre as [| (f, a) pre IH]; intros [| (f', a') pre'] M F; try discriminate M.
      - exists []. repeat split; auto.
      - cbn [match_list] in M. apply andb_prop in M as (M1 & M2). inversion F as [| ? ? F1 F2]; subst. cbn [snd] in F1.
        destruct (call_sim o f a f' a' I O M1 F1) as (<- & xs & E & P & R).
        destruct (IH pre' M2 F2) as (ps & E' & P' & R').
        exists ((f, xs) :: ps). cbn [all fst snd]. rewrite E, E'. cbn [omap]. repeat split; auto.
        intros s. cbn [calls c_calls]. rewrite R. destruct (c_call' f xs s); auto.
    Qed.

    (** ** Running *)
    Section Run.
      Variable code : list citem.
      Local Notation run := (c_run St macro load err e code).

      Definition reach (n : nat) (r : list citem) (s : St) (r' : list citem) (s' : St) : Prop :=
        (forall f, (f < n)%nat -> run f r s = Fuel) /\ forall f, run (n + f) r s = run f r' s'.

      Definition ends (n : nat) (r : list citem) (s : St) (x : outcome St) : Prop :=
        (forall f, (f < n)%nat -> run f r s = Fuel) /\ forall f, (n <= f)%nat -> run f r s = x.

      Lemma reach_0 r s : reach 0 r s r s.
      Proof using. split; [lia | reflexivity]. Qed.

      Lemma reach_trans n k r s r1 s1 r2 s2 : reach n r s r1 s1 -> reach k r1 s1 r2 s2 -> reach (n + k) r s r2 s2.
      Proof using.
        intros (A & B) (C & D). split.
        - intros f L. destruct (Nat.lt_ge_cases f n) as [L' | G]; [apply A; auto |].
          replace f with (n + (f - n))%nat by lia. rewrite B. apply C. lia.
        - intros f. rewrite <- Nat.add_assoc, B. apply D.
      Qed.

      Lemma reach_1 r s r' s' : (forall f, run (S f) r s = run f r' s') -> reach 1 r s r' s'.
      Proof using. intros H. split; [intros f L; replace f with O by lia; reflexivity | exact H]. Qed.

      Lemma reach_ends n k r s r' s' x : reach n r s r' s' -> ends k r' s' x -> ends (n + k) r s x.
      Proof using.
        intros (A & B) (C & D). split.
        - intros f L. destruct (Nat.lt_ge_cases f n) as [L' | G]; [apply A; auto |].
          replace f with (n + (f - n))%nat by lia. rewrite B. apply C. lia.
        - intros f G. replace f with (n + (f - n))%nat by lia. rewrite B. apply D. lia.
      Qed.

      Lemma ends_1 r s x : (forall f, run (S f) r s = x) -> ends 1 r s x.
      Proof using.
        intros H. split; [intros f L; replace f with O by lia; reflexivity |].
        intros [| f] L; [lia | apply H].
      Qed.

      (** What one opcode does, against what its statements do. *)
      Definition follows (items : list citem) (fl : flow St) (s : St) : Prop :=
        forall X,
        match fl with
        | FNext _ s' => exists n, reach n (items ++ X) s X s'
        | FJump _ t s' => target_ok m t /\
            forall r, find_label (add_int t) code = Some r -> exists n, reach (S n) (items ++ X) s r s'
        | FHalt _ s' => False
        | FStuck _ => (forall t, target_ok m t -> find_label (add_int t) code <> None) -> exists n, ends (S n) (items ++ X) s UB
        end.

      Lemma follows_step items items' s s' fl : (forall X, reach 1 (items ++ items' ++ X) s (items' ++ X) s') ->
        follows items' fl s' -> follows (items ++ items') fl s.
      Proof using.
        intros R F X. specialize (F X). specialize (R X). rewrite <- app_assoc. destruct fl as [s2 | t s2 | s2 |].
        - destruct F as (n & F). exists (1 + n)%nat. eapply reach_trans; eauto.
        - destruct F as (F1 & F). split; auto. intros r E. destruct (F r E) as (n & Q). exists (1 + n)%nat.
          change (S (1 + n)) with (1 + S n)%nat. eapply reach_trans; eauto.
        - exact F.
        - intros H. destruct (F H) as (n & Q). exists (1 + n)%nat. change (S (1 + n)) with (1 + S n)%nat. eapply reach_ends; eauto.
      Qed.

      Lemma stmts_sim pc o : In o ops -> op_ok rt m o -> forall vs ps,
        match_list (match_stmt (o_id o)) vs ps = true -> Forall (stmt_ok rt m o) vs ->
        exists l, all (emit_stmt rt m pc o) ps = Some l /\ Forall (citem_ok ids labs) (List.concat l) /\
          forall s, follows (List.concat l) (exec St macro load err rt m pc o vs s) s.
      Proof using OK MOK US RES LABS.
        intros I O. induction vs as [| v vs IH]; intros [| p ps] M F; try discriminate M.
        - exists []. split; auto. split; [constructor |]. intros s X. cbn. exists 0%nat. apply reach_0.
        - cbn [match_list] in M. apply andb_prop in M as (M1 & M2). inversion F as [| ? ? F1 F2]; subst.
          destruct (IH ps M2 F2) as (l & E & P & R). clear IH.
          destruct v as [f a | k | c pre k | | | |], p as [f' a' | k' | c' pre' k' | | | |]; cbn [match_stmt] in M1; try discriminate M1.
          + destruct (call_sim o f a f' a' I O M1 F1) as (<- & xs & E1 & P1 & R1).
            exists ([CDo f xs] :: l). cbn [all emit_stmt]. rewrite E1, E. cbn [omap List.concat]. split; auto.
            split; [apply Forall_app; auto |]. intros s. cbn [exec]. rewrite R1.
            destruct (c_call' f xs s) as [s' |] eqn:C.
            * apply follows_step with (s' := s'); auto. intros X. apply reach_1. intros g. cbn. rewrite C. reflexivity.
            * intros X H. exists 0%nat. apply ends_1. intros g. cbn. rewrite C. reflexivity.
          + ands. exists ([CGoto (add_int (get_int k' o))] :: l). cbn [all emit_stmt]. rewrite E. split; auto.
            cbn [List.concat]. split; [apply Forall_app; split; auto; constructor; [apply LABS; auto | constructor] |].
            intros s X. cbn [exec]. split; [exact F1 |]. intros r Q. exists 0%nat. apply reach_1. intros g. cbn. rewrite Q. reflexivity.
          + ands. match goal with H : match_cond _ _ = true |- _ => rename H into MC end.
            destruct F1 as (Fc & Fp & Ft).
            match goal with H : match_list _ pre pre' = true |- _ => destruct (calls_sim o pre pre' I O H Fp) as (xs & E1 & P1 & R1) end.
            exists ([CIf (emit_cond o c') xs (add_int (get_int k' o))] :: l). cbn [all emit_stmt]. rewrite E1, E. cbn [omap List.concat].
            assert (HC : ccond_ok (emit_cond o c') /\ forall s, c_holds St load err (emit_cond o c') s = Some (holds St load err o c s)).
            { destruct c, c'; cbn [match_cond] in MC; try discriminate MC; ands; cbn [emit_cond ccond_ok c_holds holds];
              [| | split; [exact Logic.I | reflexivity]]; rewrite c_int_add_int, (get_int_small _ o O Fc); split; try apply read_int; reflexivity. }
            destruct HC as (HC1 & HC2). split; auto.
            split; [apply Forall_app; split; auto; constructor; [cbn; auto | constructor] |].
            intros s. cbn [exec]. destruct (holds St load err o c s) eqn:H.
            * rewrite R1. destruct (c_calls St macro load e xs s) as [s' |] eqn:C; intros X.
              { split; auto. intros r Q. exists 0%nat. apply reach_1. intros g. cbn. rewrite HC2, H, C, Q. reflexivity. }
              { intros HH. exists 0%nat. apply ends_1. intros g. cbn. rewrite HC2, H, C. reflexivity. }
            * apply follows_step with (s' := s); auto. intros X. apply reach_1. intros g. cbn. rewrite HC2, H. reflexivity.
      Qed.

      (** The special opcodes. *)
      Hypothesis NO_MORTAL : mc_mortal_length m = 0 -> forall a s, macro "LEAVE_SCOPE"%string a s = Some s.

      Lemma leave_sim pc o : In o ops -> op_ok rt m o -> o_id o = OP_LEAVE_SCOPE ->
        exists l, all (emit_stmt rt m pc o) (pc_case (o_id o)) = Some l /\ Forall (citem_ok ids labs) (List.concat l) /\
          forall s, follows (List.concat l) (exec St macro load err rt m pc o (vm_case (o_id o)) s) s.
      Proof using OK MOK US RES LABS NO_MORTAL.
        intros I O E. pose proof (table (o_id o)) as TB. pose proof (oo_stmts rt m o O) as F.
        assert (TC : exists a a', vm_case (o_id o) = [Call "LEAVE_SCOPE" a] /\ pc_case (o_id o) = [IfMortal "LEAVE_SCOPE" a'] /\
                     match_call (o_id o) ("LEAVE_SCOPE"%string, a) ("LEAVE_SCOPE"%string, a') = true).
        { rewrite E in *. do 2 eexists. split; [reflexivity |]. split; [reflexivity |]. vm_compute. reflexivity. }
        destruct TC as (a & a' & V & P & M). rewrite V in *. rewrite P. inversion F as [| ? ? F1 _]; subst. cbn [stmt_ok] in F1.
        destruct (call_sim o _ a _ a' I O M F1) as (_ & xs & E1 & P1 & R1).
        cbn [all emit_stmt]. rewrite E1. destruct (Z.gtb_spec (mc_mortal_length m) 0) as [G | G]; cbn [omap].
        - exists [[CDo "LEAVE_SCOPE" xs]]. split; auto. cbn [List.concat app]. split; [constructor; auto |].
          intros s. cbn [exec]. rewrite R1. destruct (c_call' "LEAVE_SCOPE" xs s) as [s' |] eqn:C; intros X.
          + exists 1%nat. apply reach_1. intros g. cbn. rewrite C. reflexivity.
          + intros H. exists 0%nat. apply ends_1. intros g. cbn. rewrite C. reflexivity.
        - exists [[]]. split; auto. cbn [List.concat app]. split; [constructor |]. intros s. cbn [exec].
          pose proof (mo_mortal rt m MOK) as MM. unfold call.
          assert (A : exists v, all (eval St load rt m "LEAVE_SCOPE" o s) a = Some v).
          { rewrite E in V. cbn [vm_case] in V. injection V as <-. cbn [all eval]. eauto. }
          destruct A as (v & ->). rewrite NO_MORTAL by lia. intros X. exists 0%nat. apply reach_0.
      Qed.

      Lemma c_case_spec l dflt v : strictly_sorted l ->
        exists r, c_case v (map (fun c : case => (add_int (fst c), add_int (snd c))) l) (add_int dflt) = add_int r /\
          (In (v, r) l \/ (r = dflt /\ forall t, ~ In (v, t) l)).
      Proof using.
        induction l as [| (w, t) l IH]; intros SO; cbn [map c_case fst snd].
        - exists dflt. auto.
        - rewrite c_int_add_int. destruct (sorted_tail _ _ SO) as (SO' & NI). destruct (Z.eqb_spec w v) as [-> | N].
          + exists t. split; auto. left. left. reflexivity.
          + destruct (IH SO') as (r & -> & D). exists r. split; auto. destruct D as [D | (D & NN)]; [left; right; auto |].
            right. split; auto. intros t' [Q | Q]; [congruence | apply (NN t'), Q].
      Qed.

      Lemma sorted_unique l v r r' : strictly_sorted l -> In (v, r) l -> In (v, r') l -> r = r'.
      Proof using.
        induction l as [| (w, t) l IH]; intros SO A B; [destruct A |]. destruct (sorted_tail _ _ SO) as (SO' & NI). cbn [fst] in NI.
        destruct A as [A | A], B as [B | B]; [congruence | | | eauto].
        - injection A as <- <-. destruct (NI r' B).
        - injection B as <- <-. destruct (NI r A).
      Qed.

      Lemma sorted_keys l : strictly_sorted l -> NoDup (map fst l).
      Proof using.
        induction l as [| (w, t) l IH]; intros SO; cbn [map fst]; [constructor |]. destruct (sorted_tail _ _ SO) as (SO' & NI).
        constructor; auto. intros I. apply in_map_iff in I as ((w' & t') & <- & I). apply (NI t'), I.
      Qed.

      Lemma switch_sim pc o : znth ops pc = Some o -> o_id o = OP_LOOKUP_SWITCH ->
        exists l, all (emit_stmt rt m pc o) (pc_case (o_id o)) = Some l /\ Forall (citem_ok ids labs) (List.concat l) /\
          forall s, follows (List.concat l) (exec St macro load err rt m pc o (vm_case (o_id o)) s) s.
      Proof using MOK LABS.
        intros ZN E. pose proof (op_of pc o ZN) as O. pose proof (znth_Some _ _ _ ZN) as PC.
        destruct (mo_switch rt m MOK pc o ZN E) as (var & dflt & l & post & SW & SO & SM & DI & DT & LF).
        assert (LI : Forall (fun c : case => in_i32 (fst c) /\ in_i32 (snd c)) l).
        { eapply Forall_impl; [| exact LF]. cbn. tauto. }
        set (pre := map to_switch (ztake pc ops)).
        assert (MP : map to_switch ops = pre ++ emit_switch var dflt l ++ post).
        { unfold pre. rewrite <- SW, <- map_app. f_equal. unfold ztake, zdrop. symmetry. apply firstn_skipn. }
        assert (LP : zlen pre = pc). { unfold pre. rewrite zlen_map, zlen_take. lia. }
        assert (HO : to_switch o = {| op_id := ID_LOOKUP_SWITCH; op0 := u32 var; op1 := u32 dflt; op2 := u32 (zlen l) |}).
        { assert (Q : znth (map to_switch ops) pc = Some (to_switch o)) by (rewrite znth_map, ZN; reflexivity).
          rewrite MP, znth_app, LP, Z.ltb_irrefl, Z.sub_diag in Q. injection Q as <-. reflexivity. }
        unfold to_switch in HO. rewrite E in HO. injection HO as H0 H1 H2.
        pose proof (oo_stmts rt m o O) as F. rewrite E in *. cbn [vm_case pc_case] in *. pose proof (Forall_inv F) as F1.
        cbn [stmt_ok] in F1.
        assert (G1 : get_int O1 o = dflt). { unfold get_int, get. rewrite H1. apply wrap32_u32; auto. }
        assert (G2 : get_int O2 o = zlen l).
        { unfold get_int, get. rewrite H2. apply wrap32_u32. pose proof (zlen_nonneg l). unfold in_i32. lia. }
        assert (CS : forall k j, zlen l = j + Z.of_nat k -> 0 <= j ->
                  emit_cases m k pc j = Some (map (fun c : case => (add_int (fst c), add_int (snd c))) (zdrop j l))).
        { induction k as [| k IH]; intros j L J; cbn [emit_cases].
          - replace (zdrop j l) with (@nil case); [reflexivity |]. symmetry. apply zdrop_all. lia.
          - destruct (znth_lt l j ltac:(lia)) as ((v & t) & ZJ).
            destruct (ops_case pre post var dflt l LI j v t ZJ) as (o' & Q & W1 & W2).
            rewrite <- MP, znth_map in Q. rewrite LP in Q. destruct (znth ops (pc + 1 + j)) as [c |]; [| discriminate Q]. injection Q as <-.
            rewrite (IH (j + 1)) by lia.
            assert (U1 : get_int O1 c = v) by (unfold get_int, get; rewrite <- W1; unfold to_switch; destruct (o_id c); reflexivity).
            assert (U2 : get_int O2 c = t) by (unfold get_int, get; rewrite <- W2; unfold to_switch; destruct (o_id c); reflexivity).
            rewrite U1, U2, (zdrop_cons l j _ ZJ). reflexivity. }
        cbn [all emit_stmt]. rewrite G1, G2, (CS _ 0) by (pose proof (zlen_nonneg l); lia). cbn [omap]. eexists. split; [reflexivity |].
        change (zdrop 0 l) with l. cbn [List.concat app]. split.
        - constructor; [| constructor]. cbn [citem_ok]. split; [apply read_int |]. split; [apply LABS; auto |]. split.
          + apply Forall_map. eapply Forall_impl; [| exact LF]. cbn [fst snd]. intros c (_ & _ & TT). split; [apply read_int | auto].
          + rewrite map_map. cbn [fst].
            rewrite (map_ext _ (fun c : case => Some (fst c))) by (intros; apply c_int_add_int).
            rewrite <- (map_map fst Some). apply FinFun.Injective_map_NoDup; [intros a b Q; congruence | apply sorted_keys; auto].
        - intros s. cbn [exec].
          destruct (lookup_spec pre post var dflt l SO SM LI DI (load Int (get O0 o) s)) as (r & LK & DE).
          rewrite <- MP, LP in LK. rewrite LK. intros X.
          destruct (c_case_spec l dflt (load Int (get O0 o) s) SO) as (r' & CC & DE').
          assert (r' = r).
          { destruct DE as [DE | (DE & ->)], DE' as [DE' | (-> & DE')]; auto.
            - eapply sorted_unique; eauto.
            - destruct (DE' r DE).
            - destruct (DE r' DE'). }
          subst r'. split.
          { destruct DE as [DE | (_ & ->)]; auto. rewrite Forall_forall in LF. apply (LF _ DE). }
          intros rr Q. exists 0%nat. apply reach_1. intros g. cbn.
          rewrite c_int_add_int, (get_int_small O0 o O F1), CC, Q. reflexivity.
      Qed.

      Lemma op_sim pc o : znth ops pc = Some o ->
        exists l, all (emit_stmt rt m pc o) (pc_case (o_id o)) = Some l /\ Forall (citem_ok ids labs) (List.concat l) /\
          (o_id o <> OP_END_METHOD -> forall s, follows (List.concat l) (exec St macro load err rt m pc o (vm_case (o_id o)) s) s).
      Proof using OK MOK US RES LABS NO_MORTAL.
        intros ZN. pose proof (op_of pc o ZN) as O. assert (I : In o ops) by (eapply znth_In; eauto).
        destruct (table_cases (o_id o)) as [E | [E | [E | M]]].
        - exists []. rewrite E. split; auto. split; [constructor |]. congruence.
        - destruct (switch_sim pc o ZN E) as (l & A & B & C). eauto.
        - destruct (leave_sim pc o I O E) as (l & A & B & C). eauto.
        - destruct (stmts_sim pc o I O _ _ M (oo_stmts rt m o O)) as (l & A & B & C). eauto.
      Qed.

      (** ** The whole method *)
      Hypothesis CODE : emit_ops rt m 0 ops = Some code.

      Lemma label_found t : target_ok m t -> exists r, find_label (add_int t) code = Some r.
      Proof using CODE.
        intros TT. destruct (emit_ops_at rt m ops 0 code CODE t TT) as (o & l & X & _ & _ & _ & _ & Q). eauto.
      Qed.

      Definition at_ (t : Z) (r : list citem) : Prop := find_label (add_int t) code = Some r.

      Lemma step_sim t r s o : at_ t r -> znth ops t = Some o ->
        match exec St macro load err rt m t o (vm_case (o_id o)) s with
        | FNext _ s' => exists r' n, target_ok m (t + 1) /\ at_ (t + 1) r' /\ reach (S n) r s r' s'
        | FJump _ t' s' => exists r' n, target_ok m t' /\ at_ t' r' /\ reach (S n) r s r' s'
        | FHalt _ s' => exists n, ends (S n) r s (Ret s')
        | FStuck _ => exists n, ends (S n) r s UB
        end.
      Proof using OK MOK US RES LABS NO_MORTAL CODE.
        intros AT ZN. pose proof (znth_Some _ _ _ ZN) as TT.
        destruct (emit_ops_at rt m ops 0 code CODE t TT) as (o' & l & X & Z' & AL & EX & ET & FL).
        rewrite Z.add_0_l in *. assert (o' = o) by congruence. subst o'. unfold at_ in AT. rewrite FL in AT. injection AT as <-.
        destruct (op_sim t o ZN) as (l' & AL' & _ & SIM). assert (l' = l) by congruence. subst l'.
        destruct (mo_end rt m MOK) as (body & last & EB & EL & EF).
        assert (TL : t = zlen body /\ o = last \/ t < zlen body /\ In o body).
        { rewrite EB in ZN, TT. rewrite znth_app in ZN. destruct (Z.ltb_spec t (zlen body)) as [L | L].
          - right. split; auto. eapply znth_In; eauto.
          - rewrite zlen_app in TT. change (zlen [last]) with 1 in TT. assert (t = zlen body) by lia. subst t.
            rewrite Z.sub_diag in ZN. injection ZN as ->. auto. }
        destruct TL as [(TL & ->) | (TL & IB)].
        - rewrite EL in *. cbn [vm_case exec]. cbn [pc_case all] in AL. injection AL as <-. cbn [List.concat app].
          assert (X = []).
          { rewrite (zdrop_all (t + 1)) in EX by (rewrite EB, zlen_app; change (zlen [last]) with 1; lia). cbn in EX. congruence. }
          subst X. exists 0%nat. apply ends_1. reflexivity.
        - assert (NE : o_id o <> OP_END_METHOD) by (rewrite Forall_forall in EF; apply EF; auto).
          specialize (SIM NE s X). destruct (exec St macro load err rt m t o (vm_case (o_id o)) s) as [s' | t' s' | s' |].
          + assert (T1 : target_ok m (t + 1)).
            { unfold target_ok. rewrite EB, zlen_app. change (zlen [last]) with 1. lia. }
            destruct (emit_ops_at rt m ops 0 code CODE (t + 1) T1) as (o1 & l1 & X1 & _ & _ & _ & E1 & F1).
            rewrite Z.add_0_l in *. rewrite EX in E1. injection E1 as ->.
            destruct SIM as (n & R). exists (List.concat l1 ++ X1), n. split; auto. split; [exact F1 |].
            replace (S n) with (n + 1)%nat by lia. eapply reach_trans; [exact R |]. apply reach_1. reflexivity.
          + destruct SIM as (T1 & R). destruct (label_found t' T1) as (r' & Q). destruct (R r' Q) as (n & R'). eauto 6.
          + destruct SIM.
          + apply SIM. intros t' T1. destruct (label_found t' T1) as (r' & ->). discriminate.
      Qed.

      Local Notation vm := (vm_run St macro load err rt m).

      Lemma vm_to_c n : forall t r s x, target_ok m t -> at_ t r -> vm n t s = x -> x <> Fuel -> exists f, run f r s = x.
      Proof using OK MOK US RES LABS NO_MORTAL CODE.
        induction n as [| n IH]; intros t r s x TT AT V NF; cbn [vm_run] in V; [congruence |].
        destruct (znth_lt ops t TT) as (o & ZN). rewrite ZN in V. pose proof (step_sim t r s o AT ZN) as ST.
        destruct (exec St macro load err rt m t o (vm_case (o_id o)) s) as [s' | t' s' | s' |].
        - destruct ST as (r' & k & T1 & A1 & (_ & R)). destruct (IH _ r' s' x T1 A1 V NF) as (f & Q).
          exists (S k + f)%nat. rewrite R. exact Q.
        - destruct ST as (r' & k & T1 & A1 & (_ & R)). destruct (IH _ r' s' x T1 A1 V NF) as (f & Q).
          exists (S k + f)%nat. rewrite R. exact Q.
        - destruct ST as (k & (_ & R)). exists (S k). rewrite R; auto.
        - destruct ST as (k & (_ & R)). exists (S k). rewrite R; auto.
      Qed.

      Lemma c_to_vm f : forall t r s x, target_ok m t -> at_ t r -> run f r s = x -> x <> Fuel -> exists n, vm n t s = x.
      Proof using OK MOK US RES LABS NO_MORTAL CODE.
        induction f as [f IH] using (well_founded_induction lt_wf). intros t r s x TT AT V NF.
        destruct (znth_lt ops t TT) as (o & ZN). pose proof (step_sim t r s o AT ZN) as ST.
        destruct (exec St macro load err rt m t o (vm_case (o_id o)) s) as [s' | t' s' | s' |] eqn:EX.
        - destruct ST as (r' & k & T1 & A1 & (R0 & R)).
          destruct (Nat.lt_ge_cases f (S k)) as [L | G]; [rewrite R0 in V by auto; congruence |].
          replace f with (S k + (f - S k))%nat in V by lia. rewrite R in V.
          destruct (IH (f - S k)%nat ltac:(lia) _ r' s' x T1 A1 V NF) as (n & Q).
          exists (S n). cbn [vm_run]. rewrite ZN, EX. exact Q.
        - destruct ST as (r' & k & T1 & A1 & (R0 & R)).
          destruct (Nat.lt_ge_cases f (S k)) as [L | G]; [rewrite R0 in V by auto; congruence |].
          replace f with (S k + (f - S k))%nat in V by lia. rewrite R in V.
          destruct (IH (f - S k)%nat ltac:(lia) _ r' s' x T1 A1 V NF) as (n & Q).
          exists (S n). cbn [vm_run]. rewrite ZN, EX. exact Q.
        - destruct ST as (k & (R0 & R)).
          destruct (Nat.lt_ge_cases f (S k)) as [L | G]; [rewrite R0 in V by auto; congruence |].
          rewrite R in V by auto. exists 1%nat. cbn [vm_run]. rewrite ZN, EX. exact V.
        - destruct ST as (k & (R0 & R)).
          destruct (Nat.lt_ge_cases f (S k)) as [L | G]; [rewrite R0 in V by auto; congruence |].
          rewrite R in V by auto. exists 1%nat. cbn [vm_run]. rewrite ZN, EX. exact V.
      Qed.

      Lemma start_target : target_ok m 0.
      Proof using MOK.
        destruct (mo_end rt m MOK) as (body & last & EB & _). unfold target_ok. rewrite EB, zlen_app.
        change (zlen [last]) with 1. pose proof (zlen_nonneg body). lia.
      Qed.

      Lemma run_equiv s x : x <> Fuel -> (exists n, vm n 0 s = x) <-> (exists f, run f code s = x).
      Proof using OK MOK US RES LABS NO_MORTAL CODE.
        intros NF. pose proof start_target as T0.
        destruct (emit_ops_at rt m ops 0 code CODE 0 T0) as (o & l & X & _ & _ & _ & E1 & F1).
        rewrite Z.add_0_l in *. change (zdrop 0 ops) with ops in E1. rewrite CODE in E1. injection E1 as EC.
        assert (ST : forall f, run (S f) code s = run f (List.concat l ++ X) s).
        { intros f. rewrite EC at 2. reflexivity. }
        split; intros (n & V).
        - destruct (vm_to_c n 0 _ s x T0 F1 V NF) as (f & Q). exists (S f). rewrite ST. exact Q.
        - destruct n as [| f]; [cbn in V; congruence |]. rewrite ST in V. eapply c_to_vm; eauto.
      Qed.
    End Run.
  End Env.

  (** ** The result *)
  Lemma labels_target code : emit_ops rt m 0 ops = Some code -> forall t, target_ok m t -> In (add_int t) (labels code).
  Proof using.
    intros E t (T0 & T1). rewrite (emit_ops_labels _ _ _ _ _ E). apply in_map_iff. exists (Z.to_nat t). split; [f_equal; lia |].
    apply in_seq. unfold zlen in T1. lia.
  Qed.

  Lemma emit_ops_ok ids labs ops' : forall i code, emit_ops rt m i ops' = Some code ->
    (forall t o l, znth ops' t = Some o -> all (emit_stmt rt m (i + t) o) (pc_case (o_id o)) = Some l ->
       Forall (citem_ok ids labs) (List.concat l)) -> Forall (citem_ok ids labs) code.
  Proof using.
    induction ops' as [| o ops' IH]; intros i code E H; cbn [emit_ops] in E; [injection E as <-; constructor |].
    unfold emit_op in E. destruct (all _ (pc_case (o_id o))) as [l |] eqn:L; [| discriminate]. cbn [omap] in E.
    destruct (emit_ops rt m (i + 1) ops') as [b |] eqn:B; [| discriminate]. injection E as <-.
    cbn [app]. constructor; [exact Logic.I |]. apply Forall_app. split.
    - apply (H 0 o l); [rewrite znth_cons, Z.eqb_refl; reflexivity | rewrite Z.add_0_r; auto].
    - apply (IH (i + 1) b B). intros t o' l' ZT AL. pose proof (znth_Some _ _ _ ZT). apply (H (t + 1) o' l').
      + rewrite znth_cons. destruct (Z.eqb_spec (t + 1) 0); [lia |]. replace (t + 1 - 1) with t by lia. auto.
      + replace (i + (t + 1)) with (i + 1 + t) by lia. auto.
  Qed.

  Lemma build_ok : exists ds code, build rt m = Some (ds, code) /\ compiles ds code /\
    exists e, start rt ds = Some e /\
      forall St macro load err,
        (mc_mortal_length m = 0 -> forall a s, macro "LEAVE_SCOPE"%string a s = Some s) ->
        forall (s : St) x, x <> Fuel ->
          (exists n, vm_run St macro load err rt m n 0 s = x) <-> (exists n, c_run St macro load err e code n code s = x).
  Proof using OK MOK.
    destruct uses_some as (us & US). pose proof (mo_names rt m MOK us US) as GD.
    destruct (uses_spec rt ops us US) as (DN & _).
    destruct (start_ok rt OK us GD DN) as (e & SE & RES).
    set (labs := map (fun k => add_int (0 + Z.of_nat k)) (seq 0 (length ops))).
    assert (LABS : forall t, target_ok m t -> In (add_int t) labs).
    { intros t (T0 & T1). apply in_map_iff. exists (Z.to_nat t). split; [f_equal; lia |]. apply in_seq. unfold zlen in T1. lia. }
    pose (mac := fun (_ : string) (_ : list arg) (s : unit) => Some s).
    assert (EM : forall t o, znth ops t = Some o -> exists l, all (emit_stmt rt m t o) (pc_case (o_id o)) = Some l /\
               Forall (citem_ok (map ident (declare_all us)) labs) (List.concat l)).
    { intros t o ZN.
      destruct (op_sim us US e (map ident (declare_all us)) RES labs LABS unit mac (fun _ _ _ => 0) (fun _ => false) []
                  (fun _ _ _ => eq_refl) t o ZN) as (l & A & B & _). eauto. }
    destruct (emit_ops_total rt m ops 0) as (code & CODE).
    { intros t o ZN. rewrite Z.add_0_l. destruct (EM t o ZN) as (l & A & _). eauto. }
    exists (declare_all us), code. unfold build. rewrite US, CODE. split; auto.
    assert (LC : labels code = labs) by (apply (emit_ops_labels _ _ _ _ _ CODE)).
    split.
    - split; [apply declare_all_ok; auto |]. rewrite LC. split.
      + apply FinFun.Injective_map_NoDup; [| apply seq_NoDup]. intros a b Q. apply add_int_inj in Q. lia.
      + eapply emit_ops_ok; [exact CODE |]. intros t o l ZN AL. rewrite Z.add_0_l in AL.
        destruct (EM t o ZN) as (l' & A & B). congruence.
    - exists e. split; auto. intros St macro load err NM s x NF.
      apply (run_equiv us US e (map ident (declare_all us)) RES labs LABS St macro load err code NM CODE s x NF).
  Qed.
End Sim.
