(** * Proofs about variable names: the variables that the compiler adds *)
From Coq Require Import Lia.
From Verif Require Import Base CLib Dec Type_model Dispatch_model Names_model Names_spec Names_proofs.
Local Open Scope Z_scope.

Definition emb (e : event) : fev :=
  match e with
  | Open => FO | Close => FC
  | Decl l x => FD (User l) x
  | Use l x => FU (User l) x
  end.
Definition is_user (l : label) : bool := match l with User _ => true | _ => false end.
Definition users (s : list (name * label)) : list (name * label) := filter (fun p => is_user (snd p)) s.
Definition proj (sc : scopes) : scopes := map users sc.

Definition label_name (l : label) (x : name) : Prop :=
  match l with
  | User _ => is_hidden x = false
  | Hidden n Tmp => x = tmp_name n
  | Hidden n Array => x = array_name
  | Hidden n Length => x = length_name
  | Flag => x = flag_name
  | Return => x = return_name
  end.
Definition entry_ok (p : name * label) : Prop := label_name (snd p) (fst p).
Definition good (sc : scopes) : Prop :=
  sc <> [] /\ Forall entry_ok (concat sc) /\ In (flag_name, Flag) (concat sc).

Lemma hidden_name l x : is_user l = false -> label_name l x -> is_hidden x = true.
Proof. destruct l as [| n [] | |]; cbn [is_user label_name]; intros U E; try discriminate; subst; reflexivity. Qed.

Lemma users_concat sc : concat (proj sc) = users (concat sc).
Proof.
  induction sc as [| s sc IH]; [reflexivity |].
  change (concat (proj (s :: sc))) with (users s ++ concat (proj sc)).
  rewrite IH. unfold users. cbn [concat]. now rewrite filter_app.
Qed.

Lemma search_users s x : Forall entry_ok s -> is_hidden x = false -> search (users s) x = search s x.
Proof.
  induction 1 as [| [y l] s H HS IH]; intros X; [reflexivity |].
  cbn. destruct (is_user l) eqn:U; cbn.
  - destruct (name_eqb x y); [reflexivity | auto].
  - destruct (name_eqb x y) eqn:E; [| auto]. apply name_eqb_iff in E. subst y.
    rewrite (hidden_name l x U H) in X. discriminate.
Qed.
Lemma has_users s x : Forall entry_ok s -> is_hidden x = false -> has (users s) x = has s x.
Proof.
  induction 1 as [| [y l] s H HS IH]; intros X; [reflexivity |].
  cbn. destruct (is_user l) eqn:U; cbn.
  - f_equal. auto.
  - destruct (name_eqb x y) eqn:E; [| cbn; auto]. apply name_eqb_iff in E. subst y.
    rewrite (hidden_name l x U H) in X. discriminate.
Qed.

(** A name that determines its label is found if it is there. *)
Lemma search_unique s x l :
  Forall entry_ok s -> (forall l', label_name l' x -> l' = l) -> In (x, l) s -> search s x = Some l.
Proof.
  induction 1 as [| [y l'] s H HS IH]; intros U I; [destruct I |].
  cbn. destruct (name_eqb x y) eqn:E.
  - apply name_eqb_iff in E. subst y. now rewrite (U l' H).
  - destruct I as [I | I]; [inversion I; subst; rewrite name_eqb_rf in E; discriminate | auto].
Qed.

Lemma print_dec_inj a b : 0 <= a -> 0 <= b -> print_dec a = print_dec b -> a = b.
Proof.
  intros A B. unfold print_dec.
  replace (a <? 0) with false by (symmetry; apply Z.ltb_ge; lia).
  replace (b <? 0) with false by (symmetry; apply Z.ltb_ge; lia).
  intros E. destruct (udec_spec a A) as (_ & VA & _), (udec_spec b B) as (_ & VB & _).
  rewrite E in VA. congruence.
Qed.

Lemma tmp_unique n l : label_name l (tmp_name n) -> l = Hidden n Tmp.
Proof.
  destruct l as [k | m [] | |]; cbn [label_name]; intros E; try (exfalso; discriminate E).
  unfold tmp_name in E. apply app_inv_head in E. apply print_dec_inj in E; [| lia | lia].
  now replace m with n by lia.
Qed.
Lemma flag_unique l : label_name l flag_name -> l = Flag.
Proof. destruct l as [k | m [] | |]; cbn [label_name]; intros E; try (exfalso; discriminate E). reflexivity. Qed.

(** ** Simulation of the run with all variables and the run with the written ones *)
Definition user_out (o : list (label * target)) := filter (fun p => is_user (fst p)) o.
Definition hidden_ok (o : list (label * target)) : Prop :=
  forall l t, In (l, t) o -> is_user l = false -> t = Local l.

Definition ext (sc sc' : scopes) : Prop :=
  exists s a tl, sc = s :: tl /\ sc' = (a ++ s) :: tl.

Lemma ext_refl sc : sc <> [] -> ext sc sc.
Proof. destruct sc as [| s tl]; [congruence |]. exists s, [], tl. auto. Qed.
Lemma ext_trans a b c : ext a b -> ext b c -> ext a c.
Proof.
  intros (s & x & tl & -> & ->) (s' & y & tl' & E & ->). inversion E; subst.
  exists s, (y ++ x), tl'. split; [reflexivity |]. now rewrite app_assoc.
Qed.
Lemma ext_in sc sc' p : ext sc sc' -> In p (concat sc) -> In p (concat sc').
Proof.
  intros (s & a & tl & -> & ->). cbn. rewrite !in_app_iff. tauto.
Qed.

Section Sim.
  Variable cs : classes.
  Variable current : name.
  Variable accessible : name -> name -> bool.
  Notation frun := (frun cs current accessible).

  Definition sim_at (es : list fev) (ues : list event) (sc : scopes) : Prop :=
    match frun (map emb ues) (proj sc) with
    | Good (usc, ou) => exists sc' o, frun es sc = Good (sc', o) /\ proj sc' = usc /\ good sc' /\ ext sc sc'
                                      /\ user_out o = ou /\ hidden_ok o
    | Fail e => frun es sc = Fail e
    end.
  Definition simP (P : scopes -> Prop) (es : list fev) (ues : list event) : Prop :=
    forall sc, good sc -> P sc -> sim_at es ues sc.
  Definition stable (P : scopes -> Prop) : Prop := forall sc sc', ext sc sc' -> P sc -> P sc'.

  Lemma user_out_app a b : user_out (a ++ b) = user_out a ++ user_out b.
  Proof. apply filter_app. Qed.
  Lemma hidden_ok_app a b : hidden_ok a -> hidden_ok b -> hidden_ok (a ++ b).
  Proof. intros A B l t I. apply in_app_iff in I. destruct I as [I | I]; [apply A | apply B]; assumption. Qed.
  Lemma hidden_ok_nil : hidden_ok [].
  Proof. intros l t []. Qed.

  Lemma sim_nil P : simP P [] [].
  Proof.
    intros sc G _. unfold sim_at. cbn. exists sc, []. repeat split; auto using hidden_ok_nil.
    - apply G. - apply G. - apply G. - apply ext_refl, G.
  Qed.

  Lemma sim_at_app es1 u1 es2 u2 sc :
    sim_at es1 u1 sc ->
    (forall sc', good sc' -> ext sc sc' -> sim_at es2 u2 sc') ->
    sim_at (es1 ++ es2) (u1 ++ u2) sc.
  Proof.
    unfold sim_at. intros H1 H2. rewrite map_app, frun_app.
    destruct (frun (map emb u1) (proj sc)) as [[usc1 ou1] | e].
    - destruct H1 as (sc1 & o1 & R1 & <- & G1 & X1 & O1 & K1). specialize (H2 sc1 G1 X1).
      destruct (frun (map emb u2) (proj sc1)) as [[usc2 ou2] | e]; cbn [add_out].
      + destruct H2 as (sc2 & o2 & R2 & E2 & G2 & X2 & O2 & K2).
        exists sc2, (o1 ++ o2). rewrite frun_app, R1, R2. cbn [add_out].
        split; [reflexivity |]. split; [assumption |]. split; [assumption |].
        split; [eapply ext_trans; eassumption |].
        split; [rewrite user_out_app; congruence | now apply hidden_ok_app].
      + rewrite frun_app, R1, H2. reflexivity.
    - rewrite frun_app, H1. reflexivity.
  Qed.

  Lemma sim_app P es1 u1 es2 u2 :
    stable P -> simP P es1 u1 -> simP P es2 u2 -> simP P (es1 ++ es2) (u1 ++ u2).
  Proof.
    intros S H1 H2 sc G p. apply sim_at_app; [now apply H1 |].
    intros sc' G' X. apply H2; [assumption |]. eapply S; eassumption.
  Qed.

  Lemma sim_weaken (P Q : scopes -> Prop) es u : (forall sc, Q sc -> P sc) -> simP P es u -> simP Q es u.
  Proof. intros W H sc G q. apply H; auto. Qed.

  (** A written variable. *)
  Lemma good_add sc s p : good (s :: sc) -> entry_ok p -> good ((p :: s) :: sc).
  Proof.
    intros (_ & F & I) E. split; [discriminate |]. cbn in *. split; [now constructor | now right].
  Qed.
  Lemma sim_decl P l x : is_hidden x = false -> simP P [FD (User l) x] [Decl l x].
  Proof.
    intros X sc G _. destruct sc as [| s sc]; [now destruct (proj1 G) |].
    unfold sim_at. cbn [map emb proj Names_proofs.frun].
    assert (Fs : Forall entry_ok s) by (destruct G as (_ & F & _); cbn in F; apply Forall_app in F; tauto).
    rewrite (has_users s x Fs X). destruct (has s x && negb (is_hidden x)); [reflexivity |].
    cbn [add_out]. exists (((x, User l) :: s) :: sc), [(User l, Local (User l))].
    split; [reflexivity |]. split; [reflexivity |]. split; [apply good_add; [exact G | exact X] |].
    split; [exists s, [(x, User l)], sc; auto |]. split; [reflexivity |].
    intros l' t [E | []] U. inversion E; subst. discriminate.
  Qed.
  Lemma sim_use P l x : is_hidden x = false -> simP P [FU (User l) x] [Use l x].
  Proof.
    intros X sc G _. unfold sim_at. cbn [map emb Names_proofs.frun].
    unfold fresolve. rewrite users_concat, search_users by (try exact X; apply G).
    assert (D : forall t, exists (sc' : scopes) o, add_out [(User l, t)] (Good (sc, [])) = Good (sc', o)
              /\ proj sc' = proj sc /\ good sc' /\ ext sc sc' /\ user_out o = [(User l, t)] /\ hidden_ok o).
    { intros t. exists sc, [(User l, t)]. repeat split; try (apply G).
      - apply ext_refl, G.
      - intros l' t' [E | []] U. inversion E; subst. discriminate. }
    destruct (search (concat sc) x) as [d |]; [apply D |].
    destruct (class_var cs current x) as [[[c y] |] | e]; [| reflexivity | reflexivity].
    destruct (accessible c y); [apply D | reflexivity].
  Qed.

  (** A variable that the compiler adds. *)
  Lemma sim_at_hidden_decl l x es u s sc :
    is_user l = false -> label_name l x -> good (s :: sc) ->
    sim_at es u (((x, l) :: s) :: sc) -> sim_at (FD l x :: es) u (s :: sc).
  Proof.
    intros U N G H. unfold sim_at in *. cbn [Names_proofs.frun].
    rewrite (hidden_name l x U N), Bool.andb_false_r.
    assert (E : proj (((x, l) :: s) :: sc) = proj (s :: sc)).
    { unfold proj, users. cbn. now rewrite U. }
    rewrite E in H. destruct (frun (map emb u) (proj (s :: sc))) as [[usc ou] | e].
    - destruct H as (sc' & o & R & E1 & G1 & X1 & O1 & K1). exists sc', ((l, Local l) :: o).
      rewrite R. split; [reflexivity |]. split; [assumption |]. split; [assumption |]. split.
      { destruct X1 as (s1 & a & tl & Q & ->). inversion Q; subst. exists s, (a ++ [(x, l)]), tl.
        split; [reflexivity |]. now rewrite <- app_assoc. }
      split; [cbn; now rewrite U |]. intros l' t [I | I]; [inversion I; subst; reflexivity | now apply K1].
    - rewrite H. reflexivity.
  Qed.
  Lemma sim_at_hidden_use l x es u sc :
    is_user l = false -> search (concat sc) x = Some l ->
    sim_at es u sc -> sim_at (FU l x :: es) u sc.
  Proof.
    intros U N H. unfold sim_at in *. cbn [Names_proofs.frun]. unfold fresolve. rewrite N.
    destruct (frun (map emb u) (proj sc)) as [[usc ou] | e].
    - destruct H as (sc' & o & R & E1 & G1 & X1 & O1 & K1). exists sc', ((l, Local l) :: o).
      rewrite R. split; [reflexivity |]. split; [assumption |]. split; [assumption |]. split; [assumption |].
      split; [cbn; now rewrite U |]. intros l' t [I | I]; [inversion I; subst; reflexivity | now apply K1].
    - rewrite H. reflexivity.
  Qed.

  (** A block, also with written variables in it only. *)
  Lemma sim_at_block es u sc :
    good sc -> sim_at es u ([] :: sc) -> sim_at (FO :: es ++ [FC]) (block u) sc.
  Proof.
    intros G H. unfold sim_at in *. unfold block. cbn [map emb Names_proofs.frun]. rewrite map_app, !frun_app.
    change (proj ([] :: sc)) with ([] :: proj sc) in H.
    destruct (frun (map emb u) ([] :: proj sc)) as [[usc ou] | e].
    - destruct H as (sc' & o & R & <- & G1 & (s1 & a & tl & Q & ->) & O1 & K1). inversion Q; subst s1 tl.
      cbn [proj map emb Names_proofs.frun add_out]. rewrite R. cbn [add_out Names_proofs.frun].
      exists sc, (o ++ []). rewrite !app_nil_r.
      split; [reflexivity |]. split; [reflexivity |]. split; [assumption |].
      split; [apply ext_refl, G |]. split; assumption.
    - rewrite H. reflexivity.
  Qed.
  Lemma good_open sc : good sc -> good ([] :: sc).
  Proof. intros (A & B & C). split; [discriminate |]. split; assumption. Qed.

  Definition shared (P : scopes -> Prop) : Prop := forall sc, P sc -> P ([] :: sc).
  Lemma sim_block P es u : shared P -> simP P es u -> simP P (FO :: es ++ [FC]) (block u).
  Proof. intros S H sc G p. apply sim_at_block; [assumption |]. apply H; [now apply good_open | now apply S]. Qed.
End Sim.

(** ** The events of operators *)
Definition names_ok (es : list event) : Prop :=
  forall e x, In e es -> event_name e = Some x -> is_hidden x = false.
Lemma names_ok_app a b : names_ok (a ++ b) <-> names_ok a /\ names_ok b.
Proof.
  split.
  - intros H. split; intros e x I; apply H; apply in_app_iff; tauto.
  - intros [A B] e x I. apply in_app_iff in I. destruct I; [apply A | apply B]; assumption.
Qed.

Section Exprs.
  Variable cs : classes.
  Variable current : name.
  Variable accessible : name -> name -> bool.
  Notation sim_at := (sim_at cs current accessible).
  Notation simP := (simP cs current accessible).
  Notation any := (fun _ : scopes => True).

  Lemma stable_any : stable any. Proof. intros ? ? ? ?. exact I. Qed.
  Lemma shared_any : shared any. Proof. intros ? ?. exact I. Qed.

  (** Only added variables of one construct, all there: nothing changes. *)
  Definition own (n : nat) (e : fev) : Prop := e = FU (Hidden n Tmp) (tmp_name n) \/ e = FU Flag flag_name.
  Definition has_tmp (n : nat) (sc : scopes) : Prop := In (tmp_name n, Hidden n Tmp) (concat sc).
  Lemma sim_at_own n es sc : Forall (own n) es -> good sc -> has_tmp n sc -> sim_at es [] sc.
  Proof.
    intros F G H. induction F as [| e es E F IH]; [now apply (sim_nil _ _ _ any) |].
    destruct E as [-> | ->]; apply sim_at_hidden_use; auto.
    - apply search_unique; [apply G | apply tmp_unique | exact H].
    - apply search_unique; [apply G | apply flag_unique | apply G].
  Qed.

  (** my $.tmp; some operands, with uses of $.tmp after each *)
  Lemma sim_logical n ea ua eb ub ec :
    simP any ea ua -> simP any eb ub -> Forall (own n) ec ->
    simP any (FD (Hidden n Tmp) (tmp_name n) :: ea ++ eb ++ ec) (ua ++ ub).
  Proof.
    intros A B C sc G _. destruct sc as [| s sc]; [now destruct (proj1 G) |].
    apply sim_at_hidden_decl; [reflexivity | reflexivity | assumption |].
    assert (G1 : good (((tmp_name n, Hidden n Tmp) :: s) :: sc)) by (apply good_add; [assumption | reflexivity]).
    apply sim_at_app; [now apply A |]. intros sc1 G2 X1.
    rewrite <- (app_nil_r ub). apply sim_at_app; [now apply B |]. intros sc2 G3 X2.
    apply (sim_at_own n); [assumption | assumption |].
    unfold has_tmp. apply (ext_in sc1); [assumption |]. apply (ext_in _ _ _ X1). now left.
  Qed.

  Lemma own_tmp n : own n (FU (Hidden n Tmp) (tmp_name n)). Proof. now left. Qed.
  Lemma own_flag n : own n (FU Flag flag_name). Proof. now right. Qed.
  Hint Resolve own_tmp own_flag : core.

  Lemma sim_cast P es es' u u' : es = es' -> u = u' -> simP P es' u' -> simP P es u.
  Proof. intros -> ->. exact (fun H => H). Qed.

  Lemma fevents_as_block t : fevents (as_block true t) = match t with TBlock _ u => fevents u | _ => fevents t end.
  Proof. now destruct t. Qed.

  Lemma build_expr_sim e : forall n, names_ok (expr_events e) -> simP any (fevents (fst (build_expr e n))) (expr_events e).
  Proof.
    induction e as [| l x | l x | a IHa b IHb | d IHd s IHs | a IHa b IHb | a IHa b IHb | a IHa]; intros n N; cbn [build_expr].
    - apply sim_nil.
    - apply sim_use. now apply (N (Use l x) x (or_introl eq_refl)).
    - apply sim_decl. now apply (N (Decl l x) x (or_introl eq_refl)).
    - cbn [expr_events] in *. apply names_ok_app in N. specialize (IHa n (proj1 N)).
      destruct (build_expr a n) as [ta n1]. specialize (IHb n1 (proj2 N)). destruct (build_expr b n1) as [tb n2].
      now apply sim_app; [apply stable_any | |].
    - cbn [expr_events] in *. apply names_ok_app in N. specialize (IHd n (proj2 N)).
      destruct (build_expr d n) as [td n1]. specialize (IHs n1 (proj1 N)). destruct (build_expr s n1) as [ts n2].
      now apply sim_app; [apply stable_any | |].
    - cbn [expr_events] in *. apply names_ok_app in N. specialize (IHa n (proj1 N)).
      destruct (build_expr a n) as [ta n1]. specialize (IHb n1 (proj2 N)). destruct (build_expr b n1) as [tb n2].
      cbn [fst]. eapply sim_cast; [| reflexivity | eapply (sim_logical n2 _ _ _ _ _ IHa IHb)].
      + unfold build_and, build_if. cbn [TList fevents]. unfold tmp_my. cbn [fevents app]. f_equal.
        rewrite !fevents_as_block. cbn [TList fevents assign as_block app].
        rewrite <- !app_assoc. reflexivity.
      + repeat (apply Forall_cons; [auto |]). apply Forall_nil.
    - cbn [expr_events] in *. apply names_ok_app in N. specialize (IHa n (proj1 N)).
      destruct (build_expr a n) as [ta n1]. specialize (IHb n1 (proj2 N)). destruct (build_expr b n1) as [tb n2].
      cbn [fst].
      assert (B' : simP (has_tmp n2) (FU Flag flag_name :: FU (Hidden n2 Tmp) (tmp_name n2) :: fevents tb) (expr_events b)).
      { intros sc G H. apply (sim_at_app _ _ _ [_; _] [] _ _); [now apply (sim_at_own n2); auto |].
        intros sc' G' X'. now apply IHb. }
      intros sc G _. destruct sc as [| s sc]; [now destruct (proj1 G) |].
      unfold build_or, build_if. cbn [TList fevents]. unfold tmp_my. cbn [fevents app].
      rewrite !fevents_as_block. cbn [TList fevents assign as_block app].
      rewrite <- !app_assoc. cbn [app].
      apply sim_at_hidden_decl; [reflexivity | reflexivity | assumption |].
      assert (G1 : good (((tmp_name n2, Hidden n2 Tmp) :: s) :: sc)) by (apply good_add; [assumption | reflexivity]).
      apply sim_at_app; [now apply IHa |]. intros sc1 G2 X1.
      assert (T1 : has_tmp n2 sc1) by (apply (ext_in _ _ _ X1); now left).
      specialize (B' sc1 G2 T1). rewrite <- (app_nil_r (expr_events b)).
      apply (sim_at_app _ _ _ (FU Flag flag_name :: FU (Hidden n2 Tmp) (tmp_name n2) :: fevents tb) _ _ [] _ B').
      intros sc2 G3 X2. apply (sim_at_own n2); [repeat (apply Forall_cons; [auto |]); apply Forall_nil | assumption |].
      now apply (ext_in sc1).
    - cbn [expr_events] in *. specialize (IHa n N). destruct (build_expr a n) as [ta n1]. cbn [fst].
      eapply sim_cast; [| symmetry; apply app_nil_r | eapply (sim_logical n1 _ _ [] [] _ IHa (sim_nil _ _ _ _))].
      + unfold build_not, build_if. cbn [TList fevents]. unfold tmp_my. cbn [fevents app]. f_equal.
        rewrite !fevents_as_block. cbn [TList fevents assign as_block app].
        rewrite <- !app_assoc. reflexivity.
      + repeat (apply Forall_cons; [auto |]). apply Forall_nil.
  Qed.
End Exprs.
