(** * C71: anonymous methods *)
From Coq Require Import Lia.
From Verif Require Import Base CLib Dec Anon_model Anon_spec Anon_proofs.
From Verif Require TypeCache_proofs Format_proofs.
Local Open Scope Z_scope.

(** ** Creation *)

(** What the compiler makes of an expression with anonymous methods, nested in each other in
    any way, has the value and the effects of the expression; the temporaries it uses never
    get in each other's way. *)
Theorem C71_creation x n ce h v h' e' :
  evals x (user ce) h v e' h' <-> exists ce', eval (fst (build x n)) ce h = Ret (v, ce', h') /\ user ce' = e'.
Proof.
  split.
  - intros H. destruct (proj1 build_complete _ _ _ _ _ _ H n ce eq_refl) as (ce' & E & U & _). eauto.
  - intros (ce' & E & <-). now apply build_sound in E.
Qed.

(** Fields. *)
Lemma get_set_field fs f v g : In f (map fst fs) -> get_field (set_field fs f v) g = if list_eq_dec Z.eq_dec f g then Some v else get_field fs g.
Proof.
  induction fs as [| [k w] fs IH]; cbn; [intros [] |]. intros [-> | I].
  - destruct (list_eq_dec Z.eq_dec f f); [| congruence]. cbn. destruct (list_eq_dec Z.eq_dec f g); auto.
  - destruct (list_eq_dec Z.eq_dec k f) as [-> | N]; cbn.
    + destruct (list_eq_dec Z.eq_dec f g); auto.
    + destruct (list_eq_dec Z.eq_dec k g) as [-> |]; [destruct (list_eq_dec Z.eq_dec f g); congruence | apply IH; exact I].
Qed.
Lemma set_field_names fs f v : map fst (set_field fs f v) = map fst fs.
Proof. induction fs as [| [k w] fs IH]; cbn; auto. destruct (list_eq_dec Z.eq_dec k f); cbn; congruence. Qed.
Lemma set_object_last h o f v : set_object (h ++ [o]) (length h) f v = h ++ [mk_obj (o_class o) (set_field (o_fields o) f v)].
Proof. induction h; cbn; congruence. Qed.
Definition operand_value (e : env) (fo : list Z * option expr) : option val :=
  match snd fo with Some (EVar x) => get e (User x) | _ => Some VUndef end.
Definition simple (fo : list Z * option expr) : Prop := match snd fo with None | Some (EVar _) => True | _ => False end.
Lemma stores_simple l : forall e h o e' h', Forall simple l -> NoDup (map fst l) -> incl (map fst l) (map fst (o_fields o)) ->
  (forall f, In f (map fst l) -> get_field (o_fields o) f = Some VUndef) ->
  stores (length h) l e (h ++ [o]) e' h' ->
  e' = e /\ exists o', h' = h ++ [o'] /\ o_class o' = o_class o /\ map fst (o_fields o') = map fst (o_fields o)
  /\ (forall fo, In fo l -> get_field (o_fields o') (fst fo) = operand_value e fo /\ operand_value e fo <> None)
  /\ (forall f, ~ In f (map fst l) -> get_field (o_fields o') f = get_field (o_fields o) f).
Proof.
  induction l as [| [f [a |]] l IH]; intros e h o e' h' F N I U H; inversion H; subst; clear H.
  - split; [reflexivity |]. exists o. repeat split; auto; cbn in *; tauto.
  - pose proof (Forall_inv F) as S0. unfold simple in S0. cbn in S0. destruct a as [ | x0 | | | | ]; try destruct S0.
    match goal with H : evals _ _ _ _ _ _ |- _ => inversion H; subst; clear H end.
    match goal with H : stores _ _ _ _ _ _ |- _ => rename H into H11 end. rewrite set_object_last in H11.
    inversion N as [| ? ? Nf N']; subst. cbn in I, U. apply IH in H11.
    + destruct H11 as (-> & o' & -> & C & M & V & R). split; [reflexivity |]. exists o'. cbn in C, M. rewrite set_field_names in M. repeat split; auto.
      * destruct H as [<- | H]; [| now apply V]. cbn [fst]. rewrite R by exact Nf. cbn [o_fields]. rewrite get_set_field by (apply I; left; reflexivity).
        destruct (list_eq_dec Z.eq_dec f f); [| congruence]. unfold operand_value. cbn. congruence.
      * destruct H as [<- | H]; [| now apply V]. unfold operand_value. cbn. congruence.
      * intros g Ng. cbn in Ng. rewrite R by tauto. cbn [o_fields]. rewrite get_set_field by (apply I; left; reflexivity). destruct (list_eq_dec Z.eq_dec f g); [tauto | reflexivity].
    + exact (Forall_inv_tail F).
    + exact N'.
    + cbn [o_fields]. rewrite set_field_names. intros g Hg. apply I. right. exact Hg.
    + intros g Hg. cbn [o_fields]. rewrite get_set_field by (apply I; left; reflexivity). destruct (list_eq_dec Z.eq_dec f g) as [-> |]; [tauto |]. apply U. right. exact Hg.
  - inversion N as [| ? ? Nf N']; subst. cbn in I, U. match goal with H : stores _ _ _ _ _ _ |- _ => rename H into H8 end. apply IH in H8; auto; [| exact (Forall_inv_tail F) | intros g Hg; apply I; right; exact Hg].
    destruct H8 as (-> & o' & -> & C & M & V & R). split; [reflexivity |]. exists o'. repeat split; auto.
    + destruct H as [<- | H]; [| now apply V]. cbn [fst]. rewrite R by exact Nf. rewrite U by (left; reflexivity). reflexivity.
    + destruct H as [<- | H]; [| now apply V]. discriminate.
    + intros g Ng. cbn in Ng. apply R. tauto.
Qed.

(** ** The fields and the top of the method *)

Lemma build_fields_names l : forall fs, build_fields l = Ret fs -> map f_name fs = map field_of l.
Proof.
  induction l as [| i l IH]; cbn; intros fs H; [injection H as <-; reflexivity |].
  destruct (build_field i) as [f | | |] eqn:E; try discriminate. cbn in H. destruct (build_fields l) as [r | | |]; try discriminate. cbn in H. injection H as <-.
  cbn. rewrite (IH r eq_refl). f_equal. destruct i as [g | g a | x | x a]; cbn in E; try (injection E as <-; reflexivity). destruct a; try discriminate. injection E as <-. reflexivity.
Qed.
Lemma check_fields_spec l : forall seen, check_fields l seen = Ret tt <-> NoDup (map f_name l) /\ forall f, In f (map f_name l) -> ~ In f seen.
Proof.
  induction l as [| f l IH]; intros seen; cbn [check_fields map].
  - split; [| reflexivity]. intros _. split; [constructor | intros f []].
  - destruct (in_dec (list_eq_dec Z.eq_dec) (f_name f) seen) as [I | I].
    + split; [discriminate |]. intros (_ & H). exfalso. apply (H (f_name f)); [left; reflexivity | exact I].
    + rewrite IH. split.
      * intros (N & H). split; [constructor; [intros J; apply (H _ J); left; reflexivity | exact N] |]. intros g [<- | J]; [exact I |]. intros K. apply (H g J). right. exact K.
      * intros (N & H). inversion N; subst. split; [assumption |]. intros g J [<- | K]; [tauto |]. apply (H g); [right; exact J | exact K].
Qed.
(** The names of the fields must differ: exactly then they are accepted. *)
Theorem C71_fields l fs : build_fields l = Ret fs -> check_fields fs [] = Ret tt <-> NoDup (map field_of l).
Proof. intros B. rewrite check_fields_spec, (build_fields_names _ _ B). split; [tauto |]. intros N. split; auto. Qed.

(** The statements: flag, arguments, start, captures in reverse, block, return. *)
Definition caps (fs : list field) : list stmt := map (fun f => SCapture (36 :: f_name f) (f_name f)) (filter f_declares fs).
Lemma fold_cons {A B} (g : A -> B) l : forall acc, fold_left (fun l x => g x :: l) l acc = rev (map g l) ++ acc.
Proof. induction l as [| x l IH]; intros acc; cbn; [reflexivity |]. rewrite IH, <- app_assoc. reflexivity. Qed.
Definition args_of (args : list (list Z)) : list stmt := map (fun ia => SArg (fst ia) (snd ia)) (combine (seq 0 (length args)) args).
Lemma build_method_eq args k : build_method args k = SFlag :: args_of args ++ SNothing :: map SBody (seq 0 k) ++ [SReturn].
Proof.
  unfold build_method. rewrite (fold_cons (fun ia => SArg (fst ia) (snd ia))), map_rev, rev_involutive, <- app_assoc. reflexivity.
Qed.
Lemma insert_eq l1 l2 s : ~ In SNothing l1 -> insert_after_start (l1 ++ SNothing :: l2) s = l1 ++ SNothing :: s :: l2.
Proof.
  induction l1 as [| t l1 IH]; cbn [app insert_after_start]; intros N; [reflexivity |]. rewrite IH by (intros K; apply N; right; exact K).
  destruct t; try reflexivity. exfalso. apply N. left. reflexivity.
Qed.
Lemma attach_eq fs : forall l1 l2, ~ In SNothing l1 -> attach_fields (l1 ++ SNothing :: l2) fs = l1 ++ SNothing :: rev (caps fs) ++ l2.
Proof.
  induction fs as [| f fs IH]; intros l1 l2 N; [reflexivity |]. unfold attach_fields, caps. cbn [fold_left filter]. destruct (f_declares f).
  - rewrite insert_eq by exact N. cbn [map rev]. rewrite <- app_assoc. cbn [app]. apply (IH l1 (SCapture (36 :: f_name f) (f_name f) :: l2) N).
  - apply IH. exact N.
Qed.
Lemma method_eq args k fs : attach_fields (build_method args k) fs = SFlag :: args_of args ++ SNothing :: rev (caps fs) ++ map SBody (seq 0 k) ++ [SReturn].
Proof.
  rewrite build_method_eq. apply (attach_eq fs (SFlag :: args_of args)). intros [H | H]; [discriminate |]. unfold args_of in H. apply in_map_iff in H as (ia & H & _). discriminate.
Qed.
Lemma caps_names l : forall fs, Forall dollar l -> build_fields l = Ret fs ->
  caps fs = map (fun x => SCapture x (zdrop 1 x)) (flat_map declares l).
Proof.
  induction l as [| i l IH]; cbn [build_fields flat_map map]; intros fs D H; [injection H as <-; reflexivity |].
  destruct (build_field i) as [f | | |] eqn:E; try discriminate. cbn [obind] in H. destruct (build_fields l) as [r | | |]; try discriminate. cbn [obind] in H. injection H as <-.
  rewrite map_app, <- (IH r (Forall_inv_tail D) eq_refl). pose proof (Forall_inv D) as Di. unfold dollar in Di.
  destruct i as [g | g a | x | x a]; cbn in E, Di.
  - injection E as <-. reflexivity.
  - injection E as <-. reflexivity.
  - injection E as <-. destruct (Di x (or_introl eq_refl)) as (s & ->). unfold caps. cbn. reflexivity.
  - destruct a; try discriminate. injection E as <-. destruct (Di x (or_introl eq_refl)) as (s & ->). unfold caps. cbn. reflexivity.
Qed.

(** Names that are declared in the top scope. *)
Definition decl_of (s : stmt) : list (list Z) := match s with SArg _ x => [x] | SCapture x _ => [x] | _ => [] end.
Lemma check_names_spec l : forall seen, check_names l seen = Ret tt <-> NoDup (flat_map decl_of l) /\ forall x, In x (flat_map decl_of l) -> ~ In x seen.
Proof.
  assert (C : forall x l seen, (forall seen, check_names l seen = Ret tt <-> NoDup (flat_map decl_of l) /\ forall x, In x (flat_map decl_of l) -> ~ In x seen) ->
    (if in_dec (list_eq_dec Z.eq_dec) x seen then Die "Redeclaration of the variable." else check_names l (x :: seen)) = Ret tt
    <-> NoDup (x :: flat_map decl_of l) /\ forall y, In y (x :: flat_map decl_of l) -> ~ In y seen).
  { intros x m seen IH. destruct (in_dec (list_eq_dec Z.eq_dec) x seen) as [I | I].
    - split; [discriminate |]. intros (_ & H). exfalso. apply (H x); [left; reflexivity | exact I].
    - rewrite IH. split.
      + intros (N & H). split; [constructor; [intros J; apply (H _ J); left; reflexivity | exact N] |]. intros g [<- | J]; [exact I |]. intros K. apply (H g J). right. exact K.
      + intros (N & H). inversion N; subst. split; [assumption |]. intros g J [<- | K]; [tauto |]. apply (H g); [right; exact J | exact K]. }
  induction l as [| [| i x | | x f | k |] l IH]; intros seen; cbn [check_names flat_map decl_of app]; auto.
  split; [| reflexivity]. intros _. split; [constructor | intros f []].
Qed.
Lemma args_of_names args : flat_map decl_of (args_of args) = args.
Proof.
  unfold args_of. generalize 0%nat. induction args as [| a args IH]; intros i; cbn; [reflexivity |]. f_equal. apply IH.
Qed.
Lemma flat_map_singleton {A B} (g : A -> B) l : flat_map (fun x => [g x]) l = map g l.
Proof. induction l; cbn; congruence. Qed.
Lemma method_names args k fs xs : caps fs = map (fun x => SCapture x (zdrop 1 x)) xs ->
  flat_map decl_of (attach_fields (build_method args k) fs) = args ++ rev xs.
Proof.
  intros C. rewrite method_eq. cbn [flat_map decl_of app]. rewrite flat_map_app, args_of_names. f_equal. cbn [flat_map decl_of app]. rewrite flat_map_app.
  assert (E : flat_map decl_of (map SBody (seq 0 k) ++ [SReturn]) = []).
  { rewrite flat_map_app. cbn. rewrite app_nil_r. generalize 0%nat. induction k; intros m; cbn; auto. }
  rewrite E, app_nil_r, C, <- map_rev. clear C. induction (rev xs) as [| x l IH]; cbn; congruence.
Qed.
(** Arguments and captured variables must have different names, and none may be $self:
    exactly then the top of the method is accepted. *)
Theorem C71_names params k l fs : Forall dollar l -> build_fields l = Ret fs ->
  check_names (attach_fields (build_method (bytes "$self" :: params) k) fs) [] = Ret tt <-> NoDup (bytes "$self" :: params ++ flat_map declares l).
Proof.
  intros D B. rewrite check_names_spec, (method_names _ _ _ _ (caps_names _ _ D B)).
  assert (P : Permutation.Permutation ((bytes "$self" :: params) ++ rev (flat_map declares l)) (bytes "$self" :: params ++ flat_map declares l)).
  { cbn [app]. apply Permutation.perm_skip. apply Permutation.Permutation_app_head. apply Permutation.Permutation_sym. apply Permutation.Permutation_rev. }
  split; [intros (N & _); eapply Permutation.Permutation_NoDup; eauto |]. intros N. split; [| auto]. eapply Permutation.Permutation_NoDup; [apply Permutation.Permutation_sym; exact P | exact N].
Qed.

(** ** Calls *)

Lemma get_nodup (e : env) x v : NoDup (map fst e) -> In (x, v) e -> get e x = Some v.
Proof.
  induction e as [| [y w] e IH]; cbn; intros N I; [destruct I |]. inversion N as [| ? ? Ny N']; subst. destruct I as [[= -> ->] | I]; [now rewrite name_eqb_refl |].
  destruct (name_eqb y x) eqn:Q; [| now apply IH]. apply name_eqb_spec in Q. subst y. exfalso. apply Ny. apply (in_map fst) in I. exact I.
Qed.
Lemma enter_args l h vals : forall names pre vs e, vals = pre ++ vs -> length names = length vs ->
  enter (map (fun ia => SArg (fst ia) (snd ia)) (combine (seq (length pre) (length names)) names) ++ l) vals e h
  = enter l vals (rev (combine (map User names) vs) ++ e) h.
Proof.
  induction names as [| x names IH]; intros pre vs e E L; destruct vs as [| v vs]; try discriminate; [reflexivity |]. cbn [length seq combine map app enter fst snd].
  assert (Q : nth_error vals (length pre) = Some v). { rewrite E, nth_error_app2, Nat.sub_diag; [reflexivity | lia]. }
  rewrite Q. specialize (IH (pre ++ [v]) vs ((User x, v) :: e)). rewrite app_length, Nat.add_1_r in IH. rewrite IH; [| rewrite <- app_assoc; exact E | cbn in L; lia].
  cbn [rev]. rewrite <- app_assoc. reflexivity.
Qed.
Lemma enter_caps r o vals h rest xs : nth_error h r = Some o -> forall e, get e (User (bytes "$self")) = Some (VRef r) -> ~ In (bytes "$self") xs ->
  (forall x, In x xs -> get_field (o_fields o) (zdrop 1 x) <> None) ->
  exists e', enter (map (fun x => SCapture x (zdrop 1 x)) xs ++ rest) vals e h = enter rest vals (e' ++ e) h
    /\ map fst e' = rev (map User xs) /\ forall x, In x xs -> exists v, In (User x, v) e' /\ get_field (o_fields o) (zdrop 1 x) = Some v.
Proof.
  intros O. induction xs as [| x xs IH]; intros e G N F; [exists []; repeat split; auto; intros x [] |]. cbn [map app enter]. rewrite G, O.
  destruct (get_field (o_fields o) (zdrop 1 x)) as [v |] eqn:V; [| exfalso; apply (F x); [left; reflexivity | exact V]].
  destruct (IH ((User x, v) :: e)) as (e' & E & M & H).
  - cbn [get]. destruct (name_eqb (User x) (User (bytes "$self"))) eqn:Q; [| exact G]. apply name_eqb_spec in Q. injection Q as ->. exfalso. apply N. left. reflexivity.
  - intros K. apply N. right. exact K.
  - intros y K. apply F. right. exact K.
  - exists (e' ++ [(User x, v)]). rewrite <- app_assoc. cbn [app]. split; [exact E |]. rewrite map_app. cbn [map fst rev]. rewrite M. split; [reflexivity |].
    intros y [<- | K]; [exists v; split; [apply in_or_app; right; left; reflexivity | exact V] |]. destruct (H y K) as (w & I & W). exists w. split; [apply in_or_app; auto | exact W].
Qed.

Lemma nodup_left {A} (a b : list A) : NoDup (a ++ b) -> NoDup a.
Proof.
  induction a as [| x a IH]; cbn; intros N; [constructor |]. inversion N; subst. constructor; [| auto]. intros K. match goal with H : ~ In x _ |- _ => apply H end. apply in_or_app. auto.
Qed.

(** In every call, the block starts with the invocant, the arguments, and the captured
    variables, which have the values of the fields of the invocant. *)
Theorem C71_call params k l fs h r o vs : Forall dollar l -> build_fields l = Ret fs ->
  check_names (attach_fields (build_method (bytes "$self" :: params) k) fs) [] = Ret tt ->
  nth_error h r = Some o -> (forall f, In f (map field_of l) -> get_field (o_fields o) f <> None) -> length params = length vs ->
  exists e, enter (attach_fields (build_method (bytes "$self" :: params) k) fs) (VRef r :: vs) [] h = Ret e
  /\ get e (User (bytes "$self")) = Some (VRef r)
  /\ (forall x v, In (x, v) (combine params vs) -> get e (User x) = Some v)
  /\ (forall x, In x (flat_map declares l) -> get e (User x) = get_field (o_fields o) (zdrop 1 x)).
Proof.
  intros D B C O F L. apply (C71_names _ _ _ _ D B) in C. rewrite method_eq, (caps_names _ _ D B), <- map_rev. cbn [enter].
  pose proof (enter_args (SNothing :: map (fun x => SCapture x (zdrop 1 x)) (rev (flat_map declares l)) ++ map SBody (seq 0 k) ++ [SReturn]) h (VRef r :: vs)
    (bytes "$self" :: params) [] (VRef r :: vs) [] eq_refl ltac:(cbn; lia)) as EA. change (length (@nil val)) with 0%nat in EA. unfold args_of. rewrite EA. clear EA. rewrite app_nil_r. cbn [enter].
  set (ea := rev (combine (map User (bytes "$self" :: params)) (VRef r :: vs))).
  assert (MA : map fst ea = rev (map User (bytes "$self" :: params))).
  { unfold ea. rewrite map_rev. f_equal. assert (LL : length (map User (bytes "$self" :: params)) = length (VRef r :: vs)) by (rewrite map_length; cbn; lia). revert LL. generalize (map User (bytes "$self" :: params)) (VRef r :: vs).
    induction l0 as [| a l0 IH]; intros [| b m] Q; cbn in *; try discriminate; auto. f_equal. apply IH. lia. }
  assert (NA : NoDup (map fst ea)).
  { rewrite MA. apply NoDup_rev. apply FinFun.Injective_map_NoDup; [intros a b [=]; assumption |]. rewrite app_comm_cons in C. apply nodup_left in C. exact C. }
  assert (GS : get ea (User (bytes "$self")) = Some (VRef r)). { apply get_nodup; [exact NA |]. unfold ea. apply in_rev. rewrite rev_involutive. left. reflexivity. }
  destruct (enter_caps r o (VRef r :: vs) h (map SBody (seq 0 k) ++ [SReturn]) (rev (flat_map declares l)) O ea GS) as (e' & E & M & H).
  - intros K. apply in_rev in K. inversion C as [| ? ? Nn _]; subst. apply Nn. apply in_or_app. right. exact K.
  - intros x K. apply in_rev in K. apply F. apply in_flat_map in K as (i & I & K). apply in_map_iff. exists i. split; [| exact I]. destruct i; cbn in K; try tauto; destruct K as [<- | []]; reflexivity.
  - rewrite E. exists (e' ++ ea).
    assert (NE : NoDup (map fst (e' ++ ea))).
    { rewrite map_app, M, MA, map_rev, rev_involutive. rewrite <- map_rev, <- map_app. apply FinFun.Injective_map_NoDup; [intros a b [=]; assumption |].
      eapply Permutation.Permutation_NoDup; [| exact C]. rewrite app_comm_cons. etransitivity; [apply Permutation.Permutation_app_comm |].
      apply Permutation.Permutation_app_head. apply Permutation.Permutation_rev. }
    repeat split.
    + destruct k; reflexivity.
    + apply get_nodup; [exact NE |]. apply in_or_app. right. unfold ea. apply in_rev. rewrite rev_involutive. left. reflexivity.
    + intros x v I. apply get_nodup; [exact NE |]. apply in_or_app. right. unfold ea. apply in_rev. rewrite rev_involutive. cbn [map combine]. right. clear -I.
      revert vs I. induction params as [| p ps IH]; intros [| w ws] I; cbn in *; try tauto. destruct I as [[= -> ->] | I]; [left; reflexivity | right; apply IH; exact I].
    + intros x I. destruct (H x) as (v & J & V); [apply in_rev in I; exact I |]. rewrite V. apply get_nodup; [exact NE |]. apply in_or_app. left. exact J.
Qed.

(** ** Captured values *)

(** A method with captured variables: the object that is created has, in each call and as
    long as nobody assigns its fields, the values that the variables had when it was
    created, and creating it changes neither variables nor other objects. *)
Theorem C71_captures class gap params k l fs n ce h v ce' h' :
  Forall dollar l -> Forall reads_variable l -> build_fields l = Ret fs -> check_fields fs [] = Ret tt ->
  check_names (attach_fields (build_method (bytes "$self" :: params) k) fs) [] = Ret tt ->
  eval (fst (build (EAnon class gap (map (fun f => (f_name f, f_operand f)) fs)) n)) ce h = Ret (v, ce', h') ->
  user ce' = user ce /\ v = VRef (length h) /\ exists o, h' = h ++ [o] /\ o_class o = class
  /\ forall h2 vs, nth_error h2 (length h) = Some o -> length params = length vs ->
     exists e, enter (attach_fields (build_method (bytes "$self" :: params) k) fs) (v :: vs) [] h2 = Ret e
     /\ get e (User (bytes "$self")) = Some v
     /\ (forall x w, In (x, w) (combine params vs) -> get e (User x) = Some w)
     /\ (forall i x y, In i l -> In x (declares i) -> source i = Some y -> get e (User x) = get ce (User y) /\ get ce (User y) <> None).
Proof.
  intros D RV B CF CN E. apply build_sound in E as (E & _). inversion E; subst.
  set (fl := map (fun f => (f_name f, f_operand f)) fs) in *.
  assert (FN : map fst fl = map field_of l) by (unfold fl; rewrite map_map; cbn; rewrite <- (build_fields_names _ _ B); reflexivity).
  assert (ND : NoDup (map fst fl)) by (rewrite FN; apply (C71_fields _ _ B); exact CF).
  assert (SI : Forall simple fl /\ forall i, In i l -> exists a, In (field_of i, a) fl /\ forall y, source i = Some y -> a = Some (EVar y)).
  { unfold fl. clear -RV B. revert fs B. induction RV as [| i l R RV IH]; cbn [build_fields]; intros fs B; [injection B as <-; split; [constructor | intros i []] |].
    destruct (build_field i) as [f | | |] eqn:Ei; try discriminate. cbn [obind] in B. destruct (build_fields l) as [r | | |] eqn:Er; try discriminate. cbn [obind] in B. injection B as <-.
    destruct (IH r eq_refl) as (S1 & S2).
    assert (Hi : simple (f_name f, f_operand f) /\ f_name f = field_of i /\ forall y, source i = Some y -> f_operand f = Some (EVar y)).
    { destruct i as [g | g a | x | x a]; cbn in Ei, R |- *.
      - injection Ei as <-. repeat split; cbn; auto. discriminate.
      - injection Ei as <-. destruct a; try destruct R. repeat split; cbn; auto. intros y [= <-]. reflexivity.
      - injection Ei as <-. repeat split; cbn; auto. intros y [= <-]. reflexivity.
      - destruct a; try discriminate. injection Ei as <-. repeat split; cbn; auto. intros y [= <-]. reflexivity. }
    destruct Hi as (H1 & H2 & H3). split; [constructor; [exact H1 | exact S1] |]. intros j [<- | J].
    - exists (f_operand f). split; [left; now rewrite H2 | exact H3].
    - destruct (S2 j J) as (a & A & Q). exists a. split; [right; exact A | exact Q]. }
  destruct SI as (SI & SL).
  assert (NM : forall ll : list (list Z * option expr), map fst (map (fun f => (fst f, VUndef)) ll) = map fst ll) by (intros ll; rewrite map_map; reflexivity).
  match goal with H : stores _ _ _ _ _ _ |- _ => rename H into HS end. apply (stores_simple fl) in HS; auto.
  - destruct HS as (-> & o & -> & C & M & V & _). split; [reflexivity |]. split; [reflexivity |]. exists o. split; [reflexivity |]. split; [exact C |].
    intros h2 vs O L. cbn [o_fields] in M. rewrite NM in M.
    destruct (C71_call params k l fs h2 (length h) o vs D B CN O) as (e & En & G1 & G2 & G3); auto.
    + intros f I. rewrite <- FN in I. apply in_map_iff in I as (fo & <- & I). destruct (V fo I) as (-> & N). exact N.
    + exists e. repeat split; auto; intros; destruct (SL i H) as (a & A & Q); specialize (Q y H1); subst a; destruct (V _ A) as (V1 & V2); cbn in V1; unfold operand_value in V1, V2; cbn in V1, V2; rewrite get_user in V1, V2; auto.
      rewrite G3 by (apply in_flat_map; exists i; auto). rewrite <- V1. f_equal. destruct i; cbn in H0; try tauto; destruct H0 as [<- | []]; reflexivity.
  - cbn [o_fields]. rewrite NM. apply incl_refl.
  - cbn [o_fields]. clear. induction fl as [| [g a] ll IH]; cbn [map get_field fst In]; [intros f [] |]. intros f [<- | I]; [destruct (list_eq_dec Z.eq_dec g g) as [_ | Ng]; [reflexivity | elim Ng; reflexivity] |].
    destruct (list_eq_dec Z.eq_dec g f); [reflexivity | apply IH; exact I].
Qed.

(** The documented form $x : TYPE = OPERAND ends the process if the operand is not a
    variable. *)
Theorem C71_operand_refuted x e : (forall y, e <> EVar y) -> build_field (IVarOperand x e) = UB.
Proof. intros N. cbn. destruct e; try reflexivity. exfalso. eapply N. reflexivity. Qed.

(** ** The class *)

(** The names of the classes differ if classes, lines or columns differ. *)
Lemma colon_split a : forall b x y, Forall is_digit a -> Forall is_digit b -> a ++ 58 :: x = b ++ 58 :: y -> a = b /\ x = y.
Proof.
  induction a as [| c a IH]; intros [| d b] x y A B E; cbn in E.
  - injection E as <-. auto.
  - injection E as <- _. pose proof (Forall_inv B) as H. unfold is_digit in H. lia.
  - injection E as -> _. pose proof (Forall_inv A) as H. unfold is_digit in H. lia.
  - injection E as <- E. apply IH in E as (-> & ->); auto; [exact (Forall_inv_tail A) | exact (Forall_inv_tail B)].
Qed.
Lemma print_digits n : 0 <= n -> Forall is_digit (print_dec n).
Proof. intros N. unfold print_dec. destruct (Z.ltb_spec n 0); [lia |]. now apply udec_spec. Qed.
Lemma ret_inj {A} (x y : A) : Ret x = Ret y -> x = y.
Proof. intros [=]. assumption. Qed.
Theorem C71_class_names c1 l1 k1 c2 l2 k2 s : 0 <= l1 -> 0 <= k1 -> 0 <= l2 -> 0 <= k2 ->
  class_name c1 l1 k1 = Ret s -> class_name c2 l2 k2 = Ret s -> c1 = c2 /\ l1 = l2 /\ k1 = k2.
Proof.
  intros L1 K1 L2 K2. unfold class_name. destruct (_ <=? _); [| discriminate]. intros Q. destruct (_ <=? _); [| discriminate]. intros E. rewrite <- E in Q. clear E. apply ret_inj in Q as E.
  apply (f_equal (@rev Z)) in E. rewrite !rev_app_distr in E. change (rev (bytes "::")) with [58; 58] in E. change (rev (bytes "::anon_method::")) with (58 :: 58 :: rev (bytes "::anon_method")) in E.
  repeat (rewrite <- ?app_assoc in E; cbn [app] in E).
  apply colon_split in E; try (apply Forall_rev, print_digits; assumption). destruct E as (E1 & E2). injection E2 as E2.
  apply colon_split in E2; try (apply Forall_rev, print_digits; assumption). destruct E2 as (E2 & E3).
  apply (f_equal (@rev Z)) in E1, E2. rewrite !rev_involutive in E1, E2. apply TypeCache_proofs.print_dec_inj in E1, E2.
  injection E3 as E3. apply (f_equal (@rev Z)) in E3. rewrite !rev_involutive in E3. auto.
Qed.
(** The name fits the buffer if line and column have 13 digits at most together. *)
Theorem C71_class_name_partial c line column : zlen (print_dec line) + zlen (print_dec column) <= 13 ->
  class_name c line column = Ret (c ++ bytes "::anon_method::" ++ print_dec line ++ bytes "::" ++ print_dec column).
Proof.
  intros L. unfold class_name, name_buffer. destruct (Z.leb_spec (zlen (c ++ bytes "::anon_method::" ++ print_dec line ++ bytes "::" ++ print_dec column) + 1) (6 + zlen c + 2 + 10 + 2 + 10 + 1)) as [| H]; [reflexivity |].
  rewrite !zlen_app in H. change (zlen (bytes "::anon_method::")) with 15 in H. change (zlen (bytes "::")) with 2 in H. lia.
Qed.
(** With a line of ten digits, which a #line directive can give, and column 1000 it
    overflows. *)
Theorem C71_class_name_refuted c : class_name c 1000000000 1000 = UB.
Proof.
  unfold class_name, name_buffer. destruct (Z.leb_spec (zlen (c ++ bytes "::anon_method::" ++ print_dec 1000000000 ++ bytes "::" ++ print_dec 1000) + 1) (6 + zlen c + 2 + 10 + 2 + 10 + 1)) as [H |]; [| reflexivity].
  rewrite !zlen_app in H. change (zlen (bytes "::anon_method::")) with 15 in H. change (zlen (bytes "::")) with 2 in H.
  assert (Z1 : zlen (print_dec 1000000000) = 10) by (vm_compute; reflexivity). assert (Z2 : zlen (print_dec 1000) = 4) by (vm_compute; reflexivity). lia.
Qed.

(** [$x : int, has y : int = $z, has w : int] method : int ($a : int), with $x = 5 and $z = 7,
    called with 9. *)
Example anon_ex :
  let l := [IVar (bytes "$x"); IHasOperand (bytes "y") (EVar (bytes "$z")); IHas (bytes "w")] in
  exists fs, build_fields l = Ret fs /\ check_fields fs [] = Ret tt
  /\ check_names (attach_fields (build_method [bytes "$self"; bytes "$a"] 2) fs) [] = Ret tt
  /\ eval (fst (build (EAnon (bytes "C") 3 (map (fun f => (f_name f, f_operand f)) fs)) 0)) [(User (bytes "$x"), VNum 5); (User (bytes "$z"), VNum 7)] []
     = Ret (VRef 0, [(Tmp 3, VRef 0); (User (bytes "$x"), VNum 5); (User (bytes "$z"), VNum 7)], [mk_obj (bytes "C") [(bytes "x", VNum 5); (bytes "y", VNum 7); (bytes "w", VUndef)]])
  /\ enter (attach_fields (build_method [bytes "$self"; bytes "$a"] 2) fs) [VRef 0; VNum 9] [] [mk_obj (bytes "C") [(bytes "x", VNum 5); (bytes "y", VNum 7); (bytes "w", VUndef)]]
     = Ret [(User (bytes "$x"), VNum 5); (User (bytes "$a"), VNum 9); (User (bytes "$self"), VRef 0)].
Proof. eexists. split; [reflexivity |]. vm_compute. auto. Qed.
(** An anonymous method in a field of an anonymous method. *)
Example nested_ex : eval (fst (build (EAnon (bytes "C") 0 [(bytes "f", Some (EAnon (bytes "D") 2 [(bytes "g", Some (EConst (VNum 1)))])); (bytes "k", Some (EVar (bytes "$x")))]) 0)) [(User (bytes "$x"), VNum 5)] []
  = Ret (VRef 0, [(Tmp 2, VRef 1); (Tmp 3, VRef 0); (User (bytes "$x"), VNum 5)], [mk_obj (bytes "C") [(bytes "f", VRef 1); (bytes "k", VNum 5)]; mk_obj (bytes "D") [(bytes "g", VNum 1)]]).
Proof. vm_compute. reflexivity. Qed.

Print Assumptions C71_creation.
Print Assumptions C71_fields.
Print Assumptions C71_names.
Print Assumptions C71_call.
Print Assumptions C71_captures.
Print Assumptions C71_operand_refuted.
Print Assumptions C71_class_names.
Print Assumptions C71_class_name_partial.
Print Assumptions C71_class_name_refuted.
