(** * Class loading meets its specification *)
From Verif Require Import Base CLib FnMem_model Toke_model Toke_spec Utf8_model Utf8_spec Lex_model Lex_spec.
From Verif Require Import Load_model Load_spec LoadText_proofs.

(** ** Class files *)
Lemma get_set l n f m : get_class_file (set_class_file l n f) m = if same_name m n then Some f else get_class_file l m.
Proof.
  induction l as [| (k, g) l IH]; cbn; [reflexivity |].
  destruct (same_name n k) eqn:E; cbn.
  - apply same_name_iff in E. subst k. destruct (same_name m n); reflexivity.
  - rewrite IH. destruct (same_name m k) eqn:K; [| reflexivity]. apply same_name_iff in K. subst k.
    destruct (same_name m n) eqn:X; [| reflexivity]. apply same_name_iff in X. subst. rewrite same_name_refl in E. discriminate.
Qed.

(** ** Types *)
Lemma wf_in c n : well_formed c -> (In n (types c) <-> exists i, symtable c n = Some i).
Proof.
  intros (ND & W). split.
  - intros I'. destruct (In_znth _ _ I') as (i & _ & Z'). exists i. apply W. exact Z'.
  - intros (i & E). apply W in E. eapply znth_In. exact E.
Qed.
Lemma wf_out c n : well_formed c -> (~ In n (types c) <-> symtable c n = None).
Proof. intros W. rewrite (wf_in c n W). destruct (symtable c n); split; intros H; try congruence; [exfalso; apply H; eauto | intros (i & E); discriminate]. Qed.

Lemma NoDup_snoc' {A} (x : A) l : NoDup l -> ~ In x l -> NoDup (l ++ [x]).
Proof. intros N I'. rewrite <- rev_involutive, rev_app_distr. apply NoDup_rev. cbn. constructor; [rewrite <- in_rev; exact I' | apply NoDup_rev; exact N]. Qed.
Lemma add_type_ok c n : well_formed c ->
  well_formed (add_type c n) /\ class_files (add_type c n) = class_files c /\ In n (types (add_type c n)) /\
  exists e, types (add_type c n) = types c ++ e /\ forall m, In m e <-> m = n /\ ~ In m (types c).
Proof.
  intros W. unfold add_type. destruct (symtable c n) as [i |] eqn:E.
  - split; [exact W |]. split; [reflexivity |]. assert (I' : In n (types c)) by (apply (wf_in c n W); eauto). split; [exact I' |].
    exists []. split; [symmetry; apply app_nil_r |]. intros m. split; [contradiction | intros (-> & N); contradiction].
  - pose proof (proj2 (wf_out c n W) E) as NI. destruct W as (ND & W). cbn [types class_files symtable]. repeat split.
    + apply NoDup_snoc'; assumption.
    + cbn [symtable types]. destruct (same_name n0 n) eqn:S'.
      * apply same_name_iff in S'. subst n0. intros H. injection H as <-. rewrite znth_app. replace (zlen (types c) <? zlen (types c)) with false by lia. rewrite Z.sub_diag. reflexivity.
      * intros H. apply W in H. rewrite znth_app. pose proof (znth_Some _ _ _ H). replace (i <? zlen (types c)) with true by lia. exact H.
    + cbn [symtable types]. rewrite znth_app. destruct (i <? zlen (types c)) eqn:L.
      * intros H. destruct (same_name n0 n) eqn:S'; [| apply W; exact H]. apply same_name_iff in S'. subst n0. exfalso. apply NI. eapply znth_In. exact H.
      * intros H. destruct (Z.eq_dec (i - zlen (types c)) 0) as [Q | Q].
        -- rewrite Q in H. injection H as <-. rewrite same_name_refl. f_equal. lia.
        -- exfalso. pose proof (znth_Some _ _ _ H) as B. change (zlen [n]) with 1 in B. lia.
    + apply in_or_app. right. left. reflexivity.
    + exists [n]. split; [reflexivity |]. intros m. cbn. split; [intros [<- | []]; auto | intros (-> & _); auto].
Qed.

Lemma add_types_ok l c : well_formed c ->
  well_formed (fold_left add_type l c) /\ class_files (fold_left add_type l c) = class_files c /\ (forall m, In m l -> In m (types (fold_left add_type l c))) /\
  exists e, types (fold_left add_type l c) = types c ++ e /\ forall m, In m e <-> In m l /\ ~ In m (types c).
Proof.
  revert c. induction l as [| n l IH]; intros c W; cbn [fold_left].
  - split; [exact W |]. split; [reflexivity |]. split; [contradiction |]. exists []. rewrite app_nil_r. split; [reflexivity |]. cbn. tauto.
  - destruct (add_type_ok c n W) as (W1 & F1 & I1 & e1 & T1 & M1). destruct (IH (add_type c n) W1) as (W2 & F2 & I2 & e2 & T2 & M2).
    split; [exact W2 |]. split; [congruence |]. split.
    + intros m [<- | I']; [| auto]. rewrite T2. apply in_or_app. auto.
    + exists (e1 ++ e2). rewrite T2, T1, <- app_assoc. split; [reflexivity |]. intros m. rewrite in_app_iff, M1, M2, T1, in_app_iff, M1. cbn [In].
      destruct (in_dec (list_eq_dec Z.eq_dec) m (types c)); destruct (list_eq_dec Z.eq_dec m n); subst; intuition congruence.
Qed.

Section Proofs.
  Context (fs : path -> option (list Z)) (dirs : list path) (parse : name -> path -> list Z -> parsed).
  Definition lookup (l : list (name * class_file)) (n : name) : option class_file :=
    match get_class_file l n with Some f => Some f | None => search fs dirs (rel_path n) end.

  Lemma search_ok ds rel :
    match search fs ds rel with
    | Some f => exists d t, found_in fs ds rel d t /\ f = ClassFile (Some (full_path d rel)) (Some d) rel (until_nul t)
    | None => forall d t, ~ found_in fs ds rel d t
    end.
  Proof.
    induction ds as [| d ds IH]; cbn.
    - intros d t (b & a & E & _). destruct b; discriminate.
    - destruct (fs (full_path d rel)) as [c |] eqn:E.
      + exists d, c. split; [| reflexivity]. exists [], ds. split; [reflexivity |]. split; [exact E |]. contradiction.
      + destruct (search fs ds rel) as [f |].
        * destruct IH as (d' & t & (b & a & -> & F & N) & ->). exists d', t. split; [| reflexivity]. exists (d :: b), a. split; [reflexivity |]. split; [exact F |].
          intros x [<- | X]; auto.
        * intros d' t (b & a & EQ & F & N). destruct b as [| x b]; injection EQ as -> ->; [congruence |]. apply (IH d' t). exists b, a. split; [reflexivity |]. split; [exact F |].
          intros y Y. apply N. right. exact Y.
  Qed.

  Lemma found_unique ds rel d t d' t' : found_in fs ds rel d t -> found_in fs ds rel d' t' -> d = d' /\ t = t'.
  Proof.
    intros (b & a & E & F & N) (b' & a' & E' & F' & N'). rewrite E in E'. clear E. revert b' E' N'. induction b as [| x b IH]; intros b' E' N'.
    - destruct b' as [| y b']; injection E' as -> ->; [split; [reflexivity | congruence] |]. rewrite (N' y) in F by (left; reflexivity). discriminate.
    - destruct b' as [| y b']; injection E' as -> E'; [rewrite (N d') in F' by (left; reflexivity); discriminate |]. apply (IH (fun d Y => N d (or_intror Y)) b' E' (fun d Y => N' d (or_intror Y))).
  Qed.

  Context (c0 : compiler).
  Let source := source fs dirs c0.
  Let missing := missing fs dirs c0.
  Lemma source_iff n f t : source n f t <-> exists cf, lookup (class_files c0) n = Some cf /\ f = file_of cf /\ t = cf_content cf.
  Proof.
    unfold lookup. split.
    - intros [cf G | d t' content G F ->].
      + rewrite G. eauto.
      + rewrite G. pose proof (search_ok dirs (rel_path n)) as S'. destruct (search fs dirs (rel_path n)) as [cf |].
        * destruct S' as (d' & t'' & F' & ->). destruct (found_unique _ _ _ _ _ _ F F') as (<- & <-). eexists. split; [reflexivity |]. split; reflexivity.
        * exfalso. exact (S' _ _ F).
    - intros (cf & L & -> & ->). destruct (get_class_file (class_files c0) n) as [g |] eqn:G; [injection L as ->; apply Given; exact G |].
      pose proof (search_ok dirs (rel_path n)) as S'. rewrite L in S'. destruct S' as (d & t & F & ->). eapply Searched; eauto.
  Qed.
  Lemma missing_iff n : missing n <-> lookup (class_files c0) n = None.
  Proof.
    unfold missing, Load_spec.missing. destruct (lookup (class_files c0) n) as [cf |] eqn:E; split; intros H; try congruence.
    - exfalso. apply (H (file_of cf) (cf_content cf)). apply source_iff. eauto.
    - intros f t S'. apply source_iff in S'. destruct S' as (cf & L & _). congruence.
  Qed.

  Context (start : list use).
  Let wanted := wanted fs dirs parse c0 start.
  Let good := good_file parse.
  Let ok := use_ok fs dirs parse c0.
  Context (noanon : forall u n f t, wanted u -> ~ In (u_name u) (p_anon (parse n f t))).
  Context (given : forall n f, get_class_file (class_files c0) n = Some f -> Forall text_byte (cf_content f)).
  Context (disk : forall p t, fs p = Some t -> Forall in_u8 t).

  Lemma lookup_bytes n f : lookup (class_files c0) n = Some f -> Forall text_byte (cf_content f).
  Proof.
    unfold lookup. destruct (get_class_file (class_files c0) n) eqn:G; [intros [= <-]; eapply given; exact G |].
    intros S'. pose proof (search_ok dirs (rel_path n)) as H. rewrite S' in H. destruct H as (d & t & (b & a & _ & F & _) & ->). apply until_nul_ok. eapply disk. exact F.
  Qed.

  (** What holds at all times. *)
  Definition weak (s : state) : Prop :=
    well_formed (comp s) /\ (exists e, types (comp s) = types c0 ++ e) /\ forall n, lookup (class_files (comp s)) n = lookup (class_files c0) n.

  Definition done (s : state) (u : use) : Prop := ok u /\ (In (u_name u) (types (comp s)) \/ missing (u_name u)).

  (** As long as there is no message; [pend] is a name that is being loaded. *)
  Definition inv (pend : name -> Prop) (q : list use) (s : state) : Prop :=
    weak s /\ errors s = [] /\ (forall u, In u q -> wanted u) /\
    (forall u, In u start -> In u q \/ done s u \/ pend (u_name u)) /\
    (forall n, In n (types (comp s)) -> ~ In n (types c0) ->
       exists u f t, wanted u /\ ~ In (u_name u) (types c0) /\ source (u_name u) f t /\ good (u_name u) f t /\ (n = u_name u \/ In n (p_anon (parse (u_name u) f t)))) /\
    (forall u f t, wanted u -> ~ In (u_name u) (types c0) -> In (u_name u) (types (comp s)) -> source (u_name u) f t ->
       (forall m, In m (p_anon (parse (u_name u) f t)) -> In m (types (comp s))) /\
       forall u', In u' (p_uses (parse (u_name u) f t)) -> In u' q \/ done s u' \/ pend (u_name u')).

  Lemma source_det n f t f' t' : source n f t -> source n f' t' -> f = f' /\ t = t'.
  Proof. rewrite !source_iff. intros (x & X & -> & ->) (y & Y & -> & ->). rewrite X in Y. injection Y as ->. auto. Qed.
  Lemma ok_name u : ok u -> check_name (u_name u) = None.
  Proof. intros (N & _). apply check_name_ok. exact N. Qed.

  (** A state is only used through these parts. *)
  Lemma done_mono s s' u : (forall m, In m (types (comp s)) -> In m (types (comp s'))) -> done s u -> done s' u.
  Proof. intros M (O & [I' | I']); split; auto. Qed.

  Lemma inv_files pend q s s' : inv pend q s -> types (comp s') = types (comp s) -> symtable (comp s') = symtable (comp s) -> errors s' = [] ->
    (forall n, lookup (class_files (comp s')) n = lookup (class_files (comp s)) n) -> inv pend q s'.
  Proof.
    intros ((W & (e & E) & L) & ER & Q & ST & NEW & US) T SY ER' LK.
    assert (D : forall u, done s u -> done s' u) by (intros u; apply done_mono; rewrite T; auto).
    split; [split; [unfold well_formed; rewrite T, SY; exact W | split; [exists e; rewrite T; exact E | intros n; rewrite LK; apply L]] |].
    split; [exact ER' |]. split; [exact Q |]. split; [| split].
    - intros u U. destruct (ST u U) as [H | [H | H]]; auto.
    - rewrite T. exact NEW.
    - rewrite T. intros u f t Wt NI I' S'. destruct (US u f t Wt NI I' S') as (A & B). split; [exact A |]. intros u' U'. destruct (B u' U') as [H | [H | H]]; auto.
  Qed.

  Lemma inv_pop pend u q s : inv pend (u :: q) s -> done s u \/ pend (u_name u) -> inv pend q s.
  Proof.
    intros (W & ER & Q & ST & NEW & US) D. split; [exact W |]. split; [exact ER |]. split; [intros x X; apply Q; right; exact X |]. split; [| split; [exact NEW |]].
    - intros x X. destruct (ST x X) as [[<- | H] | H]; auto.
    - intros x f t Wt NI I' S'. destruct (US x f t Wt NI I' S') as (A & B). split; [exact A |]. intros u' U'. destruct (B u' U') as [[<- | H] | H]; auto.
  Qed.
  Lemma inv_pend (p p' : name -> Prop) q s : (forall n, p n -> p' n) -> inv p q s -> inv p' q s.
  Proof.
    intros M (W & ER & Q & ST & NEW & US). split; [exact W |]. split; [exact ER |]. split; [exact Q |]. split; [| split; [exact NEW |]].
    - intros x X. destruct (ST x X) as [H | [H | H]]; auto.
    - intros x f t Wt NI I' S'. destruct (US x f t Wt NI I' S') as (A & B). split; [exact A |]. intros u' U'. destruct (B u' U') as [H | [H | H]]; auto.
  Qed.

  Lemma weak_files s f n es nf : weak s -> lookup (class_files c0) n = Some f -> get_class_file (class_files (comp s)) n = None ->
    weak (State (Compiler (types (comp s)) (symtable (comp s)) (set_class_file (class_files (comp s)) n f)) es nf) /\
    forall m, lookup (set_class_file (class_files (comp s)) n f) m = lookup (class_files (comp s)) m.
  Proof.
    intros (W & E & L) LK G.
    assert (X : forall m, lookup (set_class_file (class_files (comp s)) n f) m = lookup (class_files (comp s)) m).
    { intros m. unfold lookup at 1. rewrite get_set. destruct (same_name m n) eqn:S'; [| reflexivity]. apply same_name_iff in S'. subst m. rewrite L, LK. reflexivity. }
    split; [| exact X]. split; [exact W |]. split; [exact E |]. cbn [comp class_files]. intros m. rewrite X. apply L.
  Qed.

  Lemma search_lookup s n : weak s -> get_class_file (class_files (comp s)) n = None -> search fs dirs (rel_path n) = lookup (class_files c0) n.
  Proof. intros (_ & _ & L) G. rewrite <- L. unfold lookup. rewrite G. reflexivity. Qed.
  Lemma get_lookup s n f : weak s -> get_class_file (class_files (comp s)) n = Some f -> lookup (class_files c0) n = Some f.
  Proof. intros (_ & _ & L) G. rewrite <- L. unfold lookup. rewrite G. reflexivity. Qed.

  Definition no_pend : name -> Prop := fun _ => False.

  (** The next class file. *)
  Lemma load_ok q : forall s, inv no_pend q s ->
    exists l q' s', load fs dirs q s = Ret (l, q', s') /\ weak s' /\
      match l with
      | Nothing => (errors s' = [] /\ inv no_pend [] s') \/ (errors s' <> [] /\ exists u, wanted u /\ ~ ok u)
      | Source n f => inv (eq n) q' s' /\ types (comp s') = types (comp s) /\ ~ In n (types (comp s)) /\ lookup (class_files c0) n = Some f /\ source_text (cf_content f) /\
          (exists u, wanted u /\ u_name u = n) /\ (by_compiler n \/ class_name n)
      end.
  Proof.
    induction q as [| u q IH]; intros s I0; cbn [load].
    - exists Nothing, [], s. split; [reflexivity |]. split; [apply I0 |]. left. split; [apply I0 | exact I0].
    - destruct I0 as (W & ER & Q & ST & NEW & US). pose proof (conj W (conj ER (conj Q (conj ST (conj NEW US)))) : inv no_pend (u :: q) s) as I0.
      pose proof (Q u (or_introl eq_refl)) as WU. set (n := u_name u) in *.
      destruct (check_name n) as [e |] eqn:CN.
      { exists Nothing, q, (with_error s e n). split; [reflexivity |]. split; [exact W |]. right. split; [cbn; rewrite ER; discriminate |].
        exists u. split; [exact WU |]. intros O. apply ok_name in O. fold n in O. congruence. }
      apply check_name_ok in CN. destruct (symtable (comp s) n) as [i |] eqn:SY.
      { apply IH. apply (inv_pop no_pend u q s I0). left. assert (IN : In n (types (comp s))) by (apply (wf_in _ _ (proj1 W)); eauto). split; [| left; exact IN].
        split; [exact CN |]. destruct (in_dec (list_eq_dec Z.eq_dec) n (types c0)) as [Y | N]; [left; exact Y |]. right. left.
        destruct (NEW n IN N) as (u0 & f & t & WU0 & N0 & S0 & G0 & [EQ | AN]); [| exfalso; exact (noanon u _ _ _ WU AN)].
        fold n. rewrite EQ. exists f, t. auto. }
      pose proof (proj2 (wf_out _ _ (proj1 W)) SY) as NI.
      assert (FOUND : forall f s1, lookup (class_files c0) n = Some f -> types (comp s1) = types (comp s) -> inv no_pend (u :: q) s1 ->
        exists l q' s', (let! e := check_text (length (cf_content f)) (cf_content f) 0 in
                    match e with
                    | Some e => Ret (Nothing, q, with_error s1 e n)
                    | None => match errors s1 with [] => Ret (Source n f, q, s1) | _ => Ret (Nothing, q, s1) end
                    end) = Ret (l, q', s') /\ weak s' /\
      match l with
      | Nothing => (errors s' = [] /\ inv no_pend [] s') \/ (errors s' <> [] /\ exists u, wanted u /\ ~ ok u)
      | Source n f => inv (eq n) q' s' /\ types (comp s') = types (comp s) /\ ~ In n (types (comp s)) /\ lookup (class_files c0) n = Some f /\ source_text (cf_content f) /\
          (exists u, wanted u /\ u_name u = n) /\ (by_compiler n \/ class_name n)
      end).
      { intros f s1 LK T1 I1. destruct (check_text_ok (cf_content f) (lookup_bytes n f LK)) as (r & R & RS). rewrite R. cbn [obind]. destruct r as [e |].
        - exists Nothing, q, (with_error s1 e n). split; [reflexivity |]. split; [apply I1 |]. right. split; [cbn; rewrite (proj1 (proj2 I1)); discriminate |].
          exists u. split; [exact WU |]. intros (_ & [Y | [(f' & t' & S' & G) | (M & _)]]).
          + apply NI. destruct W as (_ & (e' & E') & _). rewrite E'. apply in_or_app. left. exact Y.
          + apply source_iff in S'. destruct S' as (cf & LK' & -> & ->). fold n in LK'. rewrite LK in LK'. injection LK' as <-. destruct G as (G & _). apply RS in G. discriminate.
          + apply missing_iff in M. fold n in M. congruence.
        - rewrite (proj1 (proj2 I1)). exists (Source n f), q, s1. split; [reflexivity |]. split; [apply I1 |]. split.
          + apply (inv_pop (eq n) u q s1); [| right; reflexivity]. apply (inv_pend no_pend); [intros m []| exact I1].
          + split; [exact T1 |]. split; [exact NI |]. split; [exact LK |]. split; [apply RS; reflexivity |]. split; [exists u; auto | exact CN]. }
      destruct (get_class_file (class_files (comp s)) n) as [f |] eqn:G.
      + apply FOUND; [eapply get_lookup; eauto | reflexivity | exact I0].
      + rewrite (search_lookup s n W G). destruct (lookup (class_files c0) n) as [f |] eqn:LK.
        * destruct (weak_files s f n (errors s) (not_found s) W LK G) as (W1 & L1). apply FOUND; [reflexivity | reflexivity |].
          apply (inv_files no_pend (u :: q) s _ I0); [reflexivity | reflexivity | exact ER | exact L1].
        * apply missing_iff in LK. destruct (u_require u) eqn:RQ.
          -- apply (IH (State (comp s) (errors s) (n :: not_found s))). apply (inv_files no_pend q s); [| reflexivity | reflexivity | exact ER | reflexivity]. apply (inv_pop no_pend u q s I0). left. split; [| right; exact LK].
             split; [exact CN |]. right. right. auto.
          -- exists Nothing, q, (with_error s (Not_found (rel_path n)) n). split; [reflexivity |]. split; [exact W |]. right. split; [cbn; rewrite ER; discriminate |].
             exists u. split; [exact WU |]. intros (_ & [Y | [(f' & t' & S' & _) | (_ & RQ')]]).
             ++ apply NI. destruct W as (_ & (e' & E') & _). rewrite E'. apply in_or_app. left. exact Y.
             ++ exact (LK _ _ S').
             ++ congruence.
  Qed.

  (** With a message there is no further class file. *)
  Lemma load_failed q : forall s, weak s -> errors s <> [] ->
    exists q' s', load fs dirs q s = Ret (Nothing, q', s') /\ weak s' /\ errors s' <> [].
  Proof.
    induction q as [| u q IH]; intros s W ER; cbn [load]; [eauto |].
    assert (A : forall e, errors (with_error s e (u_name u)) <> []) by (intros e; cbn; destruct (errors s); discriminate).
    destruct (check_name (u_name u)) as [e |]; [eauto |]. destruct (symtable (comp s) (u_name u)); [apply IH; assumption |].
    assert (FOUND : forall f s1, lookup (class_files c0) (u_name u) = Some f -> weak s1 -> errors s1 <> [] ->
        exists q' s', (let! e := check_text (length (cf_content f)) (cf_content f) 0 in
                    match e with
                    | Some e => Ret (Nothing, q, with_error s1 e (u_name u))
                    | None => match errors s1 with [] => Ret (Source (u_name u) f, q, s1) | _ => Ret (Nothing, q, s1) end
                    end) = Ret (Nothing, q', s') /\ weak s' /\ errors s' <> []).
    { intros f s1 LK W1 E1. destruct (check_text_ok (cf_content f) (lookup_bytes _ f LK)) as (r & R & _). rewrite R. cbn [obind]. destruct r as [e |].
      - exists q, (with_error s1 e (u_name u)). split; [reflexivity |]. split; [exact W1 |]. cbn. destruct (errors s1); discriminate.
      - exists q, s1. destruct (errors s1) eqn:X; [congruence |]. split; [reflexivity |]. split; [exact W1 |]. congruence. }
    destruct (get_class_file (class_files (comp s)) (u_name u)) as [f |] eqn:G.
    - apply FOUND; [eapply get_lookup; eauto | exact W | exact ER].
    - rewrite (search_lookup s _ W G). destruct (lookup (class_files c0) (u_name u)) as [f |] eqn:LK.
      + destruct (weak_files s f (u_name u) (errors s) (not_found s) W LK G) as (W1 & L1). apply FOUND; [reflexivity | exact W1 | exact ER].
      + destruct (u_require u); [apply IH; assumption | eauto].
  Qed.

  (** One class file. *)
  Lemma parse_ok n f q s : inv (eq n) q s -> ~ In n (types (comp s)) -> lookup (class_files c0) n = Some f -> source_text (cf_content f) ->
    (exists u, wanted u /\ u_name u = n) -> by_compiler n \/ class_name n ->
    exists us b s', parse_file parse n f s = (us, b, s') /\ weak s' /\
      ((errors s' = [] /\ b = true /\ inv no_pend (q ++ us) s' /\ In n (types (comp s')) /\ forall m, In m (types (comp s)) -> In m (types (comp s'))) \/
       (errors s' <> [] /\ exists u, wanted u /\ ~ ok u)).
  Proof.
    intros (W & ER & Q & ST & NEW & US) NI LK TX (u & WU & UN) CN. unfold parse_file. set (r := parse n (file_of f) (cf_content f)).
    destruct W as (WF & (e & E) & L). assert (N0 : ~ In n (types c0)) by (intros H; apply NI; rewrite E; apply in_or_app; left; exact H).
    assert (SO : source n (file_of f) (cf_content f)) by (apply source_iff; eauto).
    assert (BADU : ~ good n (file_of f) (cf_content f) -> exists u, wanted u /\ ~ ok u).
    { intros NG. exists u. split; [exact WU |]. rewrite <- UN in *. intros (_ & [Y | [(f' & t' & S' & G) | (M & _)]]); [exact (N0 Y) | | exact (M _ _ SO)].
      destruct (source_det _ _ _ _ _ SO S') as (<- & <-). exact (NG G). }
    destruct (add_types_ok (p_anon r) (comp s) WF) as (W1 & F1 & I1 & e1 & T1 & M1). set (c1 := fold_left add_type (p_anon r) (comp s)) in *.
    assert (WK1 : forall es nf, weak (State c1 es nf)).
    { intros es nf. split; [exact W1 |]. split; [exists (e ++ e1); cbn [comp]; rewrite T1, E, app_assoc; reflexivity |]. cbn [comp]. rewrite F1. exact L. }
    destruct (p_class r) as [m |] eqn:PC.
    2: { eexists [], false, _. split; [reflexivity |]. split; [apply WK1 |]. right. split; [cbn; rewrite ER; destruct (p_errors r); discriminate |]. apply BADU. intros (_ & _ & G). fold r in G. congruence. }
    destruct (add_type_ok c1 m W1) as (W2 & F2 & I2 & e2 & T2 & M2). cbn [comp errors not_found].
    assert (WK2 : forall es nf, weak (State (add_type c1 m) es nf)).
    { intros es nf. split; [exact W2 |]. split; [exists (e ++ e1 ++ e2); cbn [comp]; rewrite T2, T1, E, !app_assoc; reflexivity |]. cbn [comp]. rewrite F2, F1. exact L. }
    destruct (same_name m n) eqn:SN.
    2: { eexists _, true, _. split; [reflexivity |]. split; [apply WK2 |]. right. split; [cbn; rewrite ER; destruct (p_errors r); discriminate |]. apply BADU. intros (_ & _ & G). fold r in G.
      rewrite PC in G. injection G as ->. rewrite same_name_refl in SN. discriminate. }
    apply same_name_iff in SN. subst m. eexists _, true, _. split; [reflexivity |]. split; [apply WK2 |]. cbn [errors comp types]. rewrite ER. cbn [app].
    destruct (p_errors r) eqn:PE; [right; split; [discriminate |]; apply BADU; intros (_ & G & _); fold r in G; congruence | left].
    assert (GOOD : good n (file_of f) (cf_content f)) by (split; [exact TX |]; fold r; auto).
    split; [reflexivity |]. split; [reflexivity |].
    assert (MONO : forall m, In m (types (comp s)) -> In m (types (add_type c1 n))) by (intros m H; rewrite T2, T1; apply in_or_app; left; apply in_or_app; left; exact H).
    assert (PEND : forall u', n = u_name u' -> done (State (add_type c1 n) [] (not_found s)) u').
    { intros u' EQ. split; [| left; cbn [comp]; rewrite <- EQ; exact I2]. split; [rewrite <- EQ; exact CN |]. right. left. rewrite <- EQ. eauto. }
    assert (KEEP : forall u', done s u' -> done (State (add_type c1 n) [] (not_found s)) u') by (intros u'; apply done_mono; exact MONO).
    split; [| split; [exact I2 | exact MONO]].
    split; [apply WK2 |]. split; [reflexivity |]. cbn [comp]. split; [| split; [| split]].
    - intros x X. apply in_app_or in X. destruct X as [X | X]; [exact (Q x X) |]. eapply W_next; [exact WU | rewrite UN; exact N0 | rewrite UN; exact SO | rewrite UN; exact X].
    - intros x X. destruct (ST x X) as [H | [H | H]]; [left; apply in_or_app; auto | right; left; auto | right; left; auto].
    - intros m IM NM. rewrite T2, T1, !in_app_iff in IM. destruct IM as [[IM | IM] | IM]; [exact (NEW m IM NM) | |]; exists u, (file_of f), (cf_content f); rewrite UN; split; try assumption; split; try assumption; split; try assumption; split; try assumption.
      + right. apply M1 in IM. apply IM.
      + left. apply M2 in IM. apply IM.
    - intros x g t Wx N' I' S'. destruct (in_dec (list_eq_dec Z.eq_dec) (u_name x) (types (comp s))) as [OLD | NEWX].
      + destruct (US x g t Wx N' OLD S') as (A & B). split; [intros m M; apply MONO; auto |]. intros u' U'. destruct (B u' U') as [H | [H | H]]; [left; apply in_or_app; auto | right; left; auto | right; left; auto].
      + assert (EQ : u_name x = n).
        { rewrite T2, T1, !in_app_iff in I'. destruct I' as [[I' | I'] | I']; [contradiction | apply M1 in I'; exfalso; exact (noanon x _ _ _ Wx (proj1 I')) | apply M2 in I'; apply I']. }
        rewrite EQ in *. destruct (source_det _ _ _ _ _ SO S') as (<- & <-). fold r. split; [| intros u' U'; left; apply in_or_app; right; exact U'].
        intros m M. rewrite T2. apply in_or_app. left. apply I1. exact M.
  Qed.

  (** All class files. *)
  Definition todo (U : list name) (s : state) : list name := filter (fun n => negb (existsb (same_name n) (types (comp s)))) U.
  Lemma existsb_in n l : existsb (same_name n) l = true <-> In n l.
  Proof. rewrite existsb_exists. split; [intros (x & X & E); apply same_name_iff in E; subst; exact X | intros I'; exists n; split; [exact I' | apply same_name_refl]]. Qed.
  Lemma todo_less U s s' n : In n U -> ~ In n (types (comp s)) -> In n (types (comp s')) -> (forall m, In m (types (comp s)) -> In m (types (comp s'))) ->
    (length (todo U s') < length (todo U s))%nat.
  Proof.
    intros IU N Y M. unfold todo. assert (LE : forall U, (length (filter (fun n => negb (existsb (same_name n) (types (comp s')))) U) <= length (filter (fun n => negb (existsb (same_name n) (types (comp s)))) U))%nat).
    { induction U0 as [| x V IH]; cbn; [lia |]. destruct (existsb (same_name x) (types (comp s))) eqn:A.
      - apply existsb_in in A. apply M in A. apply existsb_in in A. rewrite A. exact IH.
      - cbn. destruct (existsb (same_name x) (types (comp s'))); cbn; [apply le_S | apply le_n_S]; exact IH. }
    induction U as [| x U IH]; [contradiction |]. cbn. specialize (LE U). destruct IU as [-> | IU].
    - apply existsb_in in Y. rewrite Y. destruct (existsb (same_name n) (types (comp s))) eqn:A; [apply existsb_in in A; contradiction |]. cbn. apply le_n_S. exact LE.
    - specialize (IH IU). destruct (existsb (same_name x) (types (comp s))) eqn:A.
      + apply existsb_in in A. apply M in A. apply existsb_in in A. rewrite A. exact IH.
      + cbn. destruct (existsb (same_name x) (types (comp s'))); cbn; [apply le_S | apply le_n_S]; exact IH.
  Qed.

  Lemma run_ok U : (forall u, wanted u -> In (u_name u) U) -> forall fuel q s, inv no_pend q s -> (length (todo U s) < fuel)%nat ->
    exists s', run fs dirs parse fuel q s = Ret s' /\ weak s' /\
      ((errors s' = [] /\ inv no_pend [] s') \/ (errors s' <> [] /\ exists u, wanted u /\ ~ ok u)).
  Proof.
    intros FIN. induction fuel as [| fuel IH]; intros q s I0 F; [lia |]. cbn [run].
    destruct (load_ok q s I0) as (l & q' & s1 & E & W1 & L). rewrite E. cbn [obind]. destruct l as [| n f].
    - eauto.
    - destruct L as (I1 & T1 & NI & LK & TX & WU & CN). rewrite <- T1 in NI. destruct (parse_ok n f q' s1 I1 NI LK TX WU CN) as (us & b & s2 & P & W2 & D). rewrite P.
      assert (INU : In n U) by (destruct WU as (u & WU & <-); apply FIN; exact WU).
      assert (TD : todo U s1 = todo U s) by (unfold todo; rewrite T1; reflexivity).
      destruct D as [(ER & -> & I2 & IN & M) | (ER & BAD)].
      + apply IH; [exact I2 |]. pose proof (todo_less U s1 s2 n INU NI IN M). rewrite TD in H. lia.
      + destruct b; [| exists s2; auto]. assert (P1 : (0 < length (todo U s1))%nat).
        { unfold todo. assert (X : In n (filter (fun n => negb (existsb (same_name n) (types (comp s1)))) U)).
          { apply filter_In. split; [exact INU |]. destruct (existsb _ _) eqn:A; [apply existsb_in in A; contradiction | reflexivity]. }
          destruct (filter _ U); [contradiction | cbn; lia]. }
        rewrite TD in P1. destruct fuel as [| fuel]; [lia |]. cbn [run]. destruct (load_failed (q' ++ us) s2 W2 ER) as (q3 & s3 & E3 & W3 & ER3). rewrite E3. cbn [obind]. exists s3. auto.
  Qed.

  (** When the queue is empty everything is loaded. *)
  Lemma all_done s : inv no_pend [] s -> forall u, wanted u -> done s u.
  Proof.
    intros (W & ER & Q & ST & NEW & US). induction 1 as [u H | u f t u' WU IH N S' U'].
    - destruct (ST u H) as [[] | [D | []]]. exact D.
    - destruct IH as (_ & [I' | M]); [| exfalso; exact (M _ _ S')]. destruct (US u f t WU N I' S') as (_ & B). destruct (B u' U') as [[] | [D | []]]. exact D.
  Qed.
  Lemma all_added s : inv no_pend [] s -> forall n, In n (types (comp s)) /\ ~ In n (types c0) <-> added fs dirs parse c0 start n.
  Proof.
    intros I0 n. pose proof I0 as (W & ER & Q & ST & NEW & US). split.
    - intros (I' & N). destruct (NEW n I' N) as (u & f & t & WU & NU & S' & G & D). exists u, f, t. split; [exact WU |]. split; [exact NU |]. split; [exact S' |]. destruct D; auto.
    - intros (u & f & t & WU & NU & S' & D). destruct (all_done s I0 u WU) as (_ & [I' | M]); [| exfalso; exact (M _ _ S')].
      destruct D as [-> | (A & NA)]; [auto |]. destruct (US u f t WU NU I' S') as (B & _). auto.
  Qed.
End Proofs.

(** ** A compilation *)
Lemma init_ok core df c : well_formed c -> well_formed (init core df c) /\ exists e, types (init core df c) = types c ++ e.
Proof.
  intros W. unfold init. destruct (types c) eqn:T; [| split; [exact W | exists []; rewrite app_nil_r; exact T]].
  destruct (add_types_ok core c W) as (W1 & _ & _ & e & E & _). split; [exact W1 |]. exists e. cbn [types]. rewrite E, T. reflexivity.
Qed.

Lemma rollback_ok c c1 e : well_formed c -> well_formed c1 -> types c1 = types c ++ e ->
  types (rollback (zlen (types c)) c1) = types c /\ (forall m, symtable (rollback (zlen (types c)) c1) m = symtable c m) /\ well_formed (rollback (zlen (types c)) c1).
Proof.
  intros W W1 E. assert (T : types (rollback (zlen (types c)) c1) = types c).
  { cbn [rollback types]. rewrite E, ztake_app_l, ztake_all by lia. reflexivity. }
  assert (S' : forall m, symtable (rollback (zlen (types c)) c1) m = symtable c m).
  { intros m. cbn [rollback symtable]. rewrite E, zdrop_app_r, Z.sub_diag, zdrop_0 by lia. destruct (existsb (same_name m) e) eqn:X.
    - apply existsb_in in X. symmetry. apply wf_out; [exact W |]. intros Y. destruct W1 as (ND & _). rewrite E in ND. clear - ND X Y.
      induction (types c) as [| x l IH]; [contradiction |]. cbn in ND. inversion ND; subst. destruct Y as [<- | Y]; [apply H1; apply in_or_app; right; exact X | auto].
    - assert (NX : ~ In m e) by (intros Y; apply existsb_in in Y; congruence). destruct W as (_ & W). destruct W1 as (_ & W1).
      assert (Q : forall i, symtable c1 m = Some i <-> symtable c m = Some i).
      { intros i. rewrite W, W1, E, znth_app. destruct (i <? zlen (types c)) eqn:L; [reflexivity |]. split; intros H; [exfalso; apply NX; eapply znth_In; exact H |].
        apply znth_Some in H. lia. }
      destruct (symtable c1 m) as [i |]; [symmetry; apply Q; reflexivity |]. destruct (symtable c m) as [i |]; [| reflexivity]. apply Q. reflexivity. }
  split; [exact T |]. split; [exact S' |]. destruct W as (ND & W). split; [rewrite T; exact ND |]. intros n i. rewrite S', T. apply W.
Qed.

Lemma compile_ok fs dirs parse core default_files default_classes check c n file line U fuel :
  let c0 := init core default_files c in
  let start := start_uses default_classes n file line in
  well_formed c ->
  (forall m f, get_class_file (class_files c0) m = Some f -> Forall text_byte (cf_content f)) ->
  (forall p t, fs p = Some t -> Forall in_u8 t) ->
  (forall u m f t, wanted fs dirs parse c0 start u -> ~ In (u_name u) (p_anon (parse m f t))) ->
  (forall u, wanted fs dirs parse c0 start u -> In (u_name u) U) ->
  (length U < fuel)%nat ->
  exists es c', compile fs dirs parse core default_files default_classes fuel check c n file line = Ret (es, c') /\ well_formed c' /\
    ((exists u, wanted fs dirs parse c0 start u /\ ~ use_ok fs dirs parse c0 u) /\ es <> [] \/
     (forall u, wanted fs dirs parse c0 start u -> use_ok fs dirs parse c0 u) /\
     exists c1, es = check c1 /\ (es = [] -> c' = c1) /\ well_formed c1 /\
       (exists new, types c1 = types c0 ++ new /\ forall m, In m new <-> added fs dirs parse c0 start m) /\
       forall m f t, source fs dirs c1 m f t <-> source fs dirs c0 m f t) /\
    (es <> [] -> types c' = types c /\ forall m, symtable c' m = symtable c m).
Proof.
  intros c0 start W GV DK NA FIN FU. destruct (init_ok core default_files c W) as (W0 & e0 & E0). fold c0 in W0, E0.
  assert (I0 : inv fs dirs parse c0 start no_pend start (State c0 [] [])).
  { split; [split; [exact W0 | split; [exists []; symmetry; apply app_nil_r | reflexivity]] |]. split; [reflexivity |]. split; [intros u H; apply W_start; exact H |].
    split; [auto |]. split; [intros m A B; contradiction | intros u f t _ A B; contradiction]. }
  assert (TD : (length (todo U (State c0 [] [])) < fuel)%nat).
  { eapply Nat.le_lt_trans; [| exact FU]. unfold todo. clear. induction U as [| x U IH]; cbn; [apply le_n |]. destruct (negb _); cbn; [apply le_n_S; exact IH | apply le_S; exact IH]. }
  destruct (run_ok fs dirs parse c0 start NA GV DK U FIN fuel start _ I0 TD) as (s & R & (WS & (e & E) & L) & D).
  unfold compile. fold c0 start. rewrite R. cbn [obind].
  assert (RB : forall es : list message, exists c' : compiler, Ret (es, rollback (zlen (types c)) (comp s)) = Ret (es, c') /\ well_formed c' /\ types c' = types c /\ forall m, symtable c' m = symtable c m).
  { intros es. destruct (rollback_ok c (comp s) (e0 ++ e) W WS) as (A & B & C); [rewrite E, E0, app_assoc; reflexivity |]. eauto 6. }
  destruct D as [(ER & I1) | (ER & BAD)].
  - rewrite ER. pose proof (all_done fs dirs parse c0 start s I1) as AD. pose proof (all_added fs dirs parse c0 start s I1) as AA.
    assert (GOOD : (forall u, wanted fs dirs parse c0 start u -> use_ok fs dirs parse c0 u) /\ well_formed (comp s) /\
       (exists new, types (comp s) = types c0 ++ new /\ forall m, In m new <-> added fs dirs parse c0 start m) /\
       forall m f t, source fs dirs (comp s) m f t <-> source fs dirs c0 m f t).
    { split; [intros u H; apply AD; exact H |]. split; [exact WS |]. split.
      - exists e. split; [exact E |]. intros m. rewrite <- AA, E, in_app_iff. split; [| tauto]. intros M. split; [auto |]. intros Y. destruct WS as (ND & _). rewrite E in ND. clear - ND M Y.
        induction (types c0) as [| x l IH]; [contradiction |]. cbn in ND. inversion ND; subst. destruct Y as [<- | Y]; [apply H1; apply in_or_app; right; exact M | auto].
      - intros m f t. rewrite !source_iff, L. reflexivity. }
    destruct GOOD as (G1 & G2 & G3 & G4). destruct (check (comp s)) as [| x es] eqn:CK.
    + exists [], (comp s). split; [reflexivity |]. split; [exact WS |]. split; [| congruence]. right. split; [exact G1 |]. exists (comp s). auto 8.
    + destruct (RB (x :: es)) as (c' & -> & W' & T' & S'). exists (x :: es), c'. split; [reflexivity |]. split; [exact W' |]. split; [| auto]. right. split; [exact G1 |].
      exists (comp s). split; [auto |]. split; [discriminate |]. auto.
  - destruct (errors s) as [| x es] eqn:ES; [congruence |]. destruct (RB (x :: es)) as (c' & -> & W' & T' & S'). exists (x :: es), c'. split; [reflexivity |]. split; [exact W' |]. split; [| auto].
    left. split; [exact BAD | discriminate].
Qed.
