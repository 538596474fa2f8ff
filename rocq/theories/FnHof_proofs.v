(** * Proofs about the callback methods *)
From Coq Require Import Permutation.
From Verif Require Import Base StM Array_model Array_spec Array_proofs List_model List_spec List_ring List_proofs
  FnHof_model FnHof_spec.
Import StM.

Definition e_elem : string := "The element must be assigned to the element type of the array.".

Section Hof.
  Context {S A : Type}.
  Variable arr : S -> list A.
  Variable undef : A.
  Variable accepts : A -> bool.
  Hypothesis accepts_undef : accepts undef = true.

  Notation okl l := (Forall (fun x => accepts x = true) l).
  Notation linv l q := (inv undef accepts l (mk_seq q false false)).

  Lemma push_ok l q x : linv l q -> zlen q + 1 <= max_length -> accepts x = true ->
    exists l', ls_push undef accepts x l = (l', Ret tt) /\ linv l' (q ++ [x]).
  Proof.
    intros I B Hx.
    destruct (step_push undef (fun _ => true) accepts accepts_undef l (mk_seq q false false) x I)
      as (l' & Al & I').
    - split; [| auto]. intros l1 r E. cbn in E. inversion E; subst. left.
      rewrite zlen_app. change (zlen [x]) with 1. exact B.
    - cbn [ls_step] in *. unfold wrap_res in *. destruct (ls_push undef accepts x l) as [l2 o]. cbn [fst snd] in *.
      unfold allowed in Al. cbn [seq_op elems] in Al. destruct Al as [[-> E] | []].
      destruct o; cbn [obind] in E; try discriminate. destruct a.
      exists l2. split; auto.
  Qed.

  Lemma push_reject l q x : linv l q -> zlen q + 1 <= max_length -> accepts x = false ->
    exists l', ls_push undef accepts x l = (l', Die e_elem).
  Proof.
    intros (r & off & -> & G & F & H & Sp & Rt) B Hx. cbn [elems stale rotated] in *.
    destruct H as [H1 H2]. destruct (good_off _ _ G) as [GO1 GO2]. zlen_facts.
    destruct (extend_ok undef accepts accepts_undef (zlen q) r off (zlen q + 1))
      as (r1 & E1 & G1 & F1 & N1 & L1 & P1 & U1); auto.
    unfold ls_push. rewrite gets_bind. cbn [ls_length st]. unfold max_length in B.
    rewrite wrap32_id by (unfold in_i32; lia).
    fold (st (zlen q) r off). erewrite bind_ret by exact E1. erewrite bind_ret by apply set_length_st.
    unfold ls_set, gets, bind. cbn [ls_length st].
    destruct (Z.geb_spec (zlen q) 0); [| lia]. destruct (Z.ltb_spec (zlen q) (zlen q + 1)); [| lia].
    fold (st (zlen q + 1) r1 off). rewrite real_index_ok by (auto; lia). cbn [obind].
    destruct (good_off _ _ G1). cbn [st ls_array]. rewrite zlen_arr by lia.
    match goal with |- context [(0 <=? ?i) && (?i <? _)] => assert (0 <= i < zlen r1) end.
    { destruct (Z.ltb_spec (off + zlen q) (zlen r1)); unfold good in G1; lia. }
    match goal with |- context [(0 <=? ?i) && (?i <? ?n)] =>
      replace ((0 <=? i) && (i <? n)) with true by lia end.
    rewrite Hx. eexists. reflexivity.
  Qed.

  Lemma to_array_ok l q : linv l q -> ls_to_array undef accepts l = (fst (ls_to_array undef accepts l), Ret q).
  Proof.
    intros I.
    destruct (step_to_array undef (fun _ => true) accepts accepts_undef l (mk_seq q false false) I) as (l' & Al & _).
    cbn [ls_step] in Al. unfold wrap_res in Al. destruct (ls_to_array undef accepts l) as [l2 o]. cbn [fst snd] in *.
    unfold allowed in Al. cbn [seq_op elems] in Al. destruct Al as [[_ E] | []].
    destruct o; cbn [obind] in E; congruence.
  Qed.

  (** ** The loop, for any body that calls a callback once and pushes a list *)
  Section Loop.
    Context {R : Type}.
    Variable cb : S -> A -> S * outcome R.    (* with the type check of the result *)
    Variable out : A -> R -> list A.
    Variable body : A -> M (S * lst A) unit.
    Variable B : Z.                           (* a call pushes at most so many *)
    Hypothesis B0 : 0 <= B.

    Hypothesis body_ok : forall s l q x, linv l q -> accepts x = true -> zlen q + B <= max_length ->
      match cb s x with
      | (s', Ret r) => exists l', body x (s, l) = ((s', l'), Ret tt) /\ linv l' (q ++ out x r) /\ zlen (out x r) <= B
      | (s', Die e) => exists l', body x (s, l) = ((s', l'), Die e)
      | _ => True
      end.
    Hypothesis keeps : forall s x, zlen (arr (fst (cb s x))) = zlen (arr s) /\
      (okl (arr s) -> okl (arr (fst (cb s x)))).

    Lemma foreach_ok i k s ps s' o : calls arr cb i k s ps s' o ->
      forall l q, 0 <= i -> okl (arr s) -> linv l q -> zlen q + (k - i) * B <= max_length -> k = zlen (arr s) ->
      match o with
      | None => exists l', foreach arr (Z.to_nat (k - i)) i body (s, l) = ((s', l'), Ret tt) /\
                  linv l' (q ++ List.concat (map (fun p => out (fst p) (snd p)) ps))
      | Some e => exists l', foreach arr (Z.to_nat (k - i)) i body (s, l) = ((s', l'), Die e)
      end.
    Proof.
      induction 1 as [k s | i k s x s1 r ps s2 o Hi Hx Hc C IH | i k s x s1 e Hi Hx Hc];
        intros l q I0 Ok I Bd Ek.
      - rewrite Z.sub_diag. cbn. exists l. rewrite app_nil_r. auto.
      - assert (Ax : accepts x = true) by (rewrite Forall_forall in Ok; apply Ok; eapply znth_In; eauto).
        assert (1 * B <= (k - i) * B) by (apply Z.mul_le_mono_nonneg_r; lia).
        pose proof (body_ok s l q x I Ax ltac:(lia)) as Hb. rewrite Hc in Hb.
        destruct Hb as (l1 & Eb & I1 & L1).
        destruct (keeps s x) as [K1 K2]. rewrite Hc in K1, K2. cbn [fst] in *.
        replace (Z.to_nat (k - i)) with (Datatypes.S (Z.to_nat (k - (i + 1)))) by lia.
        cbn [foreach].
        assert (E : forall f : A -> M (S * lst A) unit, bind (fun s0 : S * lst A => (s0, elem_get (arr (fst s0)) i)) f (s, l) = f x (s, l)).
        { intros f. unfold bind, elem_get. cbn [fst]. rewrite Hx. reflexivity. }
        rewrite E. erewrite bind_ret by exact Eb.
        specialize (IH l1 (q ++ out x r)).
        cbn [map List.concat fst snd]. rewrite app_assoc. apply IH; auto; try lia.
        rewrite zlen_app. lia.
      - assert (Ax : accepts x = true) by (rewrite Forall_forall in Ok; apply Ok; eapply znth_In; eauto).
        assert (1 * B <= (k - i) * B) by (apply Z.mul_le_mono_nonneg_r; lia).
        pose proof (body_ok s l q x I Ax ltac:(lia)) as Hb. rewrite Hc in Hb.
        destruct Hb as (l1 & Eb).
        replace (Z.to_nat (k - i)) with (Datatypes.S (Z.to_nat (k - (i + 1)))) by lia.
        cbn [foreach].
        assert (E : forall f : A -> M (S * lst A) unit, bind (fun s0 : S * lst A => (s0, elem_get (arr (fst s0)) i)) f (s, l) = f x (s, l)).
        { intros f. unfold bind, elem_get. cbn [fst]. rewrite Hx. reflexivity. }
        rewrite E. erewrite bind_die by exact Eb. eauto.
    Qed.

    Lemma collect_ok s ps s' o :
      okl (arr s) -> zlen (arr s) * B <= max_length -> calls arr cb 0 (zlen (arr s)) s ps s' o ->
      collect arr undef accepts true true body s =
        (s', match o with None => Ret (List.concat (map (fun p => out (fst p) (snd p)) ps)) | Some e => Die e end).
    Proof.
      intros Ok Bd C. unfold collect. cbn [negb].
      destruct (new_ok undef (fun _ => true) accepts accepts_undef [] (-1)) as (l & E & I);
        [vm_compute; discriminate | vm_compute; discriminate | constructor |].
      rewrite E. pose proof (foreach_ok 0 (zlen (arr s)) s ps s' o C l []) as F.
      rewrite Z.sub_0_r in F. change (zlen []) with 0 in F.
      specialize (F ltac:(lia) Ok I ltac:(lia) eq_refl).
      destruct o as [e |].
      - destruct F as (l' & F). unfold bind. rewrite F. reflexivity.
      - destruct F as (l' & F & I'). cbn [app] in I'. unfold bind. rewrite F. unfold on_local. cbn [snd fst].
        rewrite (to_array_ok _ _ I'). reflexivity.
    Qed.
  End Loop.

  (** Calls exist for every callback that returns or throws. *)
  Lemma calls_total {R} (cb : S -> A -> S * outcome R) :
    proper cb -> (forall s x, zlen (arr (fst (cb s x))) = zlen (arr s)) ->
    forall n i s, 0 <= i -> Z.of_nat n = zlen (arr s) - i ->
    exists ps s' o, calls arr cb i (zlen (arr s)) s ps s' o.
  Proof.
    clear accepts_undef undef accepts. intros Pr K. induction n as [| n IH]; intros i s Hi En.
    - replace i with (zlen (arr s)) by lia. exists [], s, None. constructor.
    - destruct (znth_lt (arr s) i) as [x Hx]; [lia |].
      destruct (cb s x) as [s1 o1] eqn:Ec. specialize (Pr s x). specialize (K s x). rewrite Ec in Pr, K. cbn [fst snd] in *.
      destruct Pr as [[r ->] | [e ->]].
      + destruct (IH (i + 1) s1) as (ps & s2 & o & C); [lia | lia |]. rewrite K in C.
        exists ((x, r) :: ps), s2, o. econstructor; eauto. lia.
      + exists [], s1, (Some e). econstructor; eauto. lia.
  Qed.

  (** ** The three methods *)
  Lemma keeps_only {R} (cb : S -> A -> S * outcome R) ok msg s x :
    fst (only ok msg cb s x) = fst (cb s x).
  Proof. unfold only. destruct (cb s x) as [s' []]; auto. destruct (ok a); auto. Qed.

  Lemma grep_ok cb s ps s' o :
    okl (arr s) -> zlen (arr s) <= max_length -> keeps_array arr accepts cb ->
    calls arr cb 0 (zlen (arr s)) s ps s' o ->
    fn_grep arr undef accepts true true cb s =
      (s', match o with None => Ret (chosen ps) | Some e => Die e end).
  Proof.
    intros Ok Bd K C. unfold fn_grep.
    rewrite (collect_ok cb (fun x r => if r =? 0 then [] else [x]) _ 1 ltac:(lia)) with (ps := ps) (s' := s') (o := o);
      auto; try lia.
    - f_equal. destruct o; auto. f_equal. clear. unfold chosen. induction ps as [| [x r] ps IH]; auto.
      cbn [map List.concat filter fst snd]. rewrite IH. destruct (r =? 0); reflexivity.
    - intros s0 l q x I Ax Bq. unfold bind, call. cbn [fst snd].
      destruct (cb s0 x) as [s1 [r | e | |]]; eauto.
      destruct (Z.eqb_spec r 0); cbn [negb].
      + exists l. rewrite app_nil_r. split; [reflexivity |]. split; auto. change (zlen (@nil A)) with 0. lia.
      + destruct (push_ok l q x I ltac:(lia) Ax) as (l' & E & I').
        exists l'. unfold on_local. cbn [snd fst]. rewrite E. split; auto. split; auto. change (zlen [x]) with 1. lia.
  Qed.

  Lemma map_ok cb s ps s' o :
    okl (arr s) -> zlen (arr s) <= max_length -> keeps_array arr accepts cb ->
    calls arr (only accepts (fun _ => e_elem) cb) 0 (zlen (arr s)) s ps s' o ->
    fn_map arr undef accepts true true cb s =
      (s', match o with None => Ret (answers ps) | Some e => Die e end).
  Proof.
    intros Ok Bd K C. unfold fn_map.
    rewrite (collect_ok (only accepts (fun _ => e_elem) cb) (fun x r => [r]) _ 1 ltac:(lia)) with (ps := ps) (s' := s') (o := o);
      auto; try lia.
    - f_equal. destruct o; auto. f_equal. clear. unfold answers. induction ps as [| [x r] ps IH]; auto.
      cbn [map List.concat fst snd]. rewrite IH. reflexivity.
    - intros s0 l q x I Ax Bq. unfold bind, call, only. cbn [fst snd].
      destruct (cb s0 x) as [s1 [r | e | |]]; eauto.
      unfold on_local. cbn [fst snd].
      destruct (accepts r) eqn:Ar.
      + destruct (push_ok l q r I ltac:(lia) Ar) as (l' & E & I').
        exists l'. rewrite E. split; auto. split; auto. change (zlen [r]) with 1. lia.
      + destruct (push_reject l q r I ltac:(lia) Ar) as (l' & E). exists l'. rewrite E. auto.
    - intros s0 x. rewrite keeps_only. apply K.
  Qed.

  Definition all_accepted (r : option (list A)) : bool :=
    match r with Some ys => forallb accepts ys | None => false end.
  Definition expand_msg (r : option (list A)) : string :=
    match r with Some _ => e_elem | None => "The array must be defined."%string end.

  Lemma push_all_ok ys : forall l q, linv l q -> zlen q + zlen ys <= max_length ->
    if forallb accepts ys
    then exists l', push_all undef accepts ys l = (l', Ret tt) /\ linv l' (q ++ ys)
    else exists l', push_all undef accepts ys l = (l', Die e_elem).
  Proof.
    induction ys as [| y ys IH]; intros l q I Bd; cbn [forallb push_all].
    - exists l. rewrite app_nil_r. auto.
    - rewrite zlen_cons in Bd. pose proof (zlen_nonneg ys). destruct (accepts y) eqn:Ay; cbn [andb].
      + destruct (push_ok l q y I ltac:(lia) Ay) as (l1 & E & I1).
        specialize (IH l1 (q ++ [y]) I1). rewrite zlen_app in IH. change (zlen [y]) with 1 in IH.
        specialize (IH ltac:(lia)). erewrite bind_ret by exact E.
        rewrite <- app_assoc in IH. exact IH.
      + destruct (push_reject l q y I ltac:(lia) Ay) as (l1 & E). erewrite bind_die by exact E. eauto.
  Qed.

  Lemma map_expand_ok cb B s ps s' o :
    okl (arr s) -> 0 <= B -> zlen (arr s) * B <= max_length -> keeps_array arr accepts cb ->
    (forall s0 x s1 ys, cb s0 x = (s1, Ret (Some ys)) -> zlen ys <= B) ->
    calls arr (only all_accepted expand_msg cb) 0 (zlen (arr s)) s ps s' o ->
    fn_map_expand arr undef accepts true true cb s =
      (s', match o with None => Ret (expanded ps) | Some e => Die e end).
  Proof.
    intros Ok B0 Bd K Bc C. unfold fn_map_expand.
    rewrite (collect_ok (only all_accepted expand_msg cb) (fun x r => match r with Some ys => ys | None => [] end)
               _ B B0) with (ps := ps) (s' := s') (o := o); auto; try lia.
    - intros s0 l q x I Ax Bq. unfold bind, call, only. cbn [fst snd].
      destruct (cb s0 x) as [s1 [[ys |] | e | |]] eqn:Ec; eauto; unfold on_local; cbn [fst snd all_accepted expand_msg].
      + specialize (Bc _ _ _ _ Ec). pose proof (push_all_ok ys l q I ltac:(lia)) as P.
        destruct (forallb accepts ys).
        * destruct P as (l' & E & I'). exists l'. rewrite E. auto.
        * destruct P as (l' & E). exists l'. rewrite E. auto.
      + eexists. reflexivity.
    - intros s0 x. rewrite keeps_only. apply K.
  Qed.

  (** ** copy_object with a cloner *)
  Lemma clone_loop_ok cloner offset len : 
    keeps_array arr accepts cloner ->
    forall i k s ps s' o, calls arr (only accepts (fun _ => e_elem) cloner) i k s ps s' o ->
    forall out, 0 <= offset <= i -> k = offset + len -> k <= INT32_MAX -> k <= zlen (arr s) -> zlen out = len ->
    match o with
    | None => clone_loop arr accepts cloner offset (Z.to_nat (k - i)) (i - offset) (s, out) =
                ((s', ztake (i - offset) out ++ answers ps), Ret tt)
    | Some e => exists out', clone_loop arr accepts cloner offset (Z.to_nat (k - i)) (i - offset) (s, out) = ((s', out'), Die e)
    end.
  Proof.
    clear accepts_undef undef. intros K. induction 1 as [k s | i k s x s1 r ps s2 o Hi Hx Hc C IH | i k s x s1 e Hi Hx Hc];
      intros out Ho Ek Km Kl Lo.
    - rewrite Z.sub_diag. cbn. rewrite app_nil_r. rewrite ztake_all by lia. reflexivity.
    - unfold only in Hc. destruct (cloner s x) as [s1' [r' | | |]] eqn:Ec; try discriminate.
      destruct (accepts r') eqn:Ar; inversion Hc; subst s1' r'.
      destruct (K s x) as [K1 _]. rewrite Ec in K1. cbn [fst] in K1.
      assert (STEP : clone_loop arr accepts cloner offset (Z.to_nat (k - i)) (i - offset) (s, out) =
        clone_loop arr accepts cloner offset (Z.to_nat (k - (i + 1))) (i + 1 - offset) (s1, zupd out (i - offset) r)).
      { replace (Z.to_nat (k - i)) with (Datatypes.S (Z.to_nat (k - (i + 1)))) by lia.
        cbn [clone_loop]. unfold bind, call, on_local, elem_get, elem_set. cbn [fst snd].
        rewrite wrap32_id by (unfold in_i32; lia). replace (offset + (i - offset)) with i by lia. rewrite Hx, Ec.
        cbn [fst snd].
        replace ((0 <=? i - offset) && (i - offset <? zlen out)) with true by lia. rewrite Ar.
        replace (i - offset + 1) with (i + 1 - offset) by lia. reflexivity. }
      rewrite STEP.
      specialize (IH (zupd out (i - offset) r)).
      rewrite zlen_upd in IH. specialize (IH ltac:(lia) Ek Km ltac:(lia) Lo).
      destruct o; [exact IH |]. rewrite IH. do 2 f_equal.
      cbn [answers map snd]. change (r :: map snd ps) with ([r] ++ answers ps). rewrite app_assoc. f_equal.
      apply znth_ext. intros p Hp. rewrite znth_app, !znth_take, znth_upd, zlen_take, znth_cons.
      change (Z.of_nat 0) with 0. rewrite ?znth_nil.
      destruct (Z.ltb_spec p (i - offset)).
      + replace (p <? Z.min (Z.max 0 (i - offset)) (zlen out)) with true by lia.
        replace (p <? i + 1 - offset) with true by lia.
        destruct (Z.eqb_spec p (i - offset)); [lia |]. cbn [andb].
        repeat match goal with |- context [if ?b then _ else _] => destruct b eqn:?; try lia end; auto.
      + replace (p <? Z.min (Z.max 0 (i - offset)) (zlen out)) with false by lia.
        repeat match goal with |- context [if ?b then _ else _] => destruct b eqn:?; try lia end; auto.
    - unfold only in Hc. replace (Z.to_nat (k - i)) with (Datatypes.S (Z.to_nat (k - (i + 1)))) by lia.
      cbn [clone_loop]. unfold bind, call, on_local, elem_get, elem_set. cbn [fst snd].
      rewrite wrap32_id by (unfold in_i32; lia). replace (offset + (i - offset)) with i by lia. rewrite Hx.
      destruct (cloner s x) as [s1' [r' | e' | |]]; try discriminate.
      + destruct (accepts r') eqn:Ar; inversion Hc; subst.
        cbn [fst snd].
        replace ((0 <=? i - offset) && (i - offset <? zlen out)) with true by lia. eauto.
      + inversion Hc; subst. eauto.
  Qed.
End Hof.
