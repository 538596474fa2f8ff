(** * sprintf as a whole *)
From Verif Require Import Base StM CLib Dec Array_model FnMem_model FnMem_proofs FnStr_model FnStr_spec FnStr_proofs
  StrBuf_model StrBuf_spec StrBuf_proofs
  Format_model Format_spec Format_proofs FormatParse_proofs FormatMain_proofs.

Section Args.
  Context {F D : Type}.
  Variable widen : F -> D.
  Variable text_f text_g : D -> option Z -> list Z.
  Notation converted := (converted widen text_f text_g).
  Notation piece := (piece widen text_f text_g).
  Notation pieces := (pieces widen text_f text_g).
  Notation formats := (formats widen text_f text_g).
  Notation push_arg := (push_arg widen text_f text_g).
  Notation main_loop := (main_loop widen text_f text_g).

  Lemma spec_start t fl w p c : spec_text t fl w p c -> exists t', t = 37 :: t' /\ hd 0 t' <> 37 /\ t' <> [].
  Proof.
    intros H. destruct (parse_complete _ _ _ _ _ [] H) as (t' & -> & P). rewrite app_nil_r in P. exists t'. split; auto.
    split; [| intros ->; discriminate]. destruct t' as [| x t']; [discriminate |]. cbn [hd]. intros ->. discriminate.
  Qed.

  Lemma piece_det s a o1 s1 a1 o2 s2 a2 : piece s a o1 s1 a1 -> piece s a o2 s2 a2 -> s1 = s2 /\ a1 = a2.
  Proof.
    intros P Q. inversion P as [c s' args N | s' args | t fl w p c x v s' args ST CV]; subst; inversion Q as [c2 s2' args2 N2 | s2' args2 | t2 fl2 w2 p2 c2 x2 v2 s2' args2 ST2 CV2]; subst; auto; try congruence.
    - destruct (spec_start _ _ _ _ _ ST2) as (t' & -> & _). cbn [app] in *. congruence.
    - destruct (spec_start _ _ _ _ _ ST2) as (t' & -> & TH & TN). destruct t'; [congruence |]. cbn in *. congruence.
    - destruct (spec_start _ _ _ _ _ ST) as (t' & -> & _). cbn [app] in *. congruence.
    - destruct (spec_start _ _ _ _ _ ST) as (t' & -> & TH & TN). destruct t'; [congruence |]. cbn in *. congruence.
    - match goal with E : t2 ++ s2 = t ++ s1 |- _ => destruct (spec_text_det _ _ _ _ _ _ _ _ _ _ _ _ ST2 ST E) as [-> _] end. auto.
  Qed.

  Lemma pieces_app s a o1 s1 a1 o2 s2 a2 : pieces s a o1 s1 a1 -> pieces s1 a1 o2 s2 a2 -> pieces s a (o1 ++ o2) s2 a2.
  Proof. induction 1; intros Q; auto. rewrite <- app_assoc. econstructor; eauto. Qed.
  Lemma pieces_snoc s a o1 s1 a1 o2 s2 a2 : pieces s a o1 s1 a1 -> piece s1 a1 o2 s2 a2 -> pieces s a (o1 ++ o2) s2 a2.
  Proof. intros P Q. eapply pieces_app; eauto. rewrite <- (app_nil_r o2). econstructor; eauto. constructor. Qed.

  Lemma pieces_formats s a o1 s1 a1 o : pieces s a o1 s1 a1 -> formats s a o -> exists o', formats s1 a1 o'.
  Proof.
    intros P. revert o. induction P as [| s a o1 s1 a1 o2 s2 a2 P PS IH]; intros o (a' & Q); [exists o; exists a'; auto |].
    inversion Q as [| ? ? ? t1 b1 ? ? ? P' Q']; subst.
    - exfalso. inversion P; subst. destruct (spec_start _ _ _ _ _ H0) as (t' & -> & _). discriminate.
    - destruct (piece_det _ _ _ _ _ _ _ _ P P') as [<- <-]. eapply IH. exists a'. eauto.
  Qed.
  Lemma stuck s a o1 s1 a1 : pieces s a o1 s1 a1 -> s1 <> [] -> (forall o s2 a2, ~ piece s1 a1 o s2 a2) -> ~ exists o, formats s a o.
  Proof.
    intros P NE ST (o & Q). destruct (pieces_formats _ _ _ _ _ _ P Q) as (o' & a' & R). inversion R; subst; [congruence |]. eapply ST; eauto.
  Qed.

  Lemma flush_ok s index n b out :
    is_string s -> 0 <= index -> 0 <= n -> index + n <= zlen s -> holds b out -> zlen out + n <= max_length ->
    exists b', flush s index n b = Ret (index + n, b') /\ holds b' (out ++ zsub s index n).
  Proof.
    intros S I N L H M. unfold flush. pose proof S as [FB LS]. destruct (Z.gtb_spec n 0).
    - assert (EL : effective_length s index n = n) by (unfold effective_length; destruct (Z.ltb_spec n 0); [lia | reflexivity]).
      unfold substr. rewrite substr0_ok; rewrite ?EL; auto; try lia. rewrite obind_ret.
      destruct (push_str_ok b out (zsub s index n) H) as (b' & E & H').
      { split; [apply Forall_zsub; auto |]. rewrite zlen_sub by lia. lia. }
      { rewrite zlen_sub by lia. lia. }
      rewrite E, obind_ret. exists b'. split; auto. rewrite wrap32_id by (unfold in_i32; lia). reflexivity.
    - assert (n = 0) by lia. subst n. exists b. rewrite Z.add_0_r. split; auto.
      replace (zsub s index 0) with (@nil Z); [rewrite app_nil_r; auto |]. symmetry. apply zlen_0_nil. rewrite zlen_sub; lia.
  Qed.

  Definition arg_list (args : option (list (option (arg F D)))) : list (option (arg F D)) := match args with Some l => l | None => [] end.

  Lemma zsub_next (s : list Z) i n c l : at_pos s (i + n) (c :: l) -> 0 <= i -> 0 <= n -> zsub s i (n + 1) = zsub s i n ++ [c].
  Proof.
    intros A I N. pose proof (at_len _ _ _ A) as L. rewrite zlen_cons in L. pose proof (zlen_nonneg l). destruct A as [B E].
    assert (Z0 : znth s (i + n) = Some c).
    { pose proof (znth_drop (i + n) s 0) as X. rewrite E in X. cbn in X. rewrite Z.add_0_r, Z.max_r in X by lia. auto. }
    unfold zsub. apply ztake_snoc. rewrite znth_drop. destruct (Z.ltb_spec n 0); [lia |]. rewrite Z.max_r by lia.
    rewrite <- Z0. f_equal.
  Qed.

  Lemma main_ok s args :
    is_string s -> numbers_small s -> Forall arg_ok (arg_list args) -> zlen (arg_list args) <= INT32_MAX ->
    (forall o r a, pieces s (arg_list args) o r a -> zlen o <= max_length) ->
    all_handled widen text_f text_g s (arg_list args) ->
    forall fuel index n count b out rest,
    (length rest < fuel)%nat -> 0 <= index -> 0 <= n -> at_pos s (index + n) rest -> 0 <= count <= zlen (arg_list args) ->
    holds b out -> pieces s (arg_list args) (out ++ zsub s index n) rest (zdrop count (arg_list args)) ->
    match main_loop fuel s args index n count b with
    | Ret (index', n', b') => exists out' a', pieces s (arg_list args) (out' ++ zsub s index' n') [] a' /\ holds b' out' /\
        0 <= index' /\ 0 <= n' /\ index' + n' = zlen s
    | Die _ => ~ exists o, formats s (arg_list args) o
    | _ => False
    end.
  Proof.
    intros S NS AO LA SIZE HA. induction fuel as [| fuel IH]; intros index n count b out rest FU I N A C H P; [lia |].
    cbn [Format_model.main_loop]. pose proof S as [_ LS]. pose proof (at_len _ _ _ A) as AL. pose proof (zlen_nonneg rest) as RN.
    rewrite wrap32_id by (unfold in_i32; lia).
    destruct rest as [| c rest].
    { rewrite (at_nil _ _ A). rewrite zlen_nil in AL. exists out, (zdrop count (arg_list args)). split; auto. split; auto. split; auto. split; auto. lia. }
    destruct (at_cons _ _ _ _ S A) as (E1 & E2 & E3 & A' & BC). rewrite E1, E2, obind_ret, char_eqb by lia. rewrite zlen_cons in AL.
    pose proof (zlen_nonneg rest) as RN'.
    assert (LC : zlen out + n <= max_length).
    { pose proof (SIZE _ _ _ P) as X. rewrite zlen_app, zlen_sub in X by lia. lia. }
    destruct (Z.eqb_spec c 37) as [-> | NC]; cbn [negb].
    2: { rewrite wrap32_id by (unfold in_i32; lia). apply IH with (out := out) (rest := rest); auto; try lia.
         - cbn in FU. lia.
         - rewrite Z.add_assoc. exact A'.
         - rewrite (zsub_next _ _ _ _ _ A) by auto. rewrite app_assoc. eapply pieces_snoc; eauto. constructor; auto. }
    rewrite E3. destruct rest as [| d rest].
    { rewrite (at_nil _ _ A'). rewrite obind_ret. cbn iota. destruct (Z.geb_spec (index + n + 1) (zlen s)).
      - eapply stuck; eauto; [discriminate |]. intros o s2 a2 Q. inversion Q; subst; [congruence |].
        match goal with Y : spec_text _ _ _ _ _ |- _ => destruct (spec_start _ _ _ _ _ Y) as (t' & -> & _ & X) end. destruct t'; [congruence | discriminate].
      - rewrite zlen_nil in AL. lia. }
    destruct (at_cons _ _ _ _ S A') as (F1 & F2 & F3 & A2 & BD). rewrite F1, F2, obind_ret, char_eqb, obind_ret by lia.
    rewrite zlen_cons in AL. pose proof (zlen_nonneg rest) as RN2.
    destruct (Z.eqb_spec d 37) as [-> | ND].
    { (* %% *)
      assert (PP : pieces s (arg_list args) (out ++ zsub s index (n + 1)) rest (zdrop count (arg_list args))).
      { rewrite (zsub_next _ _ _ _ _ A) by auto. rewrite app_assoc. eapply pieces_snoc; eauto. constructor. }
      pose proof (SIZE _ _ _ PP) as X. rewrite zlen_app, zlen_sub in X by lia.
      rewrite (wrap32_id (n + 1)) by (unfold in_i32; lia).
      destruct (flush_ok s index (n + 1) b out S) as (b1 & EF & H1); auto; try lia. rewrite EF, obind_ret.
      rewrite wrap32_id by (unfold in_i32; lia).
      apply IH with (out := out ++ zsub s index (n + 1)) (rest := rest); auto; try lia.
      - cbn in FU. lia.
      - rewrite Z.add_0_r. replace (index + (n + 1) + 1) with (index + n + 1 + 1) by lia. exact A2.
      - replace (zsub s (index + (n + 1) + 1) 0) with (@nil Z); [rewrite app_nil_r; exact PP |].
        symmetry. apply zlen_0_nil. rewrite zlen_sub; lia. }
    destruct (Z.geb_spec (index + n + 1) (zlen s)) as [GE | _]; [lia |].
    destruct (flush_ok s index n b out S) as (b1 & EF & H1); auto; try lia. rewrite EF, obind_ret.
    set (out1 := out ++ zsub s index n) in *.
    assert (NOCHAR : forall o s2 a2, piece (37 :: d :: rest) (zdrop count (arg_list args)) o s2 a2 ->
      exists t fl w p k x v a', spec_text t fl w p k /\ 37 :: d :: rest = t ++ s2 /\ zdrop count (arg_list args) = x :: a' /\ converted k p x v /\ a2 = a').
    { intros o s2 a2 Q. inversion Q as [c' s' args' N' | s' args' | t fl w p k x v s' args' ST CV]; subst; try congruence.
      exists t, fl, w, p, k, x, v, a2. auto. }
    destruct (Z.ltb_spec count (zlen (arg_list args))) as [CL | CG].
    2: { assert (ZD : zdrop count (arg_list args) = []) by (apply zdrop_all; lia).
         assert (G : ~ exists o, formats s (arg_list args) o).
         { eapply stuck; eauto; [discriminate |]. intros o s2 a2 Q. apply NOCHAR in Q as (? & ? & ? & ? & ? & ? & ? & ? & _ & _ & X & _). congruence. }
         destruct args as [l |]; auto. cbn [arg_list] in *. destruct (Z.ltb_spec count (zlen l)); [lia |]. exact G. }
    destruct args as [l |]; [| cbn [arg_list] in CL; rewrite zlen_nil in CL; lia]. cbn [arg_list] in *.
    destruct (Z.ltb_spec count (zlen l)); [| lia].
    destruct (znth_lt l count) as (x & EX); [lia |]. pose proof (zdrop_cons _ _ _ EX) as ZC. rewrite ZC in P, NOCHAR.
    pose proof (parse_ok s (index + n) (d :: rest) S NS A) as PO.
    destruct (parse (d :: rest)) as [[[[[fl w] p] k] r] |] eqn:EP.
    2: { destruct PO as (e & ->). cbn [obind]. eapply stuck; eauto; [discriminate |]. intros o s2 a2 Q.
         apply NOCHAR in Q as (t & fl & w & p & k & x' & v & a' & ST & EQ & _).
         destruct (parse_complete _ _ _ _ _ s2 ST) as (t' & -> & PC). cbn [app] in EQ. injection EQ as EQ. rewrite <- EQ, EP in PC. discriminate. }
    destruct PO as [-> AR]. rewrite obind_ret. unfold elem_get. rewrite EX, obind_ret.
    destruct k as [k |].
    2: { cbn [Format_model.push_arg spec_of sp_conv obind]. eapply stuck; eauto; [discriminate |]. intros o s2 a2 Q.
         apply NOCHAR in Q as (t & fl' & w' & p' & k & x' & v & a' & ST & EQ & _).
         destruct (parse_complete _ _ _ _ _ s2 ST) as (t' & -> & PC). cbn [app] in EQ. injection EQ as EQ. rewrite <- EQ, EP in PC. discriminate. }
    apply parse_sound in EP as (t & ST & ET).
    assert (SMALL : forall ds, Forall Dec.is_digit ds -> (exists u v, 37 :: t = u ++ ds ++ v) -> 0 <= digits_value ds <= INT32_MAX).
    { intros ds FD (u & v & E). split; [apply (dval_mono ds FD 0); lia |].
      apply (NS (ztake (index + n) s ++ u) ds (v ++ r)); auto. destruct A as [_ EA]. rewrite <- (ztake_zdrop (index + n) s), EA, ET at 1.
      change (37 :: t ++ r) with ((37 :: t) ++ r). rewrite E, <- !app_assoc. reflexivity. }
    assert (WP : 0 <= w <= INT32_MAX /\ forall m, p = Some m -> 0 <= m <= INT32_MAX).
    { inversion ST as [flags ds pt q k' FF FD HD PT]; subst. split.
      - apply SMALL; auto. exists (37 :: fl), (pt ++ conv_text k). reflexivity.
      - intros m ->. inversion PT as [| | es EN EF']; subst. apply SMALL; auto. exists (37 :: fl ++ ds ++ [46]), (conv_text k).
        cbn [app]. rewrite <- !app_assoc. reflexivity. }
    destruct WP as [W P'].
    assert (AX : arg_ok x) by (rewrite Forall_forall in AO; apply AO; eapply znth_In; eauto).
    assert (ES : 37 :: d :: rest = (37 :: t) ++ r) by (cbn [app]; f_equal; exact ET).
    destruct (push_arg_ok widen text_f text_g fl w p k x b1 out1 H1 W P' AX) as [(v & CV & OKV) | [NV (e & E)]].
    - assert (PN : pieces s l (out1 ++ padded fl w (with_sign fl k v)) r (zdrop (count + 1) l)).
      { eapply pieces_snoc; eauto. rewrite ES. econstructor; eauto. }
      pose proof (SIZE _ _ _ PN) as X. rewrite zlen_app in X.
      destruct OKV as (b2 & E & H2); auto.
      { eapply HA; eauto. rewrite <- ES. exact P. }
      rewrite E, obind_ret. rewrite wrap32_id by (unfold in_i32; lia).
      apply IH with (out := out1 ++ padded fl w (with_sign fl k v)) (rest := r); auto; try lia.
      + destruct (spec_start _ _ _ _ _ ST) as (t' & [= <-] & _ & TN). apply (f_equal (@length Z)) in ET. rewrite app_length in ET. cbn in ET, FU.
        destruct t; [congruence |]. cbn in ET. lia.
      + destruct AR. lia.
      + rewrite Z.add_0_r. exact AR.
      + replace (zsub s (zlen s - zlen r) 0) with (@nil Z); [rewrite app_nil_r; exact PN |].
        symmetry. apply zlen_0_nil. destruct AR. rewrite zlen_sub; lia.
    - rewrite E. cbn [obind]. eapply stuck; eauto; [discriminate |]. intros o s2 a2 Q.
      apply NOCHAR in Q as (t2 & fl2 & w2 & p2 & k2 & x2 & v2 & a' & ST2 & EQ & EX2 & CV2 & _).
      rewrite ES in EQ. destruct (spec_text_det _ _ _ _ _ _ _ _ _ _ _ _ ST ST2 EQ) as (_ & _ & _ & -> & ->).
      injection EX2 as <- _. exact (NV _ CV2).
  Qed.
End Args.
