(** * Class names, paths and the characters of class files *)
From Verif Require Import Base CLib FnMem_model Toke_model Toke_spec TokeNum_proofs Utf8_model Utf8_spec Utf8_proofs Lex_model Lex_spec Lex_proofs.
From Verif Require Import Load_model Load_spec.

Lemma same_name_iff a b : same_name a b = true <-> a = b.
Proof. unfold same_name. destruct (list_eq_dec Z.eq_dec a b); split; intros; auto; discriminate. Qed.
Lemma same_name_refl a : same_name a a = true.
Proof. apply same_name_iff. reflexivity. Qed.
Lemma same_name_ne a b : a <> b -> same_name a b = false.
Proof. intros N. destruct (same_name a b) eqn:E; auto. apply same_name_iff in E. congruence. Qed.

(** ** Names *)
Lemma lower_iff c : lower c <-> islower_ascii c = true.
Proof. unfold lower, islower_ascii. lia. Qed.

Lemma part_lower_iff n : part_lower n = true <-> exists a c b, n = a ++ bytes "::" ++ c :: b /\ lower c.
Proof.
  change (bytes "::") with [58; 58]. induction n as [| x n IH].
  - split; [discriminate |]. intros (a & c & b & E & _). destruct a; discriminate.
  - assert (H : (exists a c b, x :: n = a ++ [58; 58] ++ c :: b /\ lower c) <->
      (match n with y :: c :: _ => x = 58 /\ y = 58 /\ lower c | _ => False end) \/ exists a c b, n = a ++ [58; 58] ++ c :: b /\ lower c).
    { split.
      - intros (a & c & b & E & L). destruct a as [| y a]; [injection E as -> ->; left; cbn; auto |]. injection E as -> ->. right. exists a, c, b. auto.
      - intros [H | (a & c & b & -> & L)]; [| exists (x :: a), c, b; auto]. destruct n as [| y [| c n]]; try contradiction. destruct H as (-> & -> & L). exists [], c, n. auto. }
    rewrite H, <- IH. destruct n as [| y n].
    { split; intros E; [right | destruct E as [[] | E]]; destruct (Z.eq_dec x 58) as [-> | N]; auto; revert E; destruct x as [| p |]; auto; repeat (destruct p as [p | p |]; auto); congruence. }
    destruct (Z.eq_dec x 58) as [-> | NX].
    + destruct (Z.eq_dec y 58) as [-> | NY].
      * destruct n as [| c n]; [cbn; intuition |]. change (part_lower (58 :: 58 :: c :: n)) with (islower_ascii c || part_lower (58 :: c :: n)).
        rewrite orb_true_iff, lower_iff. intuition.
      * replace (part_lower (58 :: y :: n)) with (part_lower (y :: n)); [destruct n; intuition |].
        destruct y as [| p |]; try reflexivity. repeat (destruct p as [p | p |]; try reflexivity). congruence.
    + replace (part_lower (x :: y :: n)) with (part_lower (y :: n)); [destruct n; intuition |].
      destruct x as [| p |]; try reflexivity. repeat (destruct p as [p | p |]; try reflexivity). congruence.
Qed.

Lemma prefix_rev n : is_prefix [58; 58] (rev n) = true <-> exists a, n = a ++ bytes "::".
Proof.
  change (bytes "::") with (rev [58; 58]). rewrite is_prefix_spec. split.
  - intros (p & E). exists (rev p). rewrite <- rev_app_distr, <- E, rev_involutive. reflexivity.
  - intros (a & ->). exists (rev a). rewrite rev_app_distr. reflexivity.
Qed.

Lemma first_iff (f : Z -> bool) P n : (forall c, P c <-> f c = true) -> match n with c :: _ => f c | [] => false end = true <-> starts P n.
Proof. intros H. destruct n; cbn; [split; [discriminate | contradiction] | symmetry; apply H]. Qed.

Lemma check_name_ok n : check_name n = None <-> by_compiler n \/ class_name n.
Proof.
  unfold check_name. assert (G : generated n = true <-> by_compiler n).
  { unfold generated, by_compiler. rewrite orb_true_iff, !lacks_iff, !not_false_iff_true. reflexivity. }
  destruct (generated n); [split; auto; intros _; left; apply G; reflexivity |].
  assert (NB : ~ by_compiler n) by (rewrite <- G; discriminate). unfold class_name.
  rewrite <- (first_iff islower_ascii lower n lower_iff), <- (first_iff isdigit_ascii (fun c => 48 <= c <= 57) n) by (unfold isdigit_ascii; lia).
  rewrite !lacks_iff, (begins_iff "::" n). change (bytes "::") with [58; 58] at 2.
  assert (PL : (forall a c b, n = a ++ bytes "::" ++ c :: b -> ~ lower c) <-> part_lower n <> true).
  { rewrite part_lower_iff. split; [intros H (a & c & b & E & L); exact (H a c b E L) | intros H a c b E L; apply H; eauto]. }
  rewrite PL. assert (PR : (forall a, n <> a ++ bytes "::") <-> is_prefix [58; 58] (rev n) <> true).
  { rewrite prefix_rev. split; [intros H (a & E); exact (H a E) | intros H a E; apply H; eauto]. }
  rewrite PR.
  destruct (match n with c :: _ => islower_ascii c | [] => false end); [intuition discriminate |].
  destruct (part_lower n); [intuition discriminate |]. destruct (contains n "__"); [intuition discriminate |].
  destruct (is_prefix [58; 58] (rev n)); [intuition discriminate |]. destruct (contains n "::::"); [intuition discriminate |].
  destruct (is_prefix [58; 58] n); [intuition discriminate |].
  destruct (match n with c :: _ => isdigit_ascii c | [] => false end); intuition discriminate.
Qed.

(** ** Paths *)
Lemma rel_char c t : (forall t', c :: t <> 58 :: 58 :: t') -> rel_path (c :: t) = c :: rel_path t.
Proof.
  intros N. cbn [rel_path]. destruct c as [| p |]; try reflexivity. repeat (destruct p as [p | p |]; try reflexivity).
  destruct t as [| d t]; try reflexivity. destruct d as [| p |]; try reflexivity. repeat (destruct p as [p | p |]; try reflexivity). exfalso. eapply N. reflexivity.
Qed.
Lemma rel_part p t : Forall (fun c => c <> 58) p -> rel_path (p ++ t) = p ++ rel_path t.
Proof. induction 1 as [| c p N P IH]; [reflexivity |]. cbn [app]. rewrite rel_char, IH; [reflexivity |]. intros t' E. injection E as -> _. congruence. Qed.
Lemma rel_path_ok parts : Forall (Forall (fun c => c <> 58)) parts -> rel_path (join (bytes "::") parts) = join (bytes "/") parts ++ bytes ".spvm".
Proof.
  change (bytes "::") with [58; 58]. change (bytes "/") with [47]. induction 1 as [| p parts P F IH]; [reflexivity |]. destruct parts as [| p' parts].
  - cbn [join]. pose proof (rel_part p [] P) as E. rewrite app_nil_r in E. exact E.
  - change (join [58; 58] (p :: p' :: parts)) with (p ++ [58; 58] ++ join [58; 58] (p' :: parts)). change (join [47] (p :: p' :: parts)) with (p ++ [47] ++ join [47] (p' :: parts)).
    rewrite rel_part by exact P. cbn [app rel_path]. rewrite IH, <- !app_assoc. reflexivity.
Qed.

(** ** Texts *)
Lemma until_nul_ok l : Forall in_u8 l -> Forall text_byte (until_nul l).
Proof. unfold text_byte, in_u8. induction 1 as [| c l C L IH]; cbn; [constructor |]. destruct (Z.eqb_spec c 0); constructor; auto. lia. Qed.

(** The terminating 0 stops the decoder. *)
Lemma rd_last s : rd (s ++ [0]) (zlen s) = Ret 0.
Proof. unfold rd. rewrite znth_app. rewrite Z.ltb_irrefl, Z.sub_diag. reflexivity. Qed.
Lemma rd_in s p : 0 <= p < zlen s -> exists b, rd s p = Ret b.
Proof. intros P. unfold rd. destruct (znth_lt s p P) as (x & ->). eauto. Qed.
Lemma iterate_limit s p n : 0 <= p < zlen s -> zlen s - p <= n ->
  utf8_iterate (s ++ [0]) p n = utf8_iterate (s ++ [0]) p (zlen s + 1 - p).
Proof.
  intros P N. unfold utf8_iterate. replace (n =? 0) with false by lia. replace (zlen s + 1 - p =? 0) with false by lia.
  replace (n <? 0) with false by lia. replace (zlen s + 1 - p <? 0) with false by lia. replace (p + (zlen s + 1 - p)) with (zlen s + 1) by lia.
  destruct (rd (s ++ [0]) p) as [uc | | |]; try reflexivity. cbn [obind]. destruct (uc <? 128); [reflexivity |]. destruct (u32 _ >? _); [reflexivity |].
  assert (L : zlen (s ++ [0]) = zlen s + 1) by (rewrite zlen_app; reflexivity).
  destruct (uc <? 224).
  { replace (p + 1 >=? zlen s + 1) with false by lia. destruct (p + 1 >=? p + n) eqn:E; [| reflexivity]. replace (p + 1) with (zlen s) by lia. rewrite rd_last. reflexivity. }
  destruct (rd_in (s ++ [0]) (p + 1)) as (b1 & B1); [lia |].
  destruct (uc <? 240).
  - rewrite B1. cbn [obind]. destruct (Z.eq_dec (p + 1) (zlen s)) as [Q | Q].
    + rewrite Q, rd_last in B1. injection B1 as <-. cbn [utf_cont negb Z.land Z.eqb]. destruct (_ >=? _), (_ >=? _); reflexivity.
    + replace (p + 1 + 1 >=? zlen s + 1) with false by lia. destruct (p + 1 + 1 >=? p + n) eqn:E; [| reflexivity].
      replace (p + 1 + 1) with (zlen s) by lia. rewrite rd_last. cbn [obind]. destruct (negb (utf_cont b1)); reflexivity.
  - rewrite B1. cbn [obind]. destruct (Z.eq_dec (p + 1) (zlen s)) as [Q | Q].
    + rewrite Q, rd_last in B1. injection B1 as <-. cbn [utf_cont negb Z.land Z.eqb]. destruct (_ >=? _), (_ >=? _); reflexivity.
    + destruct (rd_in (s ++ [0]) (p + 1 + 1)) as (b2 & B2); [lia |]. rewrite B2. cbn [obind]. destruct (Z.eq_dec (p + 1 + 1) (zlen s)) as [Q2 | Q2].
      * rewrite Q2, rd_last in B2. injection B2 as <-. change (negb (utf_cont 0)) with true. destruct (negb (utf_cont b1)), (_ >=? _), (_ >=? _); reflexivity.
      * replace (p + 1 + 2 >=? zlen s + 1) with false by lia. destruct (p + 1 + 2 >=? p + n) eqn:E; [| reflexivity].
        replace (p + 1 + 2) with (zlen s) by lia. rewrite rd_last. cbn [obind]. destruct (negb (utf_cont b1)), (negb (utf_cont b2)); reflexivity.
Qed.

Lemma wf_char_first c cp : wf_char c cp -> exists b t, c = b :: t /\ (t = [] <-> b < 128) /\ Forall (fun x => 128 <= x) t /\ (t = [] -> cp = b) /\ (t <> [] -> 128 <= cp).
Proof.
  unfold tail_byte, byte_in. intros W. inversion W; subst; unfold tail_byte, byte_in in *; eexists _, _; (split; [reflexivity |]);
    (split; [split; [intros E; try discriminate E; lia | intros; try reflexivity; exfalso; lia] |]);
    (split; [repeat (constructor; [lia |]); constructor |]); (split; [intros E; try discriminate E; reflexivity | intros E; try congruence; lia]).
Qed.

Lemma check_text_at s : Forall text_byte s -> forall fuel p, 0 <= p <= zlen s -> (zlen s - p <= Z.of_nat fuel) ->
  exists r, check_text fuel s p = Ret r /\ (r = None <-> source_text (zdrop p s)).
Proof.
  intros TB. assert (U8 : Forall in_u8 (s ++ [0])).
  { apply Forall_app. split; [| constructor; [unfold in_u8; lia | constructor]]. eapply Forall_impl; [| exact TB]. unfold text_byte, in_u8. intros. lia. }
  assert (END : forall p, zlen s <= p -> source_text (zdrop p s)).
  { intros p P. rewrite zdrop_all by lia. exists []. split; constructor. }
  induction fuel as [| fuel IH]; intros p P L; cbn [check_text].
  - replace (p <? zlen s) with false by lia. exists None. split; [reflexivity |]. split; auto. intros _. apply END. lia.
  - destruct (p <? zlen s) eqn:E.
    2: { exists None. split; [reflexivity |]. split; auto. intros _. apply END. lia. }
    apply Z.ltb_lt in E. rewrite iterate_limit by lia. rewrite <- (iterate_limit s p (zlen s - p)) by lia.
    assert (DR : zsub (s ++ [0]) p (zlen s - p) = zdrop p s).
    { unfold zsub. rewrite zdrop_app_l by lia. rewrite ztake_app_l by (rewrite zlen_drop; lia). apply ztake_all. rewrite zlen_drop. lia. }
    destruct (iterate_exact (s ++ [0]) p (zlen s - p) U8) as (OK & BAD); [lia | lia | rewrite zlen_app; change (zlen [0]) with 1; lia |]. rewrite DR in OK, BAD.
    assert (DEC : (exists c cp t, zdrop p s = c ++ t /\ wf_char c cp) \/ ~ exists c cp t, zdrop p s = c ++ t /\ wf_char c cp).
    { destruct (iterate_total (s ++ [0]) p (zlen s - p) U8) as (r & c & R & D); [lia | lia | rewrite zlen_app; change (zlen [0]) with 1; lia |].
      destruct (Z_lt_dec 0 r) as [Q | Q].
      - left. destruct (iterate_sound (s ++ [0]) p (zlen s - p) r c U8 ltac:(lia) ltac:(lia) R Q) as (W & ZZ).
        exists (zsub (s ++ [0]) p r), c, (zdrop r (zdrop p s)). split; auto. unfold zsub. rewrite zdrop_app_l, ztake_app_l by (try rewrite zlen_drop; lia). symmetry. apply ztake_zdrop.
      - right. intros (x & cp & t & Y & W). rewrite (OK x cp t Y W) in R. injection R as <- <-. destruct (wf_char_first _ _ W) as (b & t' & -> & _). rewrite zlen_cons in Q. zlen_facts. lia. }
    destruct DEC as [(c & cp & t & DC & W) | NO].
    2: { rewrite (BAD NO). cbn [obind]. change (negb (-3 >? 0)) with true. exists (Some Not_utf8). split; [reflexivity |]. split; [discriminate |].
      intros (cps & W & _). exfalso. apply NO. inversion W as [X | c cp t cps' WC _ X]; subst.
      - apply (f_equal zlen) in X. rewrite zlen_drop in X. change (zlen []) with 0 in X. lia.
      - exists c, cp, t. auto. }
    rewrite (OK c cp t DC W). cbn [obind]. destruct (wf_char_first _ _ W) as (b & t' & -> & SM & TL & CP & CP2).
    assert (ZT : 0 <= zlen t') by apply zlen_nonneg. rewrite zlen_cons. replace (1 + zlen t' >? 0) with true by lia. cbn [negb].
    assert (PB : znth (s ++ [0]) p = Some b).
    { rewrite znth_app. replace (p <? zlen s) with true by lia. destruct (znth_lt s p) as (x & X); [lia |]. rewrite (zdrop_cons s p x X) in DC. injection DC as -> _. exact X. }
    rewrite PB. assert (BB : 0 < b < 256).
    { assert (In b s) as Q by (rewrite znth_app in PB; replace (p <? zlen s) with true in PB by lia; eapply znth_In; exact PB). rewrite Forall_forall in TB. apply TB in Q. unfold text_byte in Q. lia. }
    assert (SPL : source_text (zdrop p s) <-> (32 <= cp <= 126 \/ 9 <= cp <= 12 \/ 128 <= cp) /\ source_text t).
    { split.
      - intros (cps & WW & F). remember (zdrop p s) as z eqn:EZ. destruct WW as [| c' cp' s' cps' WC WS]; [discriminate DC |].
        pose proof (OK _ _ _ eq_refl WC) as E1. pose proof (OK _ _ _ DC W) as E2. rewrite E1 in E2. injection E2 as E2 E3. subst cp'.
        assert (s' = t) as ->. { apply (f_equal (zdrop (zlen c'))) in DC. rewrite zdrop_app_r in DC by lia. rewrite E2, zdrop_app_r, !Z.sub_diag, !zdrop_0 in DC by lia. exact DC. }
        inversion F; subst. split; auto. exists cps'. auto.
      - intros (F & cps & WW & FF). rewrite DC. exists (cp :: cps). split; [constructor; auto | constructor; auto]. }
    assert (REST : zdrop (p + (1 + zlen t')) s = t).
    { replace (p + (1 + zlen t')) with (Z.max 0 (1 + zlen t') + Z.max 0 p) by lia. rewrite <- zdrop_zdrop. rewrite DC, zdrop_app_r by (rewrite zlen_cons; lia). rewrite zlen_cons, Z.sub_diag. apply zdrop_0. lia. }
    destruct (IH (p + (1 + zlen t'))) as (r & R & RS).
    { apply (f_equal zlen) in DC. rewrite zlen_drop, zlen_app, zlen_cons in DC. pose proof (zlen_nonneg t). lia. } { lia. }
    rewrite REST in RS. rewrite R. rewrite <- RS in SPL. clear RS R IH. unfold isprint_ascii, isspace_ascii.
    destruct (Z.eq_dec (zlen t') 0) as [Z0 | Z0].
    + apply zlen_0_nil in Z0. subst t'. specialize (CP eq_refl). subst cp. assert (B8 : b < 128) by tauto. change (1 + zlen []) with 1. cbn [Z.eqb Pos.eqb andb].
      destruct (negb _) eqn:G; [exists (Some Not_printable); split; [reflexivity |]; rewrite SPL; split; [discriminate | lia] |].
      destruct (b =? 13) eqn:G2; [exists (Some Carriage_return); split; [reflexivity |]; rewrite SPL; split; [discriminate | lia] |].
      exists r. split; [reflexivity |]. rewrite SPL. split; [| tauto]. intros ->. split; [lia | reflexivity].
    + replace (1 + zlen t' =? 1) with false by lia. cbn [andb]. exists r. split; [reflexivity |]. rewrite SPL. split; [| tauto]. intros ->. split; [| reflexivity]. right. right. apply CP2. intros ->. apply Z0. reflexivity.
Qed.

Lemma check_text_ok s : Forall text_byte s -> exists r, check_text (length s) s 0 = Ret r /\ (r = None <-> source_text s).
Proof. intros T. destruct (check_text_at s T (length s) 0) as (r & R & S'); [pose proof (zlen_nonneg s); lia | unfold zlen; lia |]. rewrite zdrop_0 in S' by lia. eauto. Qed.
