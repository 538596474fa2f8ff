(** * The tokens of a text: strings, here documents and the whole *)
From Verif Require Import Base CLib CStrto FnMem_model FnNum_spec FnNum_proofs Toke_model Toke_spec TokeNum_proofs TokeStr_proofs TokeExp_proofs Toke_props.
From Verif Require Import Lex_model Lex_spec Lex_proofs LexTurn_proofs LexMain_proofs.

(** ** What follows a literal matters by its first character only *)
Definition same_first (r r' : list Z) : Prop := exists c a b, r = c :: a /\ r' = c :: b.
Lemma same_first_app t r r' : same_first r r' -> same_first (t ++ r) (t ++ r').
Proof. intros (c & a & b & -> & ->). destruct t as [| d t]; [exists c, a, b; auto | exists d, (t ++ c :: a), (t ++ c :: b); auto]. Qed.
Lemma starts_ext f r r' : same_first r r' -> starts f r <-> starts f r'.
Proof. intros (c & a & b & -> & ->). reflexivity. Qed.
Lemma some_digits_ext base f n ds r r' v : same_first r r' -> some_digits base f n ds r v -> some_digits base f n ds r' v.
Proof. intros S (A & B & C). split; auto. split; auto. rewrite <- (starts_ext f r r' S). exact C. Qed.
Lemma piece_ext t bs r r' : same_first r r' -> piece t bs r -> piece t bs r'.
Proof.
  intros S P. destruct P as [c rest A B C E | rest | t v rest BE | rest | ds cp bs rest N L W | c rest I N].
  - apply P_plain; auto.
  - destruct S as (c & a & b & E & ->). injection E as <- _. apply P_dollar.
  - apply P_byte. destruct BE as [c v rest I | ds v rest SD V | ds v rest N Z V | ds v rest SD | ds v rest N Z].
    + apply E_letter; auto.
    + apply E_octal; auto. eapply some_digits_ext; eauto.
    + apply E_octal_brace; auto.
    + apply E_hex. eapply some_digits_ext; eauto.
    + apply E_hex_brace; auto.
  - apply P_escaped_dollar.
  - eapply P_unicode; eauto.
  - apply P_raw; auto. intros E. rewrite <- (starts_ext _ _ _ S). auto.
Qed.
Lemma body_ext t bs r r' : same_first r r' -> body t bs r -> body t bs r'.
Proof.
  intros S B. revert r' S. induction B as [r | t bs t' bs' r P B IH]; intros r' S; [constructor |]. constructor; [| apply IH; exact S].
  eapply piece_ext; [| exact P]. apply same_first_app, S.
Qed.
Lemma after_var_ext rest : after_var rest -> after_var (rest ++ [0]).
Proof.
  unfold after_var. intros (A & B & C & E & G & NE & H). destruct rest as [| c rest]; [congruence |]. cbn [app starts] in *. repeat split; auto; [discriminate |].
  intros X. destruct (H X) as (d & r & R & N). injection R as -> ->. exists d, (r ++ [0]). auto.
Qed.
Lemma expansion_ext v rest : expansion v rest -> expansion v (rest ++ [0]).
Proof.
  intros [n a r A B C E | n r A | n r A B C | n r A | r | r];
    [apply X_var | apply X_brace | apply X_ref | apply X_ref_brace | apply X_exception | apply X_exception_brace]; auto using after_var_ext.
Qed.

Lemma string_at_ne F D l f str ts : @string_at F D l f str ts -> str <> [].
Proof. intros [l0 f0 t bs rest ts0 B l' R | l0 f0 t bs v vs rest ts0 B E l' L R]; destruct t; discriminate. Qed.

Section Reads.
  Context (F D : Type) (strtof : list Z -> F * Z) (strtod : list Z -> D * Z) (fneg : F -> F) (dneg : D -> D) (src : list Z).
  Local Notation turn := (turn F D strtof strtod fneg dneg src).
  Local Notation turns := (turns F D strtof strtod fneg dneg src).
  Local Notation yylex := (yylex F D strtof strtod fneg dneg src).
  Local Notation tokens := (tokens F D strtof strtod fneg dneg src).
  Local Notation dispatch := (dispatch F D strtof strtod fneg dneg src).
  Local Notation rep := (rep src).
  Local Notation after := (after F D src).
  Local Notation token := (token (constant F D)).

  Definition is_end (t : token) : bool := match t with Tok "END_OF_FILE" _ => true | _ => false end.
  Lemma end_match {A} (t : token) (a b : A) : (match t with Tok "END_OF_FILE" _ => a | _ => b end) = if is_end t then a else b.
  Proof.
    unfold is_end. destruct t as [t o | | | | |]; try reflexivity.
    repeat match goal with |- (match ?x with _ => _ end) = _ => destruct x; try reflexivity end.
  Qed.

  Lemma operators_end t k : In (t, k) operators -> is_end (Tok (fst k) (snd k)) = false.
  Proof.
    intros I. assert (A : forallb (fun e => negb (is_end (Tok (fst (snd e)) (snd (snd e))))) operators = true) by (vm_compute; reflexivity).
    rewrite forallb_forall in A. specialize (A _ I). cbn [snd] in A. apply negb_true_iff in A. exact A.
  Qed.
  Lemma keywords_end t k : In (t, k) keywords -> is_end (Tok (fst k) (snd k)) = false.
  Proof.
    intros I. assert (A : forallb (fun e => negb (is_end (Tok (fst (snd e)) (snd (snd e))))) keywords = true) by (vm_compute; reflexivity).
    rewrite forallb_forall in A. specialize (A _ I). cbn [snd] in A. apply negb_true_iff in A. exact A.
  Qed.
  Lemma lexeme_end x p t q : lexeme x p t q -> is_end t = false.
  Proof. intros L. destruct L; try reflexivity; try (eapply operators_end; eassumption). eapply keywords_end; eassumption. Qed.

  Lemma tokens_end n fuel s t s' : yylex fuel s = Ret (t, s') -> is_end t = true -> tokens (S n) fuel s = Ret [(t, current_line s', current_file s')].
  Proof. intros Y E. cbn [Lex_model.tokens]. rewrite Y. cbn [obind]. rewrite end_match, E. reflexivity. Qed.
  Lemma tokens_step n fuel s t s' : yylex fuel s = Ret (t, s') -> is_end t = false ->
    tokens (S n) fuel s = let! l := tokens n fuel s' in Ret ((t, current_line s', current_file s') :: l).
  Proof. intros Y E. cbn [Lex_model.tokens]. rewrite Y. cbn [obind]. rewrite end_match, E. reflexivity. Qed.

  Lemma rep_go pre p s : rep pre p s -> rep pre p (go s (ch_ptr s)).
  Proof. intros R. exact R. Qed.
  Lemma rep_len pre p s : rep pre p s -> (length (text p) < length src)%nat.
  Proof. intros (A & _). rewrite A, !app_length. cbn. lia. Qed.

  Lemma skips_turns p q : skips p q -> forall pre f s, rep pre p s -> next_literal s = None -> was_heredoc f = false ->
    exists n s' pre', (n + length (text q) <= length (text p))%nat /\ rep pre' q s' /\ next_literal s' = None /\
      forall fuel, turns (n + fuel) f V_none false s = turns fuel f V_none false s'.
  Proof.
    induction 1 as [p | p q r S SS IH]; intros pre f s R N H; [exists 0%nat, s, pre; auto |].
    destruct (skip_turn F D strtof strtod fneg dneg src p q S pre f s R N H) as (s1 & pre1 & T & R1 & N1 & L).
    destruct (IH pre1 f s1 R1 N1 H) as (n & s' & pre' & L' & R' & N' & T'). exists (Datatypes.S n), s', pre'. split; [lia |]. split; auto. split; auto.
    intros fuel. cbn [Nat.add Lex_model.turns]. rewrite T. cbn [obind]. apply T'.
  Qed.

  Definition FUEL : nat := S (S (length src)).

  (** A call with layout in front of the token. *)
  Lemma yylex_skips x p q : skips p q -> forall pre s, rep pre p s -> flags x s -> next_literal s = None -> expansion_state s = V_none ->
    exists s' pre' fuel, rep pre' q s' /\ next_literal s' = None /\ yylex FUEL s = turns (S (S fuel)) s V_none false s'.
  Proof.
    intros SK pre s R FL N E. destruct (skips_turns p q SK pre s (go s (ch_ptr s)) (rep_go _ _ _ R) N) as (n & s' & pre' & L & R' & N' & T); [apply FL |].
    pose proof (rep_len _ _ _ R) as LS. exists s', pre', (length src - n)%nat. split; auto. split; auto. unfold Lex_model.yylex. rewrite E, <- T. f_equal. unfold FUEL. lia.
  Qed.

  Lemma lexemes_longer x p ts q : @lexemes F D x p ts q -> (length (text q) <= length (text p))%nat.
  Proof. induction 1 as [| x p t q ts r L LS IH]; [auto |]. apply lexeme_shorter in L. lia. Qed.

  Lemma lexemes_tokens x p ts q : lexemes x p ts q -> forall n pre s, rep pre p s -> flags x s -> expansion_state s = V_none \/ expansion_state s = V_var ->
    next_literal s = Some n -> length n = (length (text q) + 1)%nat ->
    exists s' pre', rep pre' q s' /\ next_literal s' = Some n /\
      forall k, tokens (length ts + k) FUEL s = let! l := tokens k FUEL s' in Ret (ts ++ l).
  Proof.
    induction 1 as [x p | x p t q ts r L LS IH]; intros n pre s R FL E N LN.
    - exists s, pre. split; auto. split; auto. intros k. cbn [length Nat.add app]. destruct (tokens k FUEL s); reflexivity.
    - pose proof (lexemes_longer _ _ _ _ LS) as LL.
      destruct (lexeme_turns F D strtof strtod fneg dneg src x p t q L pre s (expansion_state s) (go s (ch_ptr s)) (rep_go _ _ _ R) FL E) with (fuel := length src)
        as (s1 & T & (pre1 & R1) & FL1 & N1 & E1); [cbn [go next_literal]; rewrite N; lia |].
      cbn [go next_literal] in N1. rewrite N in N1.
      destruct (IH n pre1 s1 R1 FL1 (or_introl E1) N1 LN) as (s' & pre' & R' & N' & T'). exists s', pre'. split; auto. split; auto. intros k.
      cbn [length Nat.add]. rewrite (tokens_step _ FUEL s t s1 T (lexeme_end _ _ _ _ L)), T'. destruct R1 as (_ & _ & C1 & C2 & _). rewrite C1, C2.
      destruct (tokens k FUEL s'); reflexivity.
  Qed.

  Hypothesis small : 4 * zlen src <= INT32_MAX.

  Lemma rep_small pre (u : list Z) : src = pre ++ u -> forall t r, u = t ++ r -> 4 * zlen t <= INT32_MAX.
  Proof. intros S t r ->. rewrite S, !zlen_app in small. pose proof (zlen_nonneg pre). pose proof (zlen_nonneg r). lia. Qed.

  Lemma yylex_next s t s' : expansion_state s = V_next_literal -> next_literal s = None -> Nat.leb (length (ch_ptr s)) 1 = false ->
    quoted F D (go s (ch_ptr s)) (ch_ptr s) = Ret (Got F D t s') -> yylex FUEL s = Ret (t, s').
  Proof.
    intros E N L Q. unfold Lex_model.yylex. rewrite E.
    assert (T : turn s V_next_literal false (go s (ch_ptr s)) = Ret (Got F D t s', V_next_literal)).
    { assert (C : ch_ptr (go s (ch_ptr s)) = ch_ptr s) by reflexivity. assert (NG : next_literal (go s (ch_ptr s)) = None) by exact N.
      unfold Lex_model.turn. rewrite C, L, NG. cbn [at_opt]. rewrite C, Q. reflexivity. }
    unfold FUEL. cbn [Lex_model.turns]. rewrite T. reflexivity.
  Qed.

  Definition P_reads (x : context) (p : pos) (ts : list (token * Z * list Z)) : Prop :=
    forall pre s, rep pre p s -> flags x s -> next_literal s = None -> expansion_state s = V_none -> tokens (length ts) FUEL s = Ret ts.
  Definition P_string (l : Z) (f : list Z) (str : list Z) (ts : list (token * Z * list Z)) : Prop :=
    forall pre s, src = pre ++ str ++ [0] -> pre <> [] -> current_line s = l -> current_file s = f -> next_literal s = None ->
    exists t s' ts', quoted F D s (str ++ [0]) = Ret (Got F D t s') /\ ts = (t, current_line s', current_file s') :: ts' /\ is_end t = false /\
      tokens (length ts') FUEL s' = Ret ts'.

  Scheme reads_rec := Minimality for reads Sort Prop
    with string_rec := Minimality for string_at Sort Prop.
  Combined Scheme reads_string from reads_rec, string_rec.

  Lemma reads_string_ok : (forall x p ts, reads x p ts -> P_reads x p ts) /\ (forall l f str ts, string_at l f str ts -> P_string l f str ts).
  Proof.
    apply reads_string.
    - (* end *) intros x p q SK T pre s R FL N E. destruct (yylex_skips x p q SK pre s R FL N E) as (s' & pre' & fuel & R' & N' & Y).
      destruct R' as (_ & P & C1 & C2 & _). cbn [length].
      rewrite (tokens_end 0 FUEL s (Tok "END_OF_FILE" "END_OF_FILE") (go s' (ch_ptr s'))); [cbn [go current_line current_file]; rewrite C1, C2; reflexivity | | reflexivity].
      rewrite Y. cbn [Lex_model.turns]. unfold Lex_model.turn. rewrite P, T. reflexivity.
    - (* __END__ *) intros x p q rest SK XF T NS NF pre s R FL N E. destruct (yylex_skips x p q SK pre s R FL N E) as (s' & pre' & fuel & R' & N' & Y).
      pose proof R' as (_ & P & C1 & C2 & _). cbn [length].
      rewrite (tokens_end 0 FUEL s (Tok "END_OF_FILE" "END_OF_FILE") (go s' (skipn (length src - 1) src))); [cbn [go current_line current_file]; rewrite C1, C2; reflexivity | | reflexivity].
      rewrite Y. apply (one_turn F D strtof strtod fneg dneg src s V_none s' _ _ (text q)); auto; [rewrite T; discriminate | rewrite N'; reflexivity | left; split; auto; apply FL |].
      destruct (fat_comma_ok rest) as (b & FC & FB). assert (b = false) by (destruct b; [exfalso; apply NF, FB; reflexivity | reflexivity]). subst b.
      assert (BC : ch_ptr s' = 95 :: [95; 69; 78; 68; 95; 95] ++ rest ++ [0]) by (rewrite P, T; reflexivity).
      assert (VN : var_name [95; 69; 78; 68; 95; 95]) by (repeat (constructor; [unfold word; qlia |]); constructor).
      rewrite (dispatch_symbol F D strtof strtod fneg dneg src s false s' 95 [95; 69; 78; 68; 95; 95] rest BC); auto; [| apply not_q; auto; left; lia].
      rewrite (symbol_step F D src s s' 95 [95; 69; 78; 68; 95; 95] rest BC VN NS false FC). cbv zeta. destruct FL as (_ & -> & -> & _). rewrite XF. reflexivity.
    - (* token *) intros x p q t r ts SK L RD IH pre s R FL N E. destruct (yylex_skips x p q SK pre s R FL N E) as (s' & pre' & fuel & R' & N' & Y).
      destruct (lexeme_turns F D strtof strtod fneg dneg src x q t r L pre' s V_none s' R' FL (or_introl eq_refl)) with (fuel := fuel)
        as (s1 & T1 & (pre1 & R1) & FL1 & N1 & E1); [rewrite N'; exact I |].
      cbn [length]. rewrite (tokens_step _ FUEL s t s1); [| rewrite Y; exact T1 | eapply lexeme_end; eauto]. rewrite (IH pre1 s1 R1 FL1); [| congruence | exact E1].
      destruct R1 as (_ & _ & C1 & C2 & _). rewrite C1, C2. reflexivity.
    - (* here document *) intros x p q n ls rest ts SK T DN LS NE e RD IH pre s R FL N E.
      destruct (yylex_skips x p q SK pre s R FL N E) as (s' & pre' & fuel & R' & N' & Y). pose proof R' as (A & P & C1 & C2 & _). cbn [length].
      set (d := concat (map (fun u => u ++ [10]) ls)) in *.
      set (s1 := with_flags (ticks (zlen ls + 2) (rest ++ [0]) (go s' (rest ++ [0]))) false true false false V_none).
      assert (B : ch_ptr s' = 60 :: 60 :: 39 :: n ++ bytes "';" ++ 10 :: d ++ n ++ 10 :: rest ++ [0]).
      { rewrite P, T, <- !app_assoc. change (bytes "<<'") with [60; 60; 39]. cbn [app]. rewrite <- !app_assoc. cbn [app]. reflexivity. }
      rewrite (tokens_step _ FUEL s (Str d) s1); [| | reflexivity].
      2: { rewrite Y. apply (one_turn F D strtof strtod fneg dneg src s V_none s' _ _ (text q)); auto; [rewrite T; discriminate | rewrite N'; reflexivity | left; split; auto; apply FL |].
        unfold LexTurn_proofs.dispatch. rewrite B. cbn [deref obind next tl is_prefix skipn]. pose proof (here_document_ok n ls (rest ++ [0]) DN LS) as HD. fold d in HD. rewrite HD. reflexivity. }
      assert (N1 : next_literal s1 = None) by exact N'.
      set (s2 := go s1 (ch_ptr s1)).
      rewrite (tokens_step _ FUEL s1 (Tok ";" "DO_NOTHING") s2); [| | reflexivity].
      2: { unfold Lex_model.yylex, FUEL. cbn [Lex_model.turns]. unfold Lex_model.turn. cbn [ch_ptr go s1 with_flags ticks].
        replace (Nat.leb (length (rest ++ [0])) 1) with false by (symmetry; apply Nat.leb_gt; rewrite app_length; destruct rest; [congruence | cbn; lia]).
        cbn [next_literal go s1 with_flags ticks]. rewrite N'. reflexivity. }
      cbn [current_line current_file s1 s2 go ticks with_flags].
      rewrite (IH (pre' ++ (bytes "<<'" ++ n ++ bytes "';" ++ 10 :: d ++ n) ++ [10]) s2).
      + rewrite C1, C2. cbn [obind]. subst e. cbn [at_line at_file]. rewrite !Z.add_assoc. reflexivity.
      + apply (rep_line src pre' q s' (bytes "<<'" ++ n ++ bytes "';" ++ 10 :: d ++ n) rest); auto; [rewrite T, <- !app_assoc; cbn [app]; rewrite <- !app_assoc; reflexivity | |].
        * cbn [line_begin s1 s2 go ticks with_flags]. replace (zlen ls + 2 =? 0) with false by (pose proof (zlen_nonneg ls); lia). reflexivity.
        * cbn [current_line s1 s2 go ticks with_flags]. lia.
      + repeat split.
      + exact N'.
      + reflexivity.
    - (* string *) intros x p q str ts SK T ST IH pre s R FL N E.
      destruct (yylex_skips x p q SK pre s R FL N E) as (s' & pre' & fuel & R' & N' & Y). pose proof R' as (A & P & C1 & C2 & _).
      destruct (IH (pre' ++ [34]) s') as (t & s1 & ts' & Q & -> & NE & TK); auto; [rewrite A, T, <- app_assoc; reflexivity | destruct pre'; discriminate |].
      cbn [length]. rewrite (tokens_step _ FUEL s t s1); [rewrite TK; reflexivity | | exact NE].
      rewrite Y. apply (one_turn F D strtof strtod fneg dneg src s V_none s' _ _ (text q)); auto; [rewrite T; discriminate | rewrite N'; reflexivity | left; split; auto; apply FL |].
      unfold LexTurn_proofs.dispatch. rewrite P, T. cbn [app deref obind next tl]. exact Q.
    - (* the end of a string *) intros l f t bs rest ts B l' RD IH pre s S NE CL CF N.
      assert (SL : string_literal (Datatypes.S (length ((t ++ 34 :: rest) ++ [0]))) ((t ++ 34 :: rest) ++ [0]) = Ret (bs, rest ++ [0], None)).
      { rewrite <- app_assoc. cbn [app]. apply C49_string; [| | rewrite !app_length; cbn; lia].
        - eapply body_ext; [| exact B]. exists 34, rest, (rest ++ [0]). auto.
        - eapply rep_small; [exact S |]. rewrite <- app_assoc. reflexivity. }
      assert (NL : newlines (between ((t ++ 34 :: rest) ++ [0]) (rest ++ [0])) = count_lines t).
      { replace ((t ++ 34 :: rest) ++ [0]) with ((t ++ [34]) ++ rest ++ [0]) by (rewrite <- !app_assoc; reflexivity). rewrite between_app, newlines_count, count_lines_app.
        change (count_lines [34]) with 0. lia. }
      set (s1 := ticks (count_lines t) (rest ++ [0]) (go s (rest ++ [0]))). exists (Str bs), s1, ts. split; [| split; [| split; [reflexivity |]]].
      + unfold quoted. rewrite SL. cbn [obind]. rewrite NL. reflexivity.
      + subst l'. cbn [s1 current_line current_file ticks go]. rewrite CL, CF. reflexivity.
      + apply (IH (pre ++ t ++ [34])); [| repeat split | exact N | reflexivity].
        unfold LexTurn_proofs.rep. cbn [text at_line at_file at_place]. split; [rewrite S, <- !app_assoc; reflexivity |]. split; [reflexivity |]. split; [cbn; subst l'; lia |]. split; [exact CF |].
        split; [destruct pre; [congruence | discriminate] |]. intros _. rewrite app_assoc, last_last. lia.
    - (* a variable in a string *) intros l f t bs v vs rest ts B X l' LX ST IH pre s S NE CL CF N.
      set (p1 := 36 :: v ++ rest ++ [0]).
      assert (ES : (t ++ 36 :: v ++ rest) ++ [0] = t ++ p1) by (unfold p1; rewrite <- !app_assoc; cbn [app]; rewrite <- app_assoc; reflexivity).
      assert (SL : string_literal (Datatypes.S (length (t ++ p1))) (t ++ p1) = Ret (bs, p1, Some (rest ++ [0]))).
      { apply C49_expansion; [| apply expansion_ext, X | | unfold p1; rewrite app_length; cbn [length]; rewrite app_length; lia].
        - eapply body_ext; [| exact B]. exists 36, (v ++ rest), (v ++ rest ++ [0]). auto.
        - eapply rep_small; [exact S |]. exact ES. }
      assert (NL : newlines (between (t ++ p1) p1) = count_lines t) by (rewrite between_app; reflexivity).
      set (s1 := with_flags (with_next (ticks (count_lines t) (next p1) (go s p1)) (Some (rest ++ [0]))) false false false false V_first_concat).
      set (C := Tok "." "STRING_CONCAT" : token).
      exists (Str bs), s1, ((C, l', f) :: vs ++ (C, l', f) :: ts). split; [| split; [| split; [reflexivity |]]].
      + unfold quoted. rewrite ES, SL. cbn [obind]. rewrite NL. reflexivity.
      + subst l'. cbn [s1 current_line current_file ticks go with_flags with_next]. rewrite CL, CF. reflexivity.
      + (* first . *)
        assert (CL1 : current_line s1 = l') by (cbn; subst l'; lia). assert (CF1 : current_file s1 = f) by exact CF.
        assert (P1 : ch_ptr s1 = p1) by reflexivity. assert (NX1 : next_literal s1 = Some (rest ++ [0])) by reflexivity. assert (EX1 : expansion_state s1 = V_first_concat) by reflexivity.
        clearbody s1. set (s2 := with_flags (go s1 p1) false false false false V_var).
        assert (L1 : Nat.leb (length p1) 1 = false) by (apply Nat.leb_gt; unfold p1; cbn [length]; rewrite !app_length; cbn; lia).
        assert (L2 : Nat.eqb (length (rest ++ [0])) (length p1) = false) by (apply Nat.eqb_neq; unfold p1; cbn [length]; rewrite !app_length; cbn; lia).
        cbn [length]. rewrite (tokens_step _ FUEL s1 C s2); [| | reflexivity].
        2: { unfold Lex_model.yylex, FUEL. cbn [Lex_model.turns]. unfold Lex_model.turn. cbn [ch_ptr next_literal go]. rewrite P1, L1, NX1, EX1. unfold at_opt, at_ptr. rewrite L2. reflexivity. }
        (* the variable *)
        assert (R2 : rep (pre ++ t) (Pos Inside l' f (36 :: v ++ rest)) s2).
        { unfold LexTurn_proofs.rep. cbn [text at_line at_file at_place]. split; [rewrite S, <- !app_assoc; reflexivity |].
          split; [cbn; unfold p1; rewrite <- app_assoc; reflexivity |]. split; [exact CL1 |]. split; [exact CF1 |]. split; [destruct pre; [congruence | discriminate] |]. intros Y. discriminate Y. }
        destruct (lexemes_tokens _ _ _ _ LX (rest ++ [0]) (pre ++ t) s2 R2) as (s3 & pre3 & R3 & N3 & T3); [repeat split | right; reflexivity | exact NX1 | cbn [text]; rewrite app_length; reflexivity |].
        rewrite app_length. cbn [length]. rewrite T3.
        (* second . *)
        destruct R3 as (S3 & P3 & CL3 & CF3 & NE3 & _). cbn [text at_line at_file] in *.
        set (s4 := with_flags (go (with_next (go s3 (ch_ptr s3)) None) (ch_ptr s3)) false false false false V_next_literal).
        pose proof (string_at_ne _ _ _ _ _ _ ST) as RN.
        assert (L3 : Nat.leb (length (rest ++ [0])) 1 = false) by (apply Nat.leb_gt; rewrite app_length; destruct rest; [congruence | cbn; lia]).
        rewrite (tokens_step _ FUEL s3 C s4); [| | reflexivity].
        2: { unfold Lex_model.yylex, FUEL. cbn [Lex_model.turns]. unfold Lex_model.turn. cbn [ch_ptr next_literal go]. rewrite N3. subst s4. rewrite P3, L3. unfold at_opt, at_ptr. rewrite Nat.eqb_refl. reflexivity. }
        (* the rest *)
        destruct (IH pre3 (go s4 (ch_ptr s4)) S3 NE3 CL3 CF3 eq_refl) as (t5 & s5 & ts5 & Q5 & -> & NE5 & T5).
        cbn [length]. rewrite (tokens_step _ FUEL s4 t5 s5); [| | exact NE5].
        2: { apply yylex_next; [reflexivity | reflexivity | |]; subst s4; cbn [ch_ptr go with_flags with_next] in *; rewrite P3 in *; auto. }
        rewrite T5. cbn [obind]. cbn [current_line current_file s2 s4 go with_flags with_next]. rewrite CL1, CF1, CL3, CF3. reflexivity.
  Qed.
End Reads.
