(** * The tokens of a text *)
From Verif Require Import Base CLib CStrto FnMem_model FnNum_spec FnNum_proofs Toke_model Toke_spec TokeNum_proofs TokeStr_proofs TokeExp_proofs Toke_props.
From Verif Require Import Lex_model Lex_spec Lex_proofs LexTurn_proofs.

Lemma newlines_count l : newlines l = count_lines l.
Proof. reflexivity. Qed.
Lemma bytes_last_op t k : In (t, k) operators -> bytes t <> [] /\ last (bytes t) 0 <> 10.
Proof.
  intros I. assert (A : forallb (fun e => negb (last (bytes (fst e)) 10 =? 10)) operators = true) by (vm_compute; reflexivity).
  rewrite forallb_forall in A. specialize (A _ I). cbn [fst] in A. destruct (bytes t) as [| c r] eqn:E; [discriminate |]. split; [discriminate |].
  assert (X : forall (l : list Z) c a b, last (c :: l) a = last (c :: l) b) by (clear; induction l as [| d l IH]; intros c a b; [reflexivity | apply (IH d a b)]).
  rewrite (X r c 0 10). lia.
Qed.

(** [lia] without the hypotheses that are not about numbers. *)
Ltac qlia :=
  repeat match goal with H : ?T |- _ =>
    lazymatch T with
    | @eq Z _ _ => fail | @eq bool _ _ => fail | ~ _ => fail | _ \/ _ => fail | _ /\ _ => fail | letter _ => fail | blank _ => fail
    | Z.le _ _ => fail | Z.lt _ _ => fail | @eq (list Z) (_ ++ _) [] => fail | @eq nat _ _ => fail
    | _ => clear H end end;
  try match goal with |- @eq (outcome _) _ _ => exfalso end; lia.

Section Main.
  Context (F D : Type) (strtof : list Z -> F * Z) (strtod : list Z -> D * Z) (fneg : F -> F) (dneg : D -> D) (src : list Z).
  Local Notation turn := (turn F D strtof strtod fneg dneg src).
  Local Notation turns := (turns F D strtof strtod fneg dneg src).
  Local Notation yylex := (yylex F D strtof strtod fneg dneg src).
  Local Notation tokens := (tokens F D strtof strtod fneg dneg src).
  Local Notation dispatch := (dispatch F D strtof strtod fneg dneg src).
  Local Notation rep := (rep src).
  Local Notation after := (after F D src).
  Local Notation token := (token (constant F D)).

  Lemma after_go x t pre p s u rest : rep pre p s -> text p = u ++ rest -> u <> [] -> last u 0 <> 10 -> context_after x t = Free ->
    after x t (next_literal s) (Pos Inside (at_line p) (at_file p) rest) (go s (rest ++ [0])).
  Proof.
    intros R T NE L C. split; [| rewrite C; repeat split]. exists (pre ++ u). eapply rep_inside; eauto. destruct R as (_ & _ & R & _). exact R.
  Qed.

  Lemma lexeme_shorter x p t q : @lexeme F D x p t q -> (length (text q) < length (text p))%nat.
  Proof.
    intros [pl l f k' k rest I _ _ _ | pl l f k' k c rest I _ _ | | | | | pl l f n rest SN _ | | pl l f n k rest _ I _ _ | | | | pl l f n rest SN _ _ _ _
      | pl l f n rest SN _ _ _ | pl l f minus tx base ds v suffix w rest IT _ _ bits _ _ | |]; cbn [text]; try (cbn; rewrite ?app_length; cbn; lia).
    - rewrite app_length. destruct (bytes_last_op _ _ I) as [NE _]. destruct (bytes k'); [congruence | cbn; lia].
    - rewrite app_length. destruct (keyword_first _ _ I) as (c & r & -> & _). cbn. lia.
    - destruct (symbol_first n SN) as (c & r & -> & _). rewrite app_length. cbn. lia.
    - destruct (symbol_first n SN) as (c & r & -> & _). rewrite app_length. cbn. lia.
    - destruct (integer_text_first _ _ _ IT) as (c & r & -> & _). rewrite !app_length. cbn. lia.
  Qed.

  Lemma one_turn f v s t s' p : ch_ptr s = p ++ [0] -> p <> [] -> at_opt (next_literal s) (ch_ptr s) = false -> v = V_none /\ was_heredoc f = false \/ v = V_var ->
    dispatch f false s = Ret (Got F D t s') -> forall fuel, turns (S fuel) f v false s = Ret (t, s').
  Proof. intros P NE N V E fuel. cbn [Lex_model.turns]. rewrite (turn_dispatch _ _ _ _ _ _ _ f v false s p P NE N V), E. reflexivity. Qed.

  Lemma lexeme_turns x p t q : lexeme x p t q -> forall pre f v s, rep pre p s -> flags x f -> v = V_none \/ v = V_var ->
    match next_literal s with None => True | Some n => (length n <= length (text q) + 1)%nat end ->
    forall fuel, exists s', turns (S (S fuel)) f v false s = Ret (t, s') /\ after x t (next_literal s) q s'.
  Proof.
    intros LX pre f v s R FL V NX fuel.
    assert (AT : forall u w, u ++ text q = w -> u <> [] -> match next_literal s with Some n => Nat.eqb (length n) (length (w ++ [0])) | None => false end = false).
    { intros u w <- NE. destruct (next_literal s) as [n |]; [| reflexivity]. apply Nat.eqb_neq. rewrite !app_length. destruct u; [congruence |]. cbn. lia. }
    assert (HV : v = V_none /\ was_heredoc f = false \/ v = V_var) by (destruct V; [left; split; [auto | apply FL] | right; auto]).
    pose proof R as (A & B & C & E & G).
    assert (ONE : forall u s', text p = u ++ text q -> u <> [] -> dispatch f false s = Ret (Got F D t s') -> turns (S (S fuel)) f v false s = Ret (t, s')).
    { intros u s' T NE X. eapply one_turn; eauto; [rewrite T; destruct u; [congruence | discriminate] |]. unfold at_opt, at_ptr. rewrite B. apply (AT u); auto. }
    destruct FL as (FL1 & FL2 & FL3 & FL4). clear G A NX V.
    destruct LX as [pl l f0 k' k rest I OH N1 N2 | pl l f0 k' k c rest I CO BL | pl l f0 c rest LC | pl l f0 rest | pl l f0 rest | pl l f0 rest | pl l f0 n rest SN NS | pl l f0 n rest SN
      | pl l f0 n k rest XF I NSC NS NF | pl l f0 c rest XF BL NF | pl l f0 rest XF NS NF | pl l f0 rest XF NS NF | pl l f0 n rest SN NS NF KW NQ | pl l f0 n rest SN LK NS FA
      | pl l f0 minus tx base ds v0 suffix w rest IT NU SU bits MI IV | pl l f0 tx v0 w rest CT VR AB NL | pl l f0 tx bs rest SI]; cbn [text at_line at_file at_place] in *.
    - (* operator *) destruct (operator_ok _ _ _ _ I OH N1 N2) as (c & c1 & r & EP & OP & (O1 & O2 & O3 & O4 & O5 & O6) & MD & PD & HD & BR).
      destruct (bytes_last_op _ _ I) as [NE LA].
      assert (DP : dispatch f false s = Ret (Got F D (Tok (fst k) (snd k)) (with_flags (go s (rest ++ [0])) (String.eqb (fst k) "ARROW") false
                 (String.eqb (fst k) "ARROW" || String.eqb (fst k) "OUTMOST_CLASS") (before_arrow f && (c =? 123)) V_none))).
      { rewrite <- app_assoc, EP in B. unfold LexTurn_proofs.dispatch.
        assert (IP : (if c =? 61 then is_pod src (ch_ptr s) else Ret false) = Ret false).
        { destruct (Z.eqb_spec c 61) as [-> |]; [| reflexivity]. rewrite (is_pod_ok src pre _ s c1 r R B). cbn [at_place].
          destruct (isalpha_ascii c1) eqn:AL; [rewrite (PD eq_refl eq_refl); reflexivity | destruct pl; reflexivity]. }
        rewrite B in IP |- *. cbn [deref obind next tl]. rewrite O1, O2, O3, O4, O5, O6, IP. cbn [obind]. rewrite MD, HD, OP. reflexivity. }
      eexists. split; [apply (ONE (bytes k')); [reflexivity | exact NE | exact DP] |].
      split; [exists (pre ++ bytes k'); apply (rep_inside src pre _ s (bytes k') rest l _ R); auto |]. split; [| split; reflexivity].
      unfold flags. cbn [with_flags before_arrow want_method want_field was_heredoc]. rewrite FL1, BR.
      cbn [operators In] in I. clear - I N1 N2.
      repeat (destruct I as [I | I]; [injection I as <- <-; destruct x; repeat split |]). destruct I.
    - (* < and > *) assert (CB : (c =? 60) = false /\ (c =? 61) = false /\ (c =? 62) = false) by (unfold blank in BL; qlia). destruct CB as (CB1 & CB2 & CB3).
      assert (K : (k' = "<"%string /\ k = ("NUMLT", "NUMERIC_COMPARISON_LT")%string) \/ (k' = ">"%string /\ k = ("NUMGT", "NUMERIC_COMPARISON_GT")%string)).
      { destruct CO; subst k'; [left | right]; (split; [reflexivity |]); cbn [operators In] in I; repeat (destruct I as [I | I]; [try discriminate I; injection I as <-; reflexivity |]); destruct I. }
      eexists. split.
      + apply (ONE (bytes k' ++ [c])); [rewrite <- app_assoc; reflexivity | destruct (bytes k'); discriminate |].
        unfold LexTurn_proofs.dispatch. rewrite B, <- app_assoc. destruct K as [[-> ->] | [-> ->]].
        * change (bytes "<") with [60]. cbn [app deref obind next tl is_prefix]. change (60 =? 60) with true. rewrite (Z.eqb_sym 60 c), CB1.
          unfold operator, op_less. cbn [deref obind next tl]. rewrite CB1, CB2. reflexivity.
        * change (bytes ">") with [62]. cbn [app deref obind next tl is_prefix]. unfold operator, op_greater. cbn [deref obind next tl]. rewrite CB2, CB3. reflexivity.
      + split; [exists (pre ++ bytes k' ++ [c]); apply (rep_inside src pre _ s (bytes k' ++ [c]) rest l _ R); auto; [cbn [text]; rewrite <- app_assoc; reflexivity | destruct (bytes k'); discriminate | rewrite last_last; unfold blank in BL; qlia] |].
        split; [| split; reflexivity]. unfold flags. cbn [with_flags before_arrow want_method want_field was_heredoc].
        destruct K as [[-> ->] | [-> ->]]; cbn -[Z.eqb]; rewrite andb_false_r; auto.
    - (* & *) eexists. split.
      + apply (ONE [38]); [reflexivity | discriminate |]. unfold LexTurn_proofs.dispatch. rewrite B. cbn [app deref obind next tl is_prefix].
        unfold operator, op_and. cbn [deref obind next tl].
        destruct (Z.eqb_spec c 38); [unfold letter in LC; qlia |]. destruct (Z.eqb_spec c 61); [unfold letter in LC; qlia |].
        replace (isalpha_ascii c || (c =? 95)) with true by (unfold letter in LC; unfold isalpha_ascii; qlia). reflexivity.
      + split; [exists (pre ++ [38]); apply (rep_inside src pre _ s [38] (c :: rest) l _ R); auto; [discriminate | cbn; qlia] |].
        split; [| split; reflexivity]. unfold flags. cbn [with_flags before_arrow want_method want_field was_heredoc]. rewrite andb_false_r. repeat split.
    - (* $$ *) exists (go s ((36 :: rest) ++ [0])). split; [apply (ONE [36]); [reflexivity | discriminate |]; unfold LexTurn_proofs.dispatch; rewrite B; reflexivity |].
      apply (after_go x _ pre _ s [36] (36 :: rest) R); try reflexivity; [discriminate | cbn; qlia].
    - exists (go s (rest ++ [0])). split; [apply (ONE (bytes "$@")); [reflexivity | discriminate |]; unfold LexTurn_proofs.dispatch; rewrite B; reflexivity |].
      apply (after_go x _ pre _ s (bytes "$@") rest R); try reflexivity; [discriminate | cbn; qlia].
    - exists (go s (rest ++ [0])). split; [apply (ONE (bytes "${@}")); [reflexivity | discriminate |]; unfold LexTurn_proofs.dispatch; rewrite B; reflexivity |].
      apply (after_go x _ pre _ s (bytes "${@}") rest R); try reflexivity; [discriminate | cbn; qlia].
    - (* $name *) exists (go s (rest ++ [0])). split.
      + apply (ONE (36 :: n)); [reflexivity | discriminate |]. unfold LexTurn_proofs.dispatch. rewrite B. rewrite <- app_comm_cons, <- app_assoc. cbn [deref obind next tl].
        destruct (symbol_first n SN) as (c & r & EN & LC & _).
        pose proof (variable_ok n rest SN NS) as VO. rewrite EN in VO |- *. cbn [app deref obind] in VO |- *.
        change ((36 =? 32) || (36 =? 9) || (36 =? 12)) with false. change (36 =? 10) with false. change (36 =? 35) with false. change (36 =? 39) with false. change (36 =? 34) with false.
        change (36 =? 36) with true. cbn iota. destruct (Z.eqb_spec c 36); [unfold letter in LC; qlia |]. destruct (Z.eqb_spec c 64); [unfold letter in LC; qlia |].
        change (bytes "{@}") with [123; 64; 125]. cbn [is_prefix]. destruct (Z.eqb_spec 123 c); [unfold letter in LC; qlia |]. cbn [andb]. rewrite VO. reflexivity.
      + apply (after_go x _ pre _ s (36 :: n) rest R); try reflexivity; [discriminate |]. change (36 :: n) with ([36] ++ n). rewrite last_app_ne by apply SN. apply var_name_last; apply SN.
    - (* ${name} *) exists (go s (rest ++ [0])). split.
      + apply (ONE (36 :: 123 :: n ++ [125])); [cbn [app]; rewrite <- app_assoc; reflexivity | discriminate |]. unfold LexTurn_proofs.dispatch. rewrite B. cbn [app deref obind next tl].
        rewrite <- app_assoc. cbn [app].
        destruct (symbol_first n SN) as (c & r & EN & LC & _).
        pose proof (variable_brace_ok n rest SN) as VO.
        change ((36 =? 32) || (36 =? 9) || (36 =? 12)) with false. change (36 =? 10) with false. change (36 =? 35) with false. change (36 =? 39) with false. change (36 =? 34) with false.
        change (36 =? 36) with true. cbn iota. change (123 =? 36) with false. change (123 =? 64) with false. cbn iota.
        replace (is_prefix (bytes "{@}") (123 :: n ++ 125 :: rest ++ [0])) with false. { rewrite VO. reflexivity. }
        symmetry. rewrite EN. change (bytes "{@}") with [123; 64; 125]. cbn [app is_prefix]. change (123 =? 123) with true. cbn [andb]. destruct (Z.eqb_spec 64 c); [unfold letter in LC; qlia | reflexivity].
      + apply (after_go x _ pre _ s (36 :: 123 :: n ++ [125]) rest R); try reflexivity; [cbn [text app]; rewrite <- app_assoc; reflexivity | discriminate |].
        change (36 :: 123 :: n ++ [125]) with ((36 :: 123 :: n) ++ [125]). rewrite last_last. qlia.
    - (* keyword *) destruct (keyword_first _ _ I) as (c & r & EN & AL & NQ & ND & W & VN & LA).
      destruct (fat_comma_ok rest) as (b & FC & FB). assert (b = false) by (destruct b; [exfalso; apply NF, FB; reflexivity | reflexivity]). subst b.
      assert (BC : ch_ptr s = c :: r ++ rest ++ [0]) by (rewrite B, EN, <- app_assoc; reflexivity).
      assert (SM : forall k', same (bytes n) k' = String.eqb n k').
      { intros k2. destruct (String.eqb_spec n k2) as [-> | NN]; [apply same_iff; reflexivity |]. apply not_true_iff_false. rewrite same_iff. intros X. apply NN.
        clear - X. revert k2 X. induction n as [| a n IH]; intros [| b k2] X; try discriminate X; [reflexivity |]. unfold bytes in X. cbn in X. injection X as X1 X2.
        f_equal; [| apply IH; exact X2]. rewrite <- (Ascii.ascii_nat_embedding a), <- (Ascii.ascii_nat_embedding b). f_equal. qlia. }
      eexists. split.
      + apply (ONE (bytes n)); [reflexivity | rewrite EN; discriminate |]. rewrite (dispatch_symbol F D strtof strtod fneg dneg src f false s c r rest); auto.
        * rewrite (symbol_step F D src f s c r rest BC VN NS false FC). rewrite <- EN. cbv zeta. rewrite FL2, FL3, XF. cbn [orb].
          rewrite !SM. rewrite (keyword_ok _ _ I).
          replace (String.eqb n "__END__") with false by (symmetry; apply String.eqb_neq; intros ->; clear - I; cbn [keywords In] in I; repeat (destruct I as [I | I]; [discriminate I |]); destruct I).
          replace (String.eqb n "__FILE__") with false by (symmetry; apply String.eqb_neq; intros ->; clear - I; cbn [keywords In] in I; repeat (destruct I as [I | I]; [discriminate I |]); destruct I).
          replace (String.eqb n "__LINE__") with false by (symmetry; apply String.eqb_neq; intros ->; clear - I; cbn [keywords In] in I; repeat (destruct I as [I | I]; [discriminate I |]); destruct I).
          replace (String.eqb n "scalar") with false by (symmetry; apply String.eqb_neq; exact NSC). reflexivity.
        * unfold letter. unfold isalpha_ascii in AL. qlia.
        * apply not_q; auto.
      + split; [exists (pre ++ bytes n); apply (rep_inside src pre _ s (bytes n) rest l _ R); auto; rewrite EN; discriminate |]. split; [| split; reflexivity].
        unfold flags. cbn [with_flags before_arrow want_method want_field was_heredoc]. subst x. cbn [keywords In] in I. clear - I.
        repeat (destruct I as [I | I]; [injection I as <- <-; repeat split |]). destruct I.
    - (* scalar *) exists (go s (rest ++ [0])). split.
      + apply (ONE (bytes "scalar" ++ [c])); [reflexivity | discriminate |].
        assert (NS : name_stops (c :: rest)) by (split; [cbn; unfold blank in BL; unfold word; qlia | intros (r & X); injection X as -> _; unfold blank in BL; cbn in BL; qlia]).
        destruct (fat_comma_ok (c :: rest)) as (b & FC & FB). assert (b = false) by (destruct b; [exfalso; apply NF, FB; reflexivity | reflexivity]). subst b.
        assert (BC : ch_ptr s = 115 :: [99; 97; 108; 97; 114] ++ (c :: rest) ++ [0]) by (rewrite B; reflexivity).
        assert (VN : var_name [99; 97; 108; 97; 114]) by (repeat (constructor; [unfold word; qlia |]); constructor).
        rewrite (dispatch_symbol F D strtof strtod fneg dneg src f false s 115 [99; 97; 108; 97; 114] (c :: rest) BC); auto; [| unfold letter; qlia | apply not_q; auto; left; qlia].
        rewrite (symbol_step F D src f s 115 [99; 97; 108; 97; 114] (c :: rest) BC VN NS false FC). cbv zeta. rewrite FL2, FL3, XF. reflexivity.
      + apply (after_go x _ pre _ s (bytes "scalar" ++ [c]) rest R); try reflexivity; [discriminate | rewrite last_last; unfold blank in BL; qlia].
    - (* __FILE__ *) exists (go s (rest ++ [0])). split.
      + apply (ONE (bytes "__FILE__")); [reflexivity | discriminate |].
        destruct (fat_comma_ok rest) as (b & FC & FB). assert (b = false) by (destruct b; [exfalso; apply NF, FB; reflexivity | reflexivity]). subst b.
        assert (BC : ch_ptr s = 95 :: [95; 70; 73; 76; 69; 95; 95] ++ rest ++ [0]) by (rewrite B; reflexivity).
        assert (VN : var_name [95; 70; 73; 76; 69; 95; 95]) by (repeat (constructor; [unfold word; qlia |]); constructor).
        rewrite (dispatch_symbol F D strtof strtod fneg dneg src f false s 95 [95; 70; 73; 76; 69; 95; 95] rest BC); auto; [| apply not_q; auto; left; qlia].
        rewrite (symbol_step F D src f s 95 [95; 70; 73; 76; 69; 95; 95] rest BC VN NS false FC). cbv zeta. rewrite FL2, FL3, XF, E. reflexivity.
      + apply (after_go x _ pre _ s (bytes "__FILE__") rest R); try reflexivity; [discriminate | cbn; qlia].
    - (* __LINE__ *) exists (go s (rest ++ [0])). split.
      + apply (ONE (bytes "__LINE__")); [reflexivity | discriminate |].
        destruct (fat_comma_ok rest) as (b & FC & FB). assert (b = false) by (destruct b; [exfalso; apply NF, FB; reflexivity | reflexivity]). subst b.
        assert (BC : ch_ptr s = 95 :: [95; 76; 73; 78; 69; 95; 95] ++ rest ++ [0]) by (rewrite B; reflexivity).
        assert (VN : var_name [95; 76; 73; 78; 69; 95; 95]) by (repeat (constructor; [unfold word; qlia |]); constructor).
        rewrite (dispatch_symbol F D strtof strtod fneg dneg src f false s 95 [95; 76; 73; 78; 69; 95; 95] rest BC); auto; [| apply not_q; auto; left; qlia].
        rewrite (symbol_step F D src f s 95 [95; 76; 73; 78; 69; 95; 95] rest BC VN NS false FC). cbv zeta. rewrite FL2, FL3, XF, C. reflexivity.
      + apply (after_go x _ pre _ s (bytes "__LINE__") rest R); try reflexivity; [discriminate | cbn; qlia].
    - (* symbol *) destruct (symbol_name_checks n SN) as (C1 & C2 & _). destruct (symbol_first n SN) as (c & r & EN & LC & VN).
      destruct (fat_comma_ok rest) as (b & FC & FB). assert (b = false) by (destruct b; [exfalso; apply NF, FB; reflexivity | reflexivity]). subst b.
      assert (BC : ch_ptr s = c :: r ++ rest ++ [0]) by (rewrite B, EN, <- app_assoc; reflexivity).
      exists (go s (rest ++ [0])). split.
      + apply (ONE n); [reflexivity | rewrite EN; discriminate |]. rewrite EN in NQ. rewrite (dispatch_symbol F D strtof strtod fneg dneg src f false s c r rest BC); auto.
        rewrite (symbol_step F D src f s c r rest BC VN NS false FC). rewrite <- EN. cbv zeta. rewrite C1, C2. cbn [negb orb].
        assert (SM : forall k, contains (bytes k) "__" = true -> same n k = false).
        { intros k K. apply not_true_iff_false. rewrite same_iff. intros ->. congruence. }
        rewrite (SM "__END__"%string), (SM "__FILE__"%string), (SM "__LINE__"%string) by reflexivity.
        destruct x; rewrite FL2, FL3; try reflexivity. cbn [orb].
        destruct (keyword n) as [k |] eqn:KN; [| reflexivity]. exfalso. destruct (keyword_in _ _ KN) as (t & TI & ->).
        apply (KW eq_refl k). apply in_map_iff. exists (t, k). split; [reflexivity | exact TI].
      + apply (after_go x _ pre _ s n rest R); try reflexivity; [rewrite EN; discriminate | apply var_name_last; apply SN].
    - (* key *) destruct (symbol_name_checks n SN) as (C1 & C2 & _). destruct (symbol_first n SN) as (c & r & EN & LC & VN).
      destruct (fat_comma_ok rest) as (b & FC & FB). assert (b = true) by (apply FB; exact FA). subst b.
      assert (BC : ch_ptr s = c :: r ++ rest ++ [0]) by (rewrite B, EN, <- app_assoc; reflexivity).
      exists (go s (rest ++ [0])). split.
      + apply (ONE n); [reflexivity | rewrite EN; discriminate |]. rewrite (dispatch_symbol F D strtof strtod fneg dneg src f false s c r rest BC); auto; [| apply not_q; auto].
        rewrite (symbol_step F D src f s c r rest BC VN NS true FC). rewrite <- EN. cbv zeta. rewrite C1, C2. cbn [negb orb].
        rewrite (proj1 (lacks_iff _ _) LK). reflexivity.
      + apply (after_go x _ pre _ s n rest R); try reflexivity; [rewrite EN; discriminate | apply var_name_last; apply SN].
    - (* integer *)
      assert (CR : exists c r, rest ++ [0] = c :: r /\ ((suffix = [] /\ ends base c /\ ~ suffix_letter c) \/ suffix = [108] \/ suffix = [76])).
      { destruct rest as [| c rest]; [exists 0, [] | exists c, (rest ++ [0])]; (split; [reflexivity |]); destruct SU as [[-> SU] | SU]; auto. left. split; auto. split.
        - unfold ends, digit. split; [intros u; qlia |]. split; [qlia |]. cbn. qlia.
        - unfold suffix_letter. cbn. qlia. }
      destruct CR as (c & r & CR & SU'). destruct (integer_text_first _ _ _ IT) as (d & t' & ET & DG).
      assert (NLT : numeric_literal F D strtof strtod fneg dneg minus (tx ++ suffix ++ rest ++ [0]) = Ret (match suffix with [] => CInt w | _ => CLong w end, rest ++ [0])).
      { pose proof (C49_integer F D strtof strtod fneg dneg tx base ds v0 minus suffix c r IT NU SU' MI) as X. rewrite CR.
        destruct (numeric_literal F D strtof strtod fneg dneg minus (tx ++ suffix ++ c :: r)) as [[k q] | m | |]; [| exfalso; exact (X w IV) | destruct X ..].
        destruct X as (-> & w' & -> & IV'). f_equal. f_equal. assert (w' = w); [| subst; reflexivity].
        eapply integer_value_fun; [| exact IV' | exact IV]. destruct SU as [[-> _] | [-> | ->]]; qlia. }
      assert (DD : forall minus s1, ch_ptr s1 = tx ++ suffix ++ rest ++ [0] -> dispatch f minus s1 = let! (k, q) := numeric_literal F D strtof strtod fneg dneg minus (ch_ptr s1) in Ret (Got F D (Num k) (go s1 q))).
      { intros minus' s1 P1. assert (W : wordb d = true) by (unfold wordb, isalnum_ascii; rewrite DG; reflexivity).
        destruct (word_other d W) as ((O1 & O2 & O3 & O4 & O5 & O6) & O7 & O8 & O9). unfold LexTurn_proofs.dispatch. rewrite P1, ET. cbn [app deref obind next tl].
        rewrite O1, O2, O3, O4, O5, O6, O7, O8, O9. cbn [andb]. rewrite operator_none by exact W.
        destruct (t' ++ suffix ++ rest ++ [0]) as [| c1 r1] eqn:E1; [apply (f_equal (@length Z)) in E1; rewrite !app_length in E1; cbn in E1; qlia |]. cbn [deref obind].
        replace (d =? 113) with false by (unfold isdigit_ascii in DG; qlia). cbn [andb]. rewrite DG. reflexivity. }
      assert (LA : last (tx ++ suffix) 0 <> 10).
      { apply (last_Forall (fun c => c <> 10)); [| rewrite ET; discriminate]. apply Forall_app. split; [eapply integer_text_no_line; eauto |].
        destruct SU as [[-> _] | [-> | ->]]; repeat constructor; qlia. }
      assert (NT : tx ++ suffix <> []) by (rewrite ET; discriminate).
      destruct minus; cbn [app] in *.
      + assert (B1 : ch_ptr s = 45 :: tx ++ suffix ++ rest ++ [0]) by (rewrite B, <- !app_assoc; reflexivity).
        set (s1 := go s (tx ++ suffix ++ rest ++ [0])).
        assert (T1 : turn f v false s = Ret (Again F D true s1, v)).
        { rewrite (turn_dispatch F D strtof strtod fneg dneg src f v false s (45 :: tx ++ suffix ++ rest)); auto; [| discriminate |].
          - unfold LexTurn_proofs.dispatch. rewrite B1, ET. cbn [app deref obind next tl]. rewrite DG. subst s1. rewrite ET. reflexivity.
          - unfold at_opt, at_ptr. rewrite B. apply (AT (45 :: tx ++ suffix) (45 :: tx ++ suffix ++ rest)); [cbn [app]; rewrite <- app_assoc; reflexivity | discriminate]. }
        assert (T2 : turn f v true s1 = let! r := dispatch f true s1 in Ret (r, v)).
        { apply (turn_dispatch F D strtof strtod fneg dneg src f v true s1 (tx ++ suffix ++ rest)); auto; [cbn [ch_ptr]; rewrite <- !app_assoc; reflexivity | rewrite ET; discriminate |].
          unfold at_opt, at_ptr. cbn [next_literal s1 ch_ptr go]. rewrite (app_assoc tx), app_assoc. apply (AT (tx ++ suffix) ((tx ++ suffix) ++ rest)); [reflexivity | exact NT]. }
        exists (go s (rest ++ [0])). split.
        * cbn [Lex_model.turns]. rewrite T1. cbn [obind]. rewrite T2, (DD true s1 eq_refl). cbn [ch_ptr s1 go]. rewrite NLT. reflexivity.
        * apply (after_go x _ pre _ s (45 :: tx ++ suffix) rest R); try reflexivity; [cbn [text app]; rewrite <- app_assoc; reflexivity | discriminate |].
          change (45 :: tx ++ suffix) with ([45] ++ tx ++ suffix). rewrite last_app_ne by exact NT. exact LA.
      + assert (B1 : ch_ptr s = tx ++ suffix ++ rest ++ [0]) by (rewrite B, <- !app_assoc; reflexivity).
        exists (go s (rest ++ [0])). split.
        * apply (ONE (tx ++ suffix)); [rewrite <- app_assoc; reflexivity | exact NT |]. rewrite (DD false s B1), B1, NLT. reflexivity.
        * apply (after_go x _ pre _ s (tx ++ suffix) rest R); try reflexivity; [cbn [text]; rewrite <- app_assoc; reflexivity | exact NT | exact LA].
    - (* character *) exists (go s (rest ++ [0])). split.
      + apply (ONE (39 :: tx ++ [39])); [cbn [app]; rewrite <- app_assoc; reflexivity | discriminate |]. unfold LexTurn_proofs.dispatch. rewrite B. cbn [app deref obind next tl].
        rewrite <- app_assoc. cbn [app]. 
        assert (CT' : char_text tx v0 (39 :: rest ++ [0])).
        { inversion CT as [c r0 N1 N2 | t v1 r0 BE]; subst; constructor; auto.
          inversion BE as [c v2 r1 | ds v2 r1 SD | | ds v2 r1 SD |]; subst.
          - apply E_letter; auto.
          - apply E_octal; [| auto]. destruct SD as (S1 & S2 & [S3 | S3]); (split; [auto | split; auto]).
          - apply E_octal_brace; auto.
          - apply E_hex. destruct SD as (S1 & S2 & [S3 | S3]); (split; [auto | split; auto]).
          - apply E_hex_brace; auto. }
        destruct (C49_character _ _ _ CT' VR) as (w' & CL & AB'). rewrite CL. cbn [obind].
        assert (w' = w); [| subst; reflexivity]. unfold as_byte in *. clear - AB AB'. destruct AB as [A1 A2], AB' as [B1 B2].
        pose proof (Z.div_mod w 256 ltac:(lia)). pose proof (Z.div_mod w' 256 ltac:(lia)). qlia.
      + apply (after_go x _ pre _ s (39 :: tx ++ [39]) rest R); try reflexivity; [cbn [text app]; rewrite <- app_assoc; reflexivity | discriminate |].
        change (39 :: tx ++ [39]) with ((39 :: tx) ++ [39]). rewrite last_last. qlia.
    - (* single-quoted *)
      assert (NLC : newlines (between (39 :: tx ++ 39 :: rest ++ [0]) (rest ++ [0])) = count_lines tx).
      { change (39 :: tx ++ 39 :: rest ++ [0]) with ((39 :: tx) ++ [39] ++ rest ++ [0]). rewrite app_assoc, between_app, newlines_count, count_lines_app, count_lines_cons. change (count_lines [39]) with 0. change (39 =? 10) with false. qlia. }
      exists (ticks (count_lines tx) (rest ++ [0]) (go s (rest ++ [0]))). split.
      + apply (ONE (bytes "q'" ++ tx ++ [39])); [rewrite <- !app_assoc; reflexivity | discriminate |]. unfold LexTurn_proofs.dispatch. rewrite B.
        change ((bytes "q'" ++ tx ++ 39 :: rest) ++ [0]) with (113 :: 39 :: (tx ++ 39 :: rest) ++ [0]). rewrite <- app_assoc. cbn [app deref obind next tl].
        change (operator 113 (39 :: tx ++ 39 :: rest ++ [0])) with (@None (outcome (optok * list Z))).
        rewrite (C49_single _ tx bs (rest ++ [0]) SI) by (cbn [length]; rewrite app_length; qlia). cbn [obind].
        unfold obind. rewrite NLC. reflexivity.
      + split; [| repeat split].
        exists (pre ++ bytes "q'" ++ tx ++ [39]). apply (rep_inside src pre _ s (bytes "q'" ++ tx ++ [39]) rest (l + count_lines tx) _ R); auto; [cbn [text]; rewrite <- !app_assoc; reflexivity | discriminate | | cbn; qlia].
        rewrite app_assoc, last_last. qlia.
  Qed.
End Main.
