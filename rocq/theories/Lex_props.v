(** * C64: tokenization *)
From Verif Require Import Base CLib CStrto FnMem_model FnNum_spec FnNum_proofs Toke_model Toke_spec TokeNum_proofs TokeStr_proofs TokeExp_proofs Toke_props.
From Verif Require Import Lex_model Lex_spec Lex_proofs LexTurn_proofs LexMain_proofs LexReads_proofs.

(** ** Enough fuel is enough *)
Section Fuel.
  Context (F D : Type) (strtof : list Z -> F * Z) (strtod : list Z -> D * Z) (fneg : F -> F) (dneg : D -> D) (src : list Z).
  Local Notation turns := (turns F D strtof strtod fneg dneg src).
  Local Notation yylex := (yylex F D strtof strtod fneg dneg src).
  Local Notation tokens := (tokens F D strtof strtod fneg dneg src).

  Lemma turns_more n m f v minus s r : turns n f v minus s = Ret r -> (n <= m)%nat -> turns m f v minus s = Ret r.
  Proof.
    revert m v minus s. induction n as [| n IH]; intros m v minus s E L; [discriminate |]. destruct m as [| m]; [lia |]. cbn [Lex_model.turns] in *.
    destruct (Lex_model.turn _ _ _ _ _ _ _ _ _ _ _) as [[[b s1 | t s1] v1] | | |]; cbn [obind] in *; try discriminate; [| exact E].
    apply IH; [exact E | lia].
  Qed.
  Lemma tokens_more n m k l s r : tokens n k s = Ret r -> (n <= m)%nat -> (k <= l)%nat -> tokens m l s = Ret r.
  Proof.
    revert m s r. induction n as [| n IH]; intros m s r E L K; [discriminate |]. destruct m as [| m]; [lia |]. cbn [Lex_model.tokens] in *.
    destruct (yylex k s) as [[t s1] | | |] eqn:Y; cbn [obind] in E; try discriminate.
    unfold Lex_model.yylex in *. rewrite (turns_more _ _ _ _ _ _ _ Y K). cbn [obind]. rewrite !end_match in *. destruct (is_end F D t); [exact E |].
    destruct (tokens n k s1) as [ts | | |] eqn:T; cbn [obind] in E; try discriminate. rewrite (IH m s1 ts T); [exact E | lia | exact K].
  Qed.
End Fuel.

(** ** The theorem: a text that reads as a list of tokens, by the rules of the
    language, is split into them: the tokens, and the line and the file the nodes
    of the syntax tree get, which are the ones in messages. [strtof] and the other
    arguments are the functions of the C library for floating point literals.
    Missing: floating point literals are not among the tokens of Lex_spec.v; < and >
    and scalar need a blank behind them (C64_less_refuted, C64_scalar_refuted), a
    character literal has no line terminator (C64_character_refuted), and nothing is
    said about texts without a reading. *)
Theorem C64_tokens_partial :
  forall (F D : Type) (strtof : list Z -> F * Z) (strtod : list Z -> D * Z) (fneg : F -> F) (dneg : D -> D) (source file : list Z) toks,
  reads Free (Pos Begin 1 file source) toks -> 4 * (zlen source + 1) <= INT32_MAX ->
  forall n fuel, (length toks <= n)%nat -> (length source + 3 <= fuel)%nat ->
  tokens F D strtof strtod fneg dneg (source ++ [0]) n fuel (start (source ++ [0]) file) = Ret toks.
Proof.
  intros F D strtof strtod fneg dneg source file toks R L n fuel N K.
  apply (tokens_more F D strtof strtod fneg dneg _ (length toks) n (FUEL (source ++ [0])) fuel); [| exact N | unfold FUEL; rewrite app_length; cbn; lia].
  apply (proj1 (reads_string_ok F D strtof strtod fneg dneg (source ++ [0]) ltac:(rewrite zlen_app; change (zlen [0]) with 1; exact L)) Free _ _ R []); try reflexivity.
  - unfold LexTurn_proofs.rep. cbn. repeat split; reflexivity.
  - repeat split.
Qed.

(** A text has at most one reading. *)
Theorem C64_unambiguous :
  forall (F D : Type) (source file : list Z) toks toks', 4 * (zlen source + 1) <= INT32_MAX ->
  @reads F D Free (Pos Begin 1 file source) toks -> @reads F D Free (Pos Begin 1 file source) toks' ->
  inhabited F -> inhabited D -> toks = toks'.
Proof.
  intros F D source file toks toks' L R R' [f] [d].
  pose proof (C64_tokens_partial F D (fun _ => (f, 0)) (fun _ => (d, 0)) (fun x => x) (fun x => x) source file toks R L (length toks + length toks') (length source + 3) ltac:(lia) ltac:(lia)) as A.
  pose proof (C64_tokens_partial F D (fun _ => (f, 0)) (fun _ => (d, 0)) (fun x => x) (fun x => x) source file toks' R' L (length toks + length toks') (length source + 3) ltac:(lia) ltac:(lia)) as B.
  rewrite A in B. injection B as B. exact B.
Qed.

(** ** A text that is read: a line directive, a comment, a string with a variable,
    a keyword as a method name, a word in front of a fat comma, and __END__. *)
Section Build.
  Context {F D : Type}.
  Local Notation reads := (@reads F D).
  Lemma reads_skip x p q ts : skip p q -> reads x q ts -> reads x p ts.
  Proof.
    intros S R. destruct R as [x q0 q' K E | x q0 q' rest K X E N G | x q0 q' t r ts K L R | x q0 q' n ls rest ts K E N G RN e R | x q0 q' s ts K E ST].
    - eapply R_end; [eapply Skips_cons; eauto | exact E].
    - eapply R_END; [eapply Skips_cons; eauto | exact X | exact E | exact N | exact G].
    - eapply R_token; [eapply Skips_cons; eauto | exact L | exact R].
    - eapply R_document; [eapply Skips_cons; eauto | exact E | exact N | exact G | exact RN | exact R].
    - eapply R_string; [eapply Skips_cons; eauto | exact E | exact ST].
  Qed.
  Lemma reads_blank x pl l f c r ts : blank c -> reads x (Pos Inside l f r) ts -> reads x (Pos pl l f (c :: r)) ts.
  Proof. intros B R. eapply reads_skip; [apply Skip_blank, B | exact R]. Qed.
  Lemma reads_line x pl l f r ts : reads x (Pos Line_start (l + 1) f r) ts -> reads x (Pos pl l f (10 :: r)) ts.
  Proof. intros R. eapply reads_skip; [apply Skip_line | exact R]. Qed.
  Lemma reads_one x q t r ts : lexeme x q t r -> reads (context_after x t) r ts -> reads x q ((t, at_line r, at_file r) :: ts).
  Proof. intros L R. eapply R_token; [apply Skips_nil | exact L | exact R]. Qed.

  Definition stopsb (rest : list Z) : bool := match rest with [] => true | c :: _ => negb (wordb c) && negb (is_prefix (bytes "::") rest) end.
  Lemma stopsb_ok rest : stopsb rest = true -> name_stops rest.
  Proof.
    unfold name_stops. destruct rest as [| c rest]; intros H; [split; [intros [] |]; intros (r & E); discriminate |]. cbn [stopsb] in H. apply andb_prop in H. destruct H as (A & B).
    apply negb_true_iff in A, B. split; [cbn [starts]; rewrite word_iff; congruence |]. rewrite begins_iff. congruence.
  Qed.
  Definition fatb (rest : list Z) : bool := match fat_comma (rest ++ [0]) with Ret b => b | _ => false end.
  Lemma fatb_ok rest : fatb rest = true <-> fat rest.
  Proof. destruct (fat_comma_ok rest) as (b & E & H). unfold fatb. rewrite E. exact H. Qed.
  Lemma not_fat rest : fatb rest = false -> ~ fat rest.
  Proof. rewrite <- fatb_ok. congruence. Qed.
  Definition first_is (f : Z -> bool) (l : list Z) : bool := match l with c :: _ => f c | [] => false end.
  Definition op_hereb (t : string) (rest : list Z) : bool :=
    forallb (fun e => negb (is_prefix (bytes (fst e)) (bytes t ++ rest)) || Nat.leb (length (bytes (fst e))) (length (bytes t))) operators &&
    (negb (existsb (String.eqb t) ["-"; "&"; "="; "<<"]%string) || negb (first_is (fun c => isdigit_ascii c || isalpha_ascii c || (c =? 95) || (c =? 39)) rest)).
  Lemma op_hereb_ok pl t rest : op_hereb t rest = true -> operator_here pl t rest.
  Proof.
    unfold op_hereb, operator_here. intros H. apply andb_prop in H. destruct H as (A & B). rewrite forallb_forall in A. split.
    - intros t' k I BG. specialize (A _ I). cbn [fst] in A. apply begins_iff in BG. rewrite BG in A. apply Nat.leb_le in A. exact A.
    - apply orb_prop in B. destruct B as [B | B]; apply negb_true_iff in B; [repeat split; intros ->; discriminate B |].
      destruct rest as [| c rest]; [repeat split; cbn; intuition |]. cbn [first_is] in B. apply orb_false_iff in B. destruct B as (B & B4). apply orb_false_iff in B. destruct B as (B & B3).
      apply orb_false_iff in B. destruct B as (B1 & B2). cbn [starts]. apply Z.eqb_neq in B3, B4.
      assert (NL : ~ letter c) by (rewrite alpha_iff; congruence). repeat split; intros _; [| intuition | intuition | congruence]. unfold isdigit_ascii in B1. lia.
  Qed.
End Build.
Ltac find_in := repeat (first [left; reflexivity | right]).
Ltac split_text t k :=
  match goal with |- reads ?x (Pos ?pl ?l ?f ?T) ?ts =>
    let tb := eval vm_compute in t in let r := eval vm_compute in (skipn (length tb) T) in k x pl l f tb r ts
  end.
Ltac blanks := repeat (apply reads_blank; [unfold blank; lia |]).
Ltac newline := apply reads_line; cbn [Z.add Pos.add Pos.succ].
Ltac next_op t :=
  split_text (bytes t) ltac:(fun x pl l f tb r ts => match ts with (Tok ?a ?b, _, _) :: _ =>
    apply (reads_one x (Pos pl l f (tb ++ r)) (Tok a b) (Pos Inside l f r)); [apply (T_operator x pl l f t (a, b) r); [find_in | apply op_hereb_ok; vm_compute; reflexivity | discriminate | discriminate] | cbn [context_after]] end); blanks.
Ltac next_keyword t :=
  split_text (bytes t) ltac:(fun x pl l f tb r ts => match ts with (Tok ?a ?b, _, _) :: _ =>
    apply (reads_one x (Pos pl l f (tb ++ r)) (Tok a b) (Pos Inside l f r));
      [apply (T_keyword x pl l f t (a, b) r); [reflexivity | find_in | discriminate | apply stopsb_ok; reflexivity | apply not_fat; vm_compute; reflexivity] | cbn [context_after]] end); blanks.
Ltac is_symbol := split; [discriminate |]; split; [repeat (constructor; [apply word_iff; reflexivity |]); constructor |];
  split; [apply lacks_iff; vm_compute; reflexivity |]; split; [apply lacks_iff; vm_compute; reflexivity |];
  split; [rewrite begins_iff; discriminate |]; split; [intros a E; apply (f_equal (fun l => last l 0)) in E; change (bytes "::") with ([58] ++ [58]) in E; rewrite app_assoc, last_last in E; discriminate | cbn; lia].
Ltac next_var n :=
  split_text (36 :: bytes n) ltac:(fun x pl l f tb r ts => let nb := eval vm_compute in (bytes n) in
    apply (reads_one x (Pos pl l f (tb ++ r)) (Var (36 :: nb)) (Pos Inside l f r)); [apply (T_variable x pl l f nb r); [is_symbol | apply stopsb_ok; reflexivity] | cbn [context_after]]); blanks.

Definition ex_text : list Z := Eval vm_compute in bytes "#line 7
my $s = ""a
$v"" ; # x
$s->new (if => 1) ;
__END__ rest".
Definition ex_file : list Z := Eval vm_compute in bytes "Foo.spvm".
Definition ex_tokens {F D : Type} : list (token (constant F D) * Z * list Z) :=
  let at_ l (t : token (constant F D)) := (t, l, ex_file) in
  [ at_ 7 (Tok "MY" "VAR_DECL"); at_ 7 (Var (bytes "$s")); at_ 7 (Tok "ASSIGN" "ASSIGN"); at_ 8 (Str (bytes "a" ++ [10]));
    at_ 8 (Tok "." "STRING_CONCAT"); at_ 8 (Var (bytes "$v")); at_ 8 (Tok "." "STRING_CONCAT"); at_ 8 (Str []); at_ 8 (Tok ";" "DO_NOTHING");
    at_ 9 (Var (bytes "$s")); at_ 9 (Tok "ARROW" "DO_NOTHING"); at_ 9 (Sym (bytes "new")); at_ 9 (Tok "(" "DO_NOTHING"); at_ 9 (Str (bytes "if"));
    at_ 9 (Tok "," "DO_NOTHING"); at_ 9 (Num (CInt 1)); at_ 9 (Tok ")" "DO_NOTHING"); at_ 9 (Tok ";" "DO_NOTHING");
    at_ 10 (Tok "END_OF_FILE" "END_OF_FILE") ].

Example C64_example : forall F D, @reads F D Free (Pos Begin 1 ex_file ex_text) ex_tokens.
Proof.
  intros F D. unfold ex_text. pattern (@ex_tokens F D). match goal with |- ?P _ => let v := eval vm_compute in (@ex_tokens F D) in change (P v) end. cbv beta.
  (* the line directive *)
  eapply reads_skip.
  { match goal with |- skip (Pos Begin 1 ?f (35 :: 108 :: 105 :: 110 :: 101 :: 32 :: 55 :: 10 :: ?r)) _ =>
      apply (Skip_line_directive Begin 1 f 0 [55] 7 0 r) end; [discriminate | apply One; unfold digit; lia | lia]. }
  next_keyword "my"%string. next_var "s"%string. next_op "="%string.
  (* the string *)
  match goal with |- reads _ (Pos Inside 7 ?f (34 :: 97 :: 10 :: 36 :: 118 :: 34 :: ?r)) (?a :: ?b :: ?c :: ?d :: ?ts) =>
    eapply R_string; [apply Skips_nil | reflexivity | cbn [at_line at_file]];
    apply (S_variable 7 f [97; 10] [97; 10] [118] [c] (34 :: r) ts) end.
  { apply (Body_cons [97] [97] [10] [10]). 1: apply P_plain; lia. apply (Body_cons [10] [10] [] []); [apply P_plain; lia | apply Body_nil]. }
  { apply (X_var [118] []).
    - apply Name_char; [apply word_iff; reflexivity | apply Name_nil].
    - discriminate.
    - apply Accs_nil.
    - unfold after_var. cbn [starts]. unfold word. repeat split; try lia; try discriminate. }
  { match goal with |- lexemes _ _ _ (Pos _ _ ?f ?r) => apply (Lexemes_cons Free _ (Var [36; 118]) (Pos Inside 8 f r)) end; [| apply Lexemes_nil]. apply (T_variable Free Inside _ _ [118]); [is_symbol | apply stopsb_ok; reflexivity]. }
  match goal with |- string_at ?l _ (34 :: ?r) ((_, _, ?f) :: ?ts) => apply (S_end l f [] [] r ts (Body_nil _)) end.
  change (7 + count_lines [97; 10] + count_lines []) with 8. blanks. next_op ";"%string.
  (* a comment *)
  eapply reads_skip.
  { match goal with |- skip (Pos Inside 8 ?f (35 :: 32 :: 120 :: 10 :: ?r)) _ => apply (Skip_comment Inside 8 f [32; 120] r) end.
    - repeat (constructor; [lia |]). constructor.
    - unfold is_directive. rewrite !begins_iff. vm_compute. intuition discriminate.
    - intros (E & _). discriminate E. }
  cbn [Z.add Pos.add Pos.succ]. next_var "s"%string. next_op "->"%string.
  (* a keyword as the name of a method *)
  split_text [110; 101; 119] ltac:(fun x pl l f tb r ts => apply (reads_one x (Pos pl l f (tb ++ r)) (Sym tb) (Pos Inside l f r));
    [apply (T_symbol x pl l f tb r); [is_symbol | apply stopsb_ok; reflexivity | apply not_fat; vm_compute; reflexivity | discriminate | rewrite begins_iff; discriminate] |]).
  cbn [context_after]. blanks. next_op "("%string.
  (* a keyword in front of a fat comma *)
  split_text [105; 102] ltac:(fun x pl l f tb r ts => apply (reads_one x (Pos pl l f (tb ++ r)) (Str tb) (Pos Inside l f r));
    [apply (T_key x pl l f tb r); [is_symbol | apply lacks_iff; vm_compute; reflexivity | apply stopsb_ok; reflexivity | apply fatb_ok; vm_compute; reflexivity] |]).
  cbn [context_after]. blanks. next_op "=>"%string.
  (* a number *)
  split_text [49] ltac:(fun x pl l f tb r ts => apply (reads_one x (Pos pl l f (tb ++ r)) (Num (CInt 1)) (Pos Inside l f r));
    [apply (T_integer x pl l f false [49] 10 [49] 1 [] 1 r) |]).
  { apply (I_decimal 49 1 [] []); [unfold digit; lia | lia | constructor]. }
  { apply One. unfold digit. lia. }
  { left. split; [reflexivity |]. split; [| unfold suffix_letter; vm_compute; intuition discriminate].
    unfold ends. cbn [Z.eqb Pos.eqb]. split; [unfold digit; lia |]. split; [lia |]. split; [| lia]. intros _. repeat split; try lia. vm_compute. intuition discriminate. }
  { discriminate. }
  { split; [reflexivity | lia]. }
  cbn [context_after]. next_op ")"%string. next_op ";"%string. newline.
  match goal with |- reads _ ?p _ => eapply (R_END Free p p); [apply Skips_nil | reflexivity | cbn [text] | |] end.
  - match goal with |- 95 :: 95 :: 69 :: 78 :: 68 :: 95 :: 95 :: ?r = _ => instantiate (1 := r) end. reflexivity.
  - apply stopsb_ok. reflexivity.
  - apply not_fat. vm_compute. reflexivity.
Qed.

(** ** Where the code differs from the documentation *)
Section Refuted.
  Context (F D : Type) (strtof : list Z -> F * Z) (strtod : list Z -> D * Z) (fneg : F -> F) (dneg : D -> D) (file : list Z).
  Definition lex (s : string) : outcome (list (token (constant F D) * Z * list Z)) :=
    tokens F D strtof strtod fneg dneg (source s) 20 100 (start (source s) file).
  Local Notation END l := (Tok "END_OF_FILE" "END_OF_FILE", l, file).
  Local Notation x := (Var [36; 120]).
  Local Notation tok a b l := (Tok a b, l, file).

  (** The character behind < and > is lost; if it is a line terminator, the line
      is not counted. *)
  Theorem C64_less_refuted :
    lex "$x<2;" = Ret [(x, 1, file); tok "NUMLT" "NUMERIC_COMPARISON_LT" 1; tok ";" "DO_NOTHING" 1; END 1] /\
    lex "$x>$x;" = Ret [(x, 1, file); tok "NUMGT" "NUMERIC_COMPARISON_GT" 1; (Sym [120], 1, file); tok ";" "DO_NOTHING" 1; END 1] /\
    lex "$x >
2;" = Ret [(x, 1, file); tok "NUMGT" "NUMERIC_COMPARISON_GT" 1; (Num (CInt 2), 1, file); tok ";" "DO_NOTHING" 1; END 1].
  Proof. repeat split; vm_compute; reflexivity. Qed.
  (** So is the one behind the keyword scalar. *)
  Theorem C64_scalar_refuted : lex "scalar@$x;" = Ret [tok "SCALAR" "SCALAR" 1; (x, 1, file); tok ";" "DO_NOTHING" 1; END 1].
  Proof. vm_compute; reflexivity. Qed.
  (** A line terminator in a character literal is not counted. *)
  Theorem C64_character_refuted : lex "'
' $x" = Ret [(Chr 10, 1, file); (x, 1, file); END 1].
  Proof. vm_compute; reflexivity. Qed.
  (** Nor is the line of a file or a lib directive. *)
  Theorem C64_directive_lines_refuted :
    lex "#file ""a""
$x" = Ret [(x, 1, [97]); (Tok "END_OF_FILE" "END_OF_FILE", 1, [97])] /\
    lex "#lib ""a""
$x" = Ret [(x, 1, file); END 1].
  Proof. split; vm_compute; reflexivity. Qed.
  (** A file or lib directive that is not closed: the source is read beyond its end. *)
  Theorem C64_directive_end_refuted : lex "#file ""a" = UB /\ lex "#lib ""a" = UB.
  Proof. split; vm_compute; reflexivity. Qed.
  (** A line directive with anything that begins with a number. *)
  Theorem C64_line_directive_refuted : lex "#line 5-3
$x" = Ret [(x, 5, file); END 5].
  Proof. vm_compute; reflexivity. Qed.
  (** A variable without a name. *)
  Theorem C64_empty_name_refuted : lex "$ ${} ;" = Ret [(Var [36], 1, file); (Var [36], 1, file); tok ";" "DO_NOTHING" 1; END 1].
  Proof. vm_compute; reflexivity. Qed.
  (** A POD ends in the middle of a line. *)
  Theorem C64_pod_refuted : lex "=pod
see =cut below
$x" = Ret [(x, 3, file); END 3].
  Proof. vm_compute; reflexivity. Qed.
  (** The semicolon of a here document at the end of the source is lost. *)
  Theorem C64_document_end_refuted : lex "<<'A';
A
" = Ret [(Str [], 3, file); END 3].
  Proof. vm_compute; reflexivity. Qed.
End Refuted.

Print Assumptions C64_tokens_partial.
Print Assumptions C64_unambiguous.
Print Assumptions C64_less_refuted.
Print Assumptions C64_scalar_refuted.
Print Assumptions C64_character_refuted.
Print Assumptions C64_directive_lines_refuted.
Print Assumptions C64_directive_end_refuted.
Print Assumptions C64_line_directive_refuted.
Print Assumptions C64_empty_name_refuted.
Print Assumptions C64_pod_refuted.
Print Assumptions C64_document_end_refuted.
