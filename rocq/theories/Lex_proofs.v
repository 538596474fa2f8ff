(** * Proofs about the parts of the tokenizer *)
From Verif Require Import Base CLib CStrto FnMem_model FnNum_spec FnNum_proofs Toke_model Toke_spec TokeNum_proofs TokeStr_proofs TokeExp_proofs.
From Verif Require Import Lex_model Lex_spec.

(** ** Operators *)
Definition is_op (t : string) : bool := existsb (fun e => String.eqb (fst e) t) operators.
Lemma too_long pl t rest t' : operator_here pl t rest -> is_op t' = true -> is_prefix (bytes t') (bytes t ++ rest) = true ->
  (length (bytes t) < length (bytes t'))%nat -> False.
Proof.
  intros [H _] I P L. apply existsb_exists in I. destruct I as ((t2 & k) & I & E). apply String.eqb_eq in E. cbn [fst] in E. subst t2.
  apply is_prefix_spec in P. specialize (H _ _ I P). lia.
Qed.

Lemma alpha_iff c : letter c <-> isalpha_ascii c = true.
Proof. unfold letter, isalpha_ascii. lia. Qed.

Ltac long_op t' :=
  match goal with H : operator_here _ _ _ |- _ => exfalso; apply (too_long _ _ _ t' H); [reflexivity | reflexivity | cbn; lia] end.
Ltac any_long_op :=
  first [ long_op "!="%string | long_op "%="%string | long_op "&&"%string | long_op "&="%string | long_op "=="%string | long_op "=>"%string
        | long_op "^="%string | long_op "||"%string | long_op "|="%string | long_op "--"%string | long_op "-="%string | long_op "->"%string
        | long_op "++"%string | long_op "+="%string | long_op "*="%string | long_op "<=>"%string | long_op "<<="%string | long_op ">>="%string
        | long_op ">>>"%string | long_op ">>>="%string | long_op ".="%string | long_op "/="%string ].

(** Behind the first character of an operator. *)
Local Arguments Z.eqb !x !y.
(** A character that the first cases of the switch are not for. *)
Definition other (c : Z) : Prop := (c =? 32) || (c =? 9) || (c =? 12) = false /\ (c =? 10) = false /\ (c =? 35) = false /\ (c =? 39) = false /\ (c =? 34) = false /\ (c =? 36) = false.
Lemma operator_ok pl t k rest : In (t, k) operators -> operator_here pl t rest -> t <> "<"%string -> t <> ">"%string ->
  exists c c1 p, bytes t ++ rest ++ [0] = c :: c1 :: p /\ operator c (c1 :: p) = Some (Ret (k, rest ++ [0])) /\ other c /\
    (c =? 45) && isdigit_ascii c1 = false /\ (c = 61 -> isalpha_ascii c1 = true -> pl = Inside) /\ (c =? 60) && is_prefix [60; 39] (c1 :: p) = false /\
    (c =? 123) = String.eqb (fst k) "{".
Proof.
  intros I H N1 N2. cbn [operators In] in I.
  repeat (destruct I as [I | I]; [injection I as <- <-; try (exfalso; congruence) |]); [.. | destruct I].
  all: match goal with |- exists c c1 p, bytes ?t ++ _ = _ /\ _ => let v := eval vm_compute in (bytes t) in change (bytes t) with v end; cbn [app].
  all: (destruct rest as [| c rest]; [eexists; eexists; eexists; split; [reflexivity |]; repeat split; discriminate |]).
  all: eexists; eexists; eexists; (split; [reflexivity |]); split; [| split; [repeat split | repeat split]].
  all: try reflexivity; try discriminate.
  all: cbn; unfold operator; cbn; unfold op_not, op_and, op_equal, op_or, op_minus, op_plus, op_less, op_greater, assign_or, got; cbn.
  all: repeat match goal with |- context [?x =? ?y] => destruct (Z.eqb_spec x y); [subst; try reflexivity; try any_long_op |] end; try reflexivity.
  - exfalso. apply (proj1 (proj2 (proj2 H)) eq_refl). cbn. auto.
  - destruct (isalpha_ascii c) eqn:L; [| reflexivity]. exfalso. apply (proj1 (proj2 (proj2 H)) eq_refl). left. apply alpha_iff, L.
  - intros _ L. pose proof (proj1 (proj2 (proj2 (proj2 H))) eq_refl) as X. cbn [starts] in X. rewrite alpha_iff in X.
    destruct pl; try reflexivity; exfalso; apply X; (split; [discriminate | exact L]).
  - destruct (isdigit_ascii c) eqn:L; [| reflexivity]. exfalso. apply (proj1 (proj2 H) eq_refl). cbn. unfold isdigit_ascii in L. lia.
  - exfalso. apply (proj2 (proj2 (proj2 (proj2 H))) eq_refl). reflexivity.
Qed.

(** ** Names *)
Lemma var_name_end n rest : var_name n -> name_stops rest -> name_end (n ++ rest ++ [0]) = Ret (n, rest ++ [0]).
Proof.
  intros V [NW NC]. induction V as [| c t W V IH | t V IH].
  - cbn [app]. destruct rest as [| c rest]; [reflexivity |]. cbn [app name_end]. cbn [starts] in NW. rewrite word_iff in NW. unfold wordb in NW.
    destruct (isalnum_ascii c || (c =? 95)); [congruence |]. destruct (Z.eqb_spec c 58) as [-> |]; [| reflexivity].
    destruct rest as [| d rest]; [reflexivity |]. cbn [app]. destruct (Z.eqb_spec d 58) as [-> |]; [| reflexivity].
    exfalso. apply NC. exists rest. reflexivity.
  - cbn [app name_end]. rewrite word_iff in W. unfold wordb in W. rewrite W, IH. reflexivity.
  - cbn [app name_end]. change (isalnum_ascii 58 || (58 =? 95)) with false. change (58 =? 58) with true. cbn iota. rewrite IH. reflexivity.
Qed.
Lemma lacks_iff k n : lacks k n <-> contains n k = false.
Proof.
  unfold lacks, contains. rewrite <- not_true_iff_false, strstr_spec. split.
  - intros H (a & b & E). exact (H a b E).
  - intros H a b E. apply H. eauto.
Qed.
Lemma symbol_name_checks n : symbol_name n ->
  contains n "__" = false /\ contains n "::::" = false /\ is_prefix (bytes "::") n = false /\ is_prefix (bytes "::") (rev n) = false /\
  match n with c :: _ => isdigit_ascii c | [] => false end = false.
Proof.
  intros (NE & V & A & B & C & E & G). apply lacks_iff in A, B. repeat split; auto.
  - apply not_true_iff_false. rewrite is_prefix_spec. exact C.
  - apply not_true_iff_false. rewrite is_prefix_spec. intros (r & R). apply (E (rev r)). rewrite <- (rev_involutive n), R, rev_app_distr. reflexivity.
  - destruct n as [| c n]; [reflexivity |]. cbn [starts] in G. unfold isdigit_ascii. lia.
Qed.
Lemma symbol_first n : symbol_name n -> exists c t, n = c :: t /\ (letter c \/ c = 95) /\ var_name t.
Proof.
  intros (NE & V & A & B & C & E & G). destruct V as [| c t W V | t V]; [congruence | |].
  - exists c, t. split; auto. split; auto. cbn [starts] in G. unfold word in W. unfold letter. lia.
  - exfalso. apply C. exists t. reflexivity.
Qed.
Lemma begins_iff k u : begins k u <-> is_prefix (bytes k) u = true.
Proof. symmetry. apply is_prefix_spec. Qed.

Lemma variable_ok n rest : symbol_name n -> name_stops rest -> variable (n ++ rest ++ [0]) = Ret (36 :: n, rest ++ [0]).
Proof.
  intros S N. destruct (symbol_name_checks n S) as (A & B & C & E & G). destruct (symbol_first n S) as (c & t & -> & L & _).
  destruct S as (_ & V & _). unfold variable. cbn [app deref obind].
  replace (c =? 123) with false by (unfold letter in L; lia). change (c :: t ++ rest ++ [0]) with ((c :: t) ++ rest ++ [0]).
  rewrite var_name_end by auto. cbn [obind]. rewrite A, B, C, E, G. reflexivity.
Qed.
Lemma variable_brace_ok n rest : symbol_name n -> variable (123 :: n ++ 125 :: rest ++ [0]) = Ret (36 :: n, rest ++ [0]).
Proof.
  intros S. destruct (symbol_name_checks n S) as (A & B & C & E & G). destruct S as (_ & V & _). unfold variable. cbn [deref obind].
  change (123 =? 123) with true. cbn iota. cbn [next tl].
  change (125 :: rest ++ [0]) with ((125 :: rest) ++ [0]). rewrite var_name_end; [| auto | split; [cbn; unfold word; lia | intros (r & R); discriminate R]].
  cbn [obind app deref]. change (125 =? 125) with true. cbn [next tl]. cbn iota. cbn [obind]. rewrite A, B, C, E, G. reflexivity.
Qed.

Lemma space_iff c : space c <-> is_white_space c = true.
Proof. unfold space, is_white_space. lia. Qed.
Lemma split_while (f : Z -> bool) l : exists w r, l = w ++ r /\ Forall (fun c => f c = true) w /\ ~ starts (fun c => f c = true) r.
Proof.
  induction l as [| c l (w & r & -> & W & R)]; [exists [], []; cbn; auto |]. destruct (f c) eqn:E.
  - exists (c :: w), r. auto.
  - exists [], (c :: w ++ r). cbn. rewrite E. auto.
Qed.
Lemma fat_comma_ok rest : exists b, fat_comma (rest ++ [0]) = Ret b /\ (b = true <-> fat rest).
Proof.
  destruct (split_while is_white_space rest) as (w & r & -> & W & R). unfold fat_comma. rewrite <- app_assoc.
  rewrite while_ok; [| exact W | destruct r; discriminate | destruct r; [cbn; discriminate | exact R]]. cbn [obind].
  assert (FAT : fat (w ++ r) <-> begins "=>" r).
  { split.
    - intros (w' & q & E & W'). exists q. clear - W R E W'. revert w' W' E. induction W as [| c w C W IH]; intros w' W' E.
      + destruct W' as [| d w' D W']; [exact E |]. cbn [app] in E. subst r. exfalso. apply R. apply space_iff, D.
      + destruct W' as [| d w' D W'].
        * cbn in E. injection E as -> _. discriminate C.
        * cbn [app] in E. injection E as _ E. eauto.
    - intros (q & ->). exists w, q. split; auto. eapply Forall_impl; [| exact W]. intros c C. apply space_iff, C. }
  rewrite begins_iff in FAT. change (bytes "=>") with [61; 62] in FAT.
  destruct r as [| c r]; [exists false; split; [reflexivity | rewrite FAT; reflexivity] |]. cbn [app deref obind next tl]. destruct (Z.eqb_spec c 61) as [-> |].
  - destruct r as [| d r]; [exists false; split; [reflexivity | rewrite FAT; split; discriminate] |]. cbn [app deref obind].
    exists (d =? 62). split; [reflexivity |]. rewrite FAT. cbn [is_prefix]. change (61 =? 61) with true. rewrite (Z.eqb_sym 62 d). destruct (d =? 62); split; auto.
  - exists false. split; [reflexivity |]. rewrite FAT. replace (is_prefix [61; 62] (c :: r)) with false; [split; auto |].
    symmetry. apply not_true_iff_false. rewrite is_prefix_spec. intros (q & E). injection E as -> _. congruence.
Qed.

(** ** Keywords *)
Lemma same_iff n k : same n k = true <-> n = bytes k.
Proof. unfold same. destruct (list_eq_dec Z.eq_dec n (bytes k)); split; congruence. Qed.
Lemma keyword_ok n k : In (n, k) keywords -> keyword (bytes n) = Some k.
Proof.
  intros I. assert (A : forallb (fun e => match keyword (bytes (fst e)) with Some (a, b) => String.eqb a (fst (snd e)) && String.eqb b (snd (snd e)) | None => false end) keywords = true)
    by (vm_compute; reflexivity).
  rewrite forallb_forall in A. specialize (A _ I). cbn [fst snd] in A. destruct (keyword (bytes n)) as [[a b] |]; [| discriminate].
  apply andb_true_iff in A. destruct A as [A B]. apply String.eqb_eq in A, B. subst. destruct k; reflexivity.
Qed.
Lemma keyword_in n k : keyword n = Some k -> exists t, In (t, k) keywords /\ n = bytes t.
Proof.
  assert (IN : forall t a b, existsb (fun e => String.eqb (fst e) t && String.eqb (fst (snd e)) a && String.eqb (snd (snd e)) b) keywords = true -> In (t, (a, b)) keywords).
  { intros t a b X. apply existsb_exists in X. destruct X as ((t' & (a' & b')) & X & Y). cbn [fst snd] in Y.
    apply andb_true_iff in Y. destruct Y as [Y1 Y3]. apply andb_true_iff in Y1. destruct Y1 as [Y1 Y2]. apply String.eqb_eq in Y1, Y2, Y3. subst. exact X. }
  unfold keyword, kw. destruct n as [| c n]; [discriminate |].
  repeat match goal with
  | |- (if same ?n ?t then Some (?a, ?b) else ?r) = Some k -> _ =>
      let E := fresh in destruct (same n t) eqn:E; [intros [= <-]; exists t; split; [apply IN; vm_compute; reflexivity | apply same_iff, E] | clear E]
  | |- (if c =? ?k' then _ else _) = Some k -> _ => destruct (c =? k')
  | |- None = Some _ -> _ => discriminate
  end.
Qed.

(** ** Comments and POD *)
Lemma comment_ok u s : one_line u -> comment (u ++ 10 :: s) = Ret (s, true).
Proof.
  intros O. induction O as [| c u [A B] O IH]; [reflexivity |]. cbn [app comment]. destruct (Z.eqb_spec c 10); [lia |]. destruct (Z.eqb_spec c 0); [lia |]. exact IH.
Qed.
Lemma comment_end u : one_line u -> comment (u ++ [0]) = Ret ([0], false).
Proof.
  intros O. induction O as [| c u [A B] O IH]; [reflexivity |]. cbn [app comment]. destruct (Z.eqb_spec c 10); [lia |]. destruct (Z.eqb_spec c 0); [lia |]. exact IH.
Qed.
Lemma line_rest_ok u s : one_line u -> s = [] \/ starts (eq 10) s -> line_rest (u ++ s ++ [0]) = Ret (s ++ [0]).
Proof.
  intros O S. induction O as [| c u [A B] O IH].
  - destruct s as [| c s]; [reflexivity |]. destruct S as [S | S]; [discriminate |]. cbn in S. subst c. reflexivity.
  - cbn [app line_rest]. destruct (Z.eqb_spec c 10); [lia |]. destruct (Z.eqb_spec c 0); [lia |]. exact IH.
Qed.
Lemma count_lines_cons c b : count_lines (c :: b) = (if c =? 10 then 1 else 0) + count_lines b.
Proof.
  unfold count_lines. cbn [filter]. rewrite (Z.eqb_sym 10 c). destruct (c =? 10); [rewrite zlen_cons |]; lia.
Qed.
Lemma count_lines_app a b : count_lines (a ++ b) = count_lines a + count_lines b.
Proof. induction a as [| c a IH]; [reflexivity |]. cbn [app]. rewrite !count_lines_cons, IH. lia. Qed.
Lemma count_lines_none a : ~ In 10 a -> count_lines a = 0.
Proof.
  induction a as [| c a IH]; intros N; [reflexivity |]. rewrite count_lines_cons, IH by (cbn in N; tauto). destruct (Z.eqb_spec c 10); [cbn in N; lia | reflexivity].
Qed.

(** One more character of a POD. *)
Lemma pod_step x c b s lines : c <> 0 -> ~ cut (c :: b ++ s) -> ~ In 0 b -> s = [] \/ begins "=cut" s ->
  pod (x :: c :: b ++ s ++ [0]) lines = pod (c :: b ++ s ++ [0]) (if c =? 10 then lines + 1 else lines).
Proof.
  intros C NC NZ S. cbn [pod deref obind next tl]. destruct (Z.eqb_spec c 0); [lia |].
  destruct ((c =? 61) && is_prefix (bytes "cut") (b ++ s ++ [0])) eqn:P; [| reflexivity].
  apply andb_true_iff in P. destruct P as [P1 P2]. apply Z.eqb_eq in P1. subst c. apply is_prefix_spec in P2. destruct P2 as [r P2].
  change (zdrop 4 (61 :: b ++ s ++ [0])) with (skipn 3 (b ++ s ++ [0])). rewrite P2. change (skipn 3 (bytes "cut" ++ r)) with r.
  destruct r as [| e r].
  { exfalso. rewrite app_assoc in P2. change (bytes "cut" ++ []) with ([99; 117] ++ [116]) in P2. apply app_inj_tail in P2. destruct P2; discriminate. }
  cbn [deref obind]. destruct ((e =? 0) || is_white_space e) eqn:E; [| reflexivity]. exfalso. apply NC. unfold cut.
  destruct b as [| b1 [| b2 [| b3 b]]].
  - exists (skipn 4 (61 :: [] ++ s)). destruct S as [-> | [q ->]]; [| discriminate P2]. discriminate P2.
  - destruct S as [-> | [q ->]]; discriminate P2.
  - destruct S as [-> | [q ->]]; discriminate P2.
  - cbn [app] in P2. injection P2 as -> -> -> P2. exists (b ++ s). split; [reflexivity |].
    destruct b as [| b4 b].
    + destruct S as [-> | [q ->]]; [left; reflexivity |]. cbn in P2. injection P2 as <- _. discriminate E.
    + cbn [app] in P2. injection P2 as <- _. right. cbn [app starts]. apply space_iff. apply orb_true_iff in E. destruct E as [E | E]; [| exact E].
      exfalso. apply NZ. do 3 right. left. lia.
Qed.
Lemma no_cut_tail c b s : no_cut (c :: b) s -> ~ cut (c :: b ++ s) /\ no_cut b s.
Proof.
  intros N. split; [apply (N [] (c :: b)); [reflexivity | discriminate] |]. intros x y -> NE. apply (N (c :: x) y); auto.
Qed.
Lemma pod_ok b u s : ~ In 0 b -> no_cut b (bytes "=cut" ++ u ++ s) -> one_line u -> cut (bytes "=cut" ++ u ++ s) -> s = [] \/ starts (eq 10) s ->
  forall x lines, pod (x :: b ++ bytes "=cut" ++ u ++ s ++ [0]) lines = Ret (s ++ [0], lines + count_lines b).
Proof.
  intros NZ NC O CU SS. induction b as [| c b IH]; intros x lines.
  - change (pod (x :: [] ++ bytes "=cut" ++ u ++ s ++ [0]) lines) with (let! e := deref (u ++ s ++ [0]) in
      if (e =? 0) || is_white_space e then let! r := line_rest (u ++ s ++ [0]) in Ret (r, lines) else pod (bytes "=cut" ++ u ++ s ++ [0]) lines).
    rewrite line_rest_ok by auto. cbn [obind]. destruct CU as (r & R & CU). apply app_inv_head in R.
    change (count_lines []) with 0. rewrite Z.add_0_r.
    assert (D : exists e, deref (u ++ s ++ [0]) = Ret e /\ (e =? 0) || is_white_space e = true).
    { rewrite app_assoc, R. destruct r as [| e r]; [exists 0; auto |]. exists e. split; [reflexivity |]. destruct CU as [CU | CU]; [discriminate |].
      cbn [starts] in CU. apply space_iff in CU. rewrite CU. apply orb_true_r. }
    destruct D as (e & -> & D). cbn [obind]. rewrite D. reflexivity.
  - apply no_cut_tail in NC. destruct NC as [NC1 NC2]. cbn [app].
    rewrite !app_assoc, <- (app_assoc b), <- (app_assoc b), <- !app_assoc.
    replace (b ++ bytes "=cut" ++ u ++ s ++ [0]) with (b ++ (bytes "=cut" ++ u ++ s) ++ [0]) by (rewrite <- !app_assoc; reflexivity).
    rewrite pod_step; [| cbn in NZ; lia | exact NC1 | cbn in NZ; tauto | right; exists (u ++ s); reflexivity].
    replace (b ++ (bytes "=cut" ++ u ++ s) ++ [0]) with (b ++ bytes "=cut" ++ u ++ s ++ [0]) by (rewrite <- !app_assoc; reflexivity).
    rewrite IH; [| cbn in NZ; tauto | exact NC2]. rewrite count_lines_cons. destruct (c =? 10); f_equal; f_equal; lia.
Qed.
Lemma pod_end b : ~ In 0 b -> no_cut b [] -> forall x lines, pod (x :: b ++ [0]) lines = Ret ([0], lines + count_lines b).
Proof.
  intros NZ NC. induction b as [| c b IH]; intros x lines.
  - change (count_lines []) with 0. rewrite Z.add_0_r. reflexivity.
  - apply no_cut_tail in NC. destruct NC as [NC1 NC2]. cbn [app]. pose proof (pod_step x c b [] lines) as P. cbn [app] in P.
    rewrite P; [| cbn in NZ; lia | exact NC1 | cbn in NZ; tauto | auto]. rewrite IH; [| cbn in NZ; tauto | exact NC2].
    rewrite count_lines_cons. destruct (c =? 10); f_equal; f_equal; lia.
Qed.

(** ** Directives *)
Lemma spaces_ok m c r : c <> 32 -> skip_spaces (repeat 32 m ++ c :: r) = Ret (c :: r).
Proof.
  intros C. unfold skip_spaces. rewrite while_ok; [reflexivity | | discriminate | cbn; lia].
  induction m; constructor; auto.
Qed.
Lemma path_ok f r : Forall (fun c => c <> 34 /\ c <> 10) f -> path (f ++ 34 :: r) = Ret (f, r).
Proof.
  induction 1 as [| c f [A B] H IH]; [reflexivity |]. cbn [app path]. destruct (Z.eqb_spec c 34); [lia |]. destruct (Z.eqb_spec c 10); [lia |]. rewrite IH. reflexivity.
Qed.
Lemma path_directive_ok q f r : quoted_path q f r -> path_directive (q ++ [0]) = Ret (f, r ++ [0]).
Proof.
  intros [m n f' r' NE H]. unfold path_directive. rewrite <- !app_assoc. cbn [app]. rewrite spaces_ok by lia. cbn [obind deref next tl].
  change (34 =? 34) with true. cbn iota. rewrite <- app_assoc. cbn [app]. rewrite path_ok by exact H. cbn [obind].
  rewrite <- app_assoc. cbn [app]. rewrite spaces_ok by lia. cbn [obind deref next tl]. change (10 =? 10) with true. cbn iota.
  destruct f' as [| c f']; [congruence |]. rewrite zlen_cons. replace (1 + zlen f' =? 0) with false by (pose proof (zlen_nonneg f'); lia). reflexivity.
Qed.

Lemma read_digits_app base ds s : Forall (fun c => digit_of c <? base = true) ds -> (match s with [] => true | c :: _ => negb (digit_of c <? base) end) = true ->
  forall acc n, read_digits base (ds ++ s) acc n = read_digits base ds acc n.
Proof.
  intros H S. induction H as [| c ds C H IH]; intros acc n.
  - destruct s as [| c s]; [reflexivity |]. cbn. destruct (digit_of c <? base); [discriminate | reflexivity].
  - cbn [app read_digits]. rewrite C. apply IH.
Qed.
Lemma strtoll_number ds n s : number 10 ds n -> 1 <= n <= INT32_MAX -> (match s with [] => true | c :: _ => negb (digit_of c <? 10) end) = true ->
  fst (fst (strtoll 10 (ds ++ s))) = n /\ snd (strtoll 10 (ds ++ s)) = false.
Proof.
  intros N L S. pose proof (strtoll_digits 10 ds n ltac:(cbn; auto) N ltac:(lia)) as E.
  destruct (number_digs 10 ds n ltac:(lia) N) as [DG NE]. destruct ds as [| d ds]; [congruence |].
  assert (DS : Forall (fun c => digit_of c <? 10 = true) (d :: ds)).
  { eapply Forall_impl; [| exact DG]. intros c C. apply (digit_range 10) in C; lia. }
  inversion DG as [| ? ? D0 DG']; subst. apply dec_char in D0.
  unfold strtoll, strto in *. cbn [app skip_while] in *. replace (c_isspace d) with false in * by (unfold c_isspace; lia).
  cbn [take_sign] in *. destruct (Z.eqb_spec d 45); [lia |]. destruct (Z.eqb_spec d 43); [lia |].
  assert (TP : forall l, take_prefix 10 l = (0, l)) by (intros [| a [| b [| e l]]]; reflexivity). rewrite TP in *.
  change (d :: ds ++ s) with ((d :: ds) ++ s). rewrite (read_digits_app 10 (d :: ds) s DS S).
  destruct (read_digits 10 (d :: ds) 0 0) as [v k]. destruct (k =? 0); [injection E; intros; lia |].
  destruct (v <? INT64_MIN); [discriminate |]. destruct (INT64_MAX <? v); [discriminate |]. injection E as -> _. auto.
Qed.
Lemma line_directive_ok m ds n k s : number 10 ds n -> 1 <= n <= INT32_MAX ->
  line_directive (repeat 32 (S m) ++ ds ++ repeat 32 k ++ 10 :: s) = Ret (n, s).
Proof.
  intros N L. destruct (number_digs 10 ds n ltac:(lia) N) as [DG NE].
  assert (D0 : exists d ds', ds = d :: ds' /\ 48 <= d <= 57). { destruct DG as [| d ds' D0 DG]; [congruence |]. exists d, ds'. apply dec_char in D0. auto. }
  destruct D0 as (d & ds' & E & R). unfold line_directive.
  replace (skip_spaces (repeat 32 (S m) ++ ds ++ repeat 32 k ++ 10 :: s)) with (Ret (ds ++ repeat 32 k ++ 10 :: s))
    by (rewrite E; cbn [app]; rewrite spaces_ok by lia; reflexivity).
  cbn [obind]. rewrite while_ok.
  - cbn [obind]. rewrite spaces_ok by lia. cbn [obind deref]. change (10 =? 10) with true. cbn iota.
    replace (Nat.eqb (length (ds ++ repeat 32 k ++ 10 :: s)) (length (10 :: s))) with false.
    2: { symmetry. apply Nat.eqb_neq. rewrite E, !app_length. cbn [length]. lia. }
    cbn [negb]. destruct (strtoll_number ds n (repeat 32 k ++ 10 :: s) N L) as [A B]; [destruct k; reflexivity |].
    destruct (strtoll 10 (ds ++ repeat 32 k ++ 10 :: s)) as [[v u] e]. cbn [fst snd] in A, B. subst v e.
    replace ((1 <=? n) && (n <=? INT32_MAX) && negb false) with true by lia. reflexivity.
  - eapply Forall_impl; [| exact DG]. intros c C. cbn beta. apply dec_char in C. unfold isdigit_ascii. lia.
  - destruct k; discriminate.
  - destruct k; cbn; discriminate.
Qed.

(** ** Here documents *)
Lemma doc_name_word n : doc_name n -> Forall (fun c => c <> 10 /\ c <> 0) n /\ n <> [].
Proof. intros (A & B & _). split; [eapply Forall_impl; [| exact B]; cbn beta; unfold word; lia | exact A]. Qed.
Lemma heredoc_line n u p : one_line u -> heredoc n false (u ++ 10 :: p) = let! (d, r, k) := heredoc n true p in Ret (u ++ 10 :: d, r, k + 1).
Proof.
  induction 1 as [| c u [A B] O IH].
  - cbn [app heredoc andb obind]. change (10 =? 10) with true. cbn iota. destruct (heredoc n true p) as [[[d r] k] | | |]; reflexivity.
  - cbn [app heredoc andb obind]. destruct (Z.eqb_spec c 10); [lia |]. destruct (Z.eqb_spec c 0); [lia |]. rewrite IH.
    destruct (heredoc n true p) as [[[d r] k] | | |]; reflexivity.
Qed.
Lemma prefix_line n u p e r : one_line u -> Forall (fun c => c <> 10 /\ c <> 0) n -> u ++ 10 :: p = n ++ e :: r -> e = 10 -> u = n.
Proof.
  intros O N E ->. revert n N E. induction O as [| c u [A B] O IH]; intros n N E; destruct N as [| d n [D1 D2] N]; cbn [app] in E; try reflexivity;
    [exfalso; injection E; congruence .. |]. injection E as -> E. f_equal; auto.
Qed.
Lemma heredoc_ok n ls rest : doc_name n -> Forall (fun u => one_line u /\ u <> n) ls ->
  heredoc n true (concat (map (fun u => u ++ [10]) ls) ++ n ++ 10 :: rest) = Ret (concat (map (fun u => u ++ [10]) ls), rest, zlen ls + 1).
Proof.
  intros DN L. destruct (doc_name_word n DN) as [W NE]. induction L as [| u ls [O U] L IH].
  - cbn [map concat app]. assert (P : is_prefix n (n ++ 10 :: rest) = true) by (apply is_prefix_spec; eauto).
    assert (SK : skipn (length n) (n ++ 10 :: rest) = 10 :: rest) by (rewrite skipn_app, skipn_all, Nat.sub_diag; reflexivity).
    destruct n as [| c n]; [congruence |]. cbn [app] in P, SK. cbn [app heredoc]. rewrite P. cbn [andb]. rewrite SK. reflexivity.
  - cbn [map concat]. rewrite <- !app_assoc. cbn [app]. set (p := concat _ ++ n ++ _) in *.
    assert (E : heredoc n true (u ++ 10 :: p) = heredoc n false (u ++ 10 :: p)).
    { assert (NP : (let! last := if true && is_prefix n (u ++ 10 :: p) then let! e := deref (skipn (length n) (u ++ 10 :: p)) in Ret (e =? 10) else Ret false in Ret last) = Ret false).
      { cbn [andb]. destruct (is_prefix n (u ++ 10 :: p)) eqn:P; [| reflexivity]. apply is_prefix_spec in P. destruct P as [r P].
        rewrite P, skipn_app, skipn_all, Nat.sub_diag. cbn [app skipn]. destruct r as [| e r].
        { exfalso. rewrite app_nil_r in P. assert (I : In 10 n) by (rewrite <- P; apply in_or_app; right; left; reflexivity).
          rewrite Forall_forall in W. apply W in I. lia. }
        cbn [deref obind]. destruct (Z.eqb_spec e 10); [| reflexivity]. exfalso. apply U. eapply prefix_line; eauto. }
      destruct u as [| c u]; cbn [app heredoc] in *.
      - destruct (if true && is_prefix n (10 :: p) then _ else _) as [b | | |]; cbn [obind] in NP; try discriminate. injection NP as ->. reflexivity.
      - destruct (if true && is_prefix n (c :: u ++ 10 :: p) then _ else _) as [b | | |]; cbn [obind] in NP; try discriminate. injection NP as ->. reflexivity. }
    rewrite E, heredoc_line by exact O. rewrite IH. cbn [obind]. rewrite zlen_cons. cbn [app]. f_equal. f_equal. lia.
Qed.
Lemma here_document_ok n ls rest : doc_name n -> Forall (fun u => one_line u /\ u <> n) ls ->
  here_document (n ++ bytes "';" ++ 10 :: concat (map (fun u => u ++ [10]) ls) ++ n ++ 10 :: rest) = Ret (concat (map (fun u => u ++ [10]) ls), rest, zlen ls + 2).
Proof.
  intros DN L. unfold here_document. destruct DN as (NE & W & NU & ND).
  rewrite while_ok; [| eapply Forall_impl; [| exact W]; intros c C; apply word_iff in C; exact C | discriminate | cbn; discriminate]. cbn [obind].
  replace (zlen n =? 0) with false by (destruct n as [| c n]; [congruence | rewrite zlen_cons; pose proof (zlen_nonneg n); lia]).
  cbn [negb]. rewrite (proj1 (lacks_iff _ _) NU). replace (match n with c :: _ => isdigit_ascii c | [] => false end) with false
    by (destruct n as [| c n]; [reflexivity | cbn in ND; unfold isdigit_ascii; lia]).
  cbn [negb app]. change (is_prefix [39; 59; 10] (bytes "';" ++ 10 :: concat (map (fun u => u ++ [10]) ls) ++ n ++ 10 :: rest)) with true. cbn iota.
  change (skipn 3 (bytes "';" ++ 10 :: concat (map (fun u => u ++ [10]) ls) ++ n ++ 10 :: rest)) with (concat (map (fun u => u ++ [10]) ls) ++ n ++ 10 :: rest).
  rewrite heredoc_ok; [cbn [obind]; f_equal; f_equal; lia | repeat split; auto | exact L].
Qed.
