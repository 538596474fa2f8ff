(** * C67: the parser reads a token list by the documented grammar and precedence *)
From Coq Require Import NArith Lia String.
From Verif Require Import Base YaccTables_model Yacc_model Yacc_spec YaccCert_proofs YaccCheck_proofs Yacc_proofs.
Local Open Scope string_scope.
Local Open Scope Z_scope.
Local Open Scope list_scope.

Definition source_tokens (w : list (Z * nat)) : Prop := Forall (fun p => 0 < fst p) w.
Lemma reading_accepts w t : reading w t <-> accepts w t.
Proof. unfold reading, accepts. destruct start_facts as (_ & _ & _ & _ & _ & _ & E & _). rewrite E. reflexivity. Qed.

(** The parser accepts the tokens [w] with the tree [t] exactly if [t] is their reading
    and the tree is not too deep for the stack of 10000 entries. *)
Theorem C67_accepts_partial w t : source_tokens w ->
  (exists fuel, parse fuel w = Accept t) <-> reading w t /\ 1 + Z.of_nat (need t) < 10000.
Proof.
  intros Hp. rewrite reading_accepts. split.
  - intros (f & E). assert (A : accepts w t).
    { pose proof (sound YYMAXDEPTH f [0] [] [] w (inv0 _) Hp) as S'. unfold parse in E. rewrite E in S'. exact S'. }
    split; [exact A |]. destruct (complete YYMAXDEPTH w t Hp A ltac:(reflexivity)) as (f' & E').
    unfold parse in E. assert (D := fuel_det YYMAXDEPTH f f' [0] [] w). rewrite E, E' in D.
    change YYMAXDEPTH with 10000 in D. destruct (Z.ltb_spec (1 + Z.of_nat (need t)) 10000); [assumption |].
    specialize (D ltac:(discriminate) ltac:(discriminate)). discriminate.
  - intros (A & N). destruct (complete YYMAXDEPTH w t Hp A ltac:(reflexivity)) as (f' & E'). exists f'. unfold parse. rewrite E'.
    change YYMAXDEPTH with 10000. destruct (Z.ltb_spec (1 + Z.of_nat (need t)) 10000); [reflexivity | lia].
Qed.

(** Tokens have at most one reading. *)
Theorem C67_unique w t t' : source_tokens w -> reading w t -> reading w t' -> t = t'.
Proof. rewrite !reading_accepts. apply unique. Qed.

(** The parser comes to an end for every token list, with one result: a tree, a syntax
    error or too great a depth. It never reads outside its tables and never goes on
    after an error. A syntax error means that there is no reading; no reading means that
    there is no tree. *)
Theorem C67_result_partial w : source_tokens w ->
  exists fuel r, (forall more, parse (fuel + more) w = r) /\
    ((exists t, r = Accept t) \/ (r = Syntax_error /\ forall t, ~ reading w t) \/
     (r = Exhausted /\ forall t, reading w t -> 10000 <= 1 + Z.of_nat (need t))).
Proof.
  intros Hp. destruct (parse_ends YYMAXDEPTH w Hp ltac:(discriminate)) as (f & E). exists f, (parse f w).
  split; [intros more; now apply fuel_mono |].
  pose proof (sound YYMAXDEPTH f [0] [] [] w (inv0 _) Hp) as S'. fold (parse f w) in S', E.
  assert (C : forall t, reading w t -> parse f w = if 1 + Z.of_nat (need t) <? YYMAXDEPTH then Accept t else Exhausted).
  { intros t Ht. apply reading_accepts in Ht. destruct (complete YYMAXDEPTH w t Hp Ht ltac:(reflexivity)) as (f' & E').
    rewrite <- E'. apply fuel_det; [exact E | rewrite E'; destruct (_ <? _); discriminate]. }
  change YYMAXDEPTH with 10000 in C.
  destruct (parse f w) as [t | | | | |]; [left; eauto | right; left | right; right | destruct S' | destruct S' | congruence].
  - split; [reflexivity |]. intros t Ht. specialize (C t Ht). destruct (_ <? _) in C; discriminate.
  - split; [reflexivity |]. intros t Ht. specialize (C t Ht). destruct (Z.ltb_spec (1 + Z.of_nat (need t)) 10000); [discriminate | lia].
Qed.
Theorem C67_safe w fuel : source_tokens w -> parse fuel w <> UB /\ parse fuel w <> Recovers.
Proof.
  intros Hp. pose proof (sound YYMAXDEPTH fuel [0] [] [] w (inv0 _) Hp) as S'. fold (parse fuel w) in S'.
  split; intros E; rewrite E in S'; exact S'.
Qed.

(** ** Precedence. [chain c u]: [c] is [u], up to the rules that make one operand into
    another. An operand on the right binds at least as tightly as the operator demands;
    the same on the left. *)
Theorem C67_right_operand w t k ts c us k' ts' n :
  reading w t -> subtree (Node k ts) t -> open_right k <> None -> tlist ts = us ++ [c] -> root c = operator ->
  chain c (Node k' ts') -> open_left k' = Some n -> (demands_right k <= n)%nat.
Proof. rewrite reading_accepts. intros A S' O' E. eapply right_level; eauto. Qed.
Theorem C67_left_operand w t k o v c ts k' ts' n :
  reading w t -> subtree (Node k (Cons c (Cons (Leaf o v) ts))) t ->
  chain c (Node k' ts') -> open_right k' = Some n -> (demands_left (kind o) <= n)%nat.
Proof. rewrite reading_accepts. apply left_level. Qed.

(** ** Examples: tokens by their names *)
Definition code (x : string) : Z := nth (Z.to_nat (position (String.eqb x) (skipn 3 terminals))) token_codes 0.
Fixpoint words (l : list string) (i : nat) : list (Z * nat) :=
  match l with [] => [] | x :: l => (code x, i) :: words l (S i) end.
(** The brackets that precedence puts into an expression. *)
Definition name_of (c : Z) : string := nth (Z.to_nat (kind c)) terminals "".
Fixpoint brackets (t : tree) : list string :=
  match t with
  | Leaf c _ => [name_of c]
  | Node k ts => match open_left k, open_right k with None, None => all_brackets ts | _, _ => ["<"] ++ all_brackets ts ++ [">"] end
  end
with all_brackets (ts : trees) : list string :=
  match ts with Nil => [] | Cons t ts => brackets t ++ all_brackets ts end.
Definition result (l : list string) : option (list string) :=
  match parse 400 (words l 0) with Accept t => Some (brackets t) | _ => None end.
Definition statement (l : list string) : list string :=
  ["CLASS"; "SYMBOL_NAME"; "'{'"; "METHOD"; "SYMBOL_NAME"; "':'"; "VOID"; "'('"; "')'"; "'{'"] ++ l ++ ["'}'"; "'}'"; "END_OF_FILE"].
Definition V : string := "VAR_NAME".
Definition inner (l : list string) : option (list string) :=
  match result (statement l) with Some r => Some (firstn (length r - 13) (skipn 10 r)) | None => None end.

(** $a + $b * $c; and $a * $b + $c; *)
Example C67_ex1 : inner [V; "'+'"; V; "'*'"; V; "';'"] = Some ["<"; V; "'+'"; "<"; V; "'*'"; V; ">"; ">"; "';'"].
Proof. vm_compute. reflexivity. Qed.
Example C67_ex2 : inner [V; "'*'"; V; "'+'"; V; "';'"] = Some ["<"; "<"; V; "'*'"; V; ">"; "'+'"; V; ">"; "';'"].
Proof. vm_compute. reflexivity. Qed.
(** $a - $b - $c; groups on the left, $a = $b = $c; on the right. *)
Example C67_ex3 : inner [V; "'-'"; V; "'-'"; V; "';'"] = Some ["<"; "<"; V; "'-'"; V; ">"; "'-'"; V; ">"; "';'"].
Proof. vm_compute. reflexivity. Qed.
Example C67_ex4 : inner [V; "ASSIGN"; V; "ASSIGN"; V; "';'"] = Some ["<"; V; "ASSIGN"; "<"; V; "ASSIGN"; V; ">"; ">"; "';'"].
Proof. vm_compute. reflexivity. Qed.
(** $a == $b == $c; is an error, $a == $b < $c; is not. *)
Example C67_ex5 : inner [V; "NUMEQ"; V; "NUMEQ"; V; "';'"] = None.
Proof. vm_compute. reflexivity. Qed.
Example C67_ex6 : inner [V; "NUMEQ"; V; "NUMLT"; V; "';'"] = Some ["<"; V; "NUMEQ"; "<"; V; "NUMLT"; V; ">"; ">"; "';'"].
Proof. vm_compute. reflexivity. Qed.
(** - $a->[$b] * $c; *)
Example C67_ex7 : inner ["'-'"; V; "ARROW"; "'['"; V; "']'"; "'*'"; V; "';'"] =
  Some ["<"; "<"; "'-'"; "<"; V; "ARROW"; "'['"; V; "']'"; ">"; ">"; "'*'"; V; ">"; "';'"].
Proof. vm_compute. reflexivity. Qed.
(** The hypothesis holds of these tokens. *)
Example C67_tokens_ex : source_tokens (words (statement [V; "'+'"; V; "'*'"; V; "';'"]) 0).
Proof. unfold source_tokens. vm_compute. repeat constructor. Qed.
(** ! $a isa Foo; and ($a + $b) * $c; *)
Example C67_ex8 : inner ["LOGICAL_NOT"; V; "ISA"; "SYMBOL_NAME"; "';'"] = Some ["<"; "<"; "LOGICAL_NOT"; V; ">"; "ISA"; "SYMBOL_NAME"; ">"; "';'"].
Proof. vm_compute. reflexivity. Qed.
Example C67_ex9 : inner ["'('"; V; "'+'"; V; "')'"; "'*'"; V; "';'"] = Some ["<"; "'('"; "<"; V; "'+'"; V; ">"; "')'"; "'*'"; V; ">"; "';'"].
Proof. vm_compute. reflexivity. Qed.

(** The block { } is a statement by the grammar, but the parser reads the empty array
    { } there and wants a semicolon. *)
Example C67_empty_block_ex : inner ["'{'"; "'}'"] = None /\ inner ["'{'"; "'}'"; "';'"] = Some ["'{'"; "'}'"; "';'"]
  /\ inner ["'{'"; "';'"; "'}'"] = Some ["'{'"; "';'"; "'}'"].
Proof. vm_compute. auto. Qed.

(** ** The limit of the stack: 10000 times ! before a variable *)
Definition N_ (x : string) (r : list string) (ts : trees) : tree := Node (rule_number x r) ts.
Definition L_ (x : string) : tree := Leaf (code x) 0.
Fixpoint of (l : list tree) : trees := match l with [] => Nil | t :: l => Cons t (of l) end.
Fixpoint nots (n : nat) : tree :=
  match n with
  | O => N_ "operator" ["var"] (of [N_ "var" ["VAR_NAME"] (of [L_ "VAR_NAME"])])
  | S n => N_ "operator" ["binary_operator"] (of [N_ "binary_operator" ["logical_operator"]
             (of [N_ "logical_operator" ["LOGICAL_NOT"; "operator"] (of [L_ "LOGICAL_NOT"; nots n])])])
  end.
Definition around (u : tree) : tree :=
  N_ "grammar" ["opt_classes"] (of [N_ "opt_classes" ["classes"] (of [N_ "classes" ["class"] (of [
    N_ "class" ["CLASS"; "opt_basic_type"; "opt_extends"; "class_block"; "END_OF_FILE"] (of [L_ "CLASS";
      N_ "opt_basic_type" ["basic_type"] (of [N_ "basic_type" ["SYMBOL_NAME"] (of [L_ "SYMBOL_NAME"])]);
      N_ "opt_extends" [] Nil;
      N_ "class_block" ["'{'"; "opt_definitions"; "'}'"] (of [L_ "'{'";
        N_ "opt_definitions" ["definitions"] (of [N_ "definitions" ["definition"] (of [N_ "definition" ["method"] (of [
          N_ "method" ["opt_attributes"; "METHOD"; "method_name"; "':'"; "return_type"; "'('"; "opt_args"; "')'"; "block"] (of [
            N_ "opt_attributes" [] Nil; L_ "METHOD"; N_ "method_name" ["SYMBOL_NAME"] (of [L_ "SYMBOL_NAME"]); L_ "':'";
            N_ "return_type" ["VOID"] (of [L_ "VOID"]); L_ "'('"; N_ "opt_args" [] Nil; L_ "')'";
            N_ "block" ["'{'"; "opt_statements"; "'}'"] (of [L_ "'{'";
              N_ "opt_statements" ["statements"] (of [N_ "statements" ["statement"] (of [
                N_ "statement" ["operator"; "';'"] (of [u; L_ "';'"])])]); L_ "'}'"])])])])]); L_ "'}'"]);
      L_ "END_OF_FILE"])])])]).

Ltac conjs := repeat match goal with |- _ /\ _ => split | |- True => exact I end.
Lemma nots_root n : root (nots n) = operator.
Proof. destruct n; vm_compute; reflexivity. Qed.
Lemma nots_derivation n : derivation (nots n).
Proof.
  induction n as [| n IH]; cbn [nots of N_ L_ derivation derivations]; conjs; try exact IH; try (vm_compute; congruence);
    try (vm_compute; reflexivity).
  cbn [roots]. rewrite nots_root. vm_compute. reflexivity.
Qed.
Lemma nots_fits n : forall a, fits a false (nots n) (num "';'").
Proof.
  assert (F : forall x r a, open_left (rule_number x r) = None -> end_fits (rule_number x r) false (num "';'") = true ->
            node_fits (rule_number x r) a false (num "';'") = true) by (intros x r a H1 H2; rewrite node_fits_eq, H1, H2; reflexivity).
  induction n as [| n IH]; intros a; cbn [nots of N_ L_ fits all_fit yields first_of]; conjs.
  all: try (match goal with |- node_fits _ _ ?m _ = true => replace m with false by (vm_compute; reflexivity) end; apply F; vm_compute; reflexivity).
  rewrite nots_root. match goal with |- fits _ ?m _ _ => replace m with false by (vm_compute; reflexivity) end. apply IH.
Qed.
Lemma nots_need n : (n <= need (nots n))%nat.
Proof. induction n as [| n IH]; [lia |]. cbn [nots of N_ L_ need needs]. lia. Qed.
Lemma nots_tokens n : source_tokens (yield (nots n)).
Proof.
  induction n as [| n IH]; cbn [nots of N_ L_ yield yields].
  - repeat constructor.
  - rewrite !app_nil_r. cbn [app]. constructor; [vm_compute; reflexivity | exact IH].
Qed.
Definition around_n := Eval vm_compute in around.
Lemma around_eq u : around u = around_n u.
Proof. vm_compute. reflexivity. Qed.
Lemma around_reading n : reading (yield (around (nots n))) (around (nots n)).
Proof.
  split; [| split; [vm_compute; reflexivity | split; [reflexivity |]]].
  - cbn [around of N_ L_ derivation derivations]; conjs; try (apply nots_derivation); try (vm_compute; congruence).
    all: cbn [roots]; rewrite ?nots_root; vm_compute; reflexivity.
  - assert (U := nots_fits n). assert (Rn := nots_root n). generalize dependent (nots n). intros u U Rn. rewrite around_eq. unfold around_n.
    cbn [fits all_fit]. rewrite Rn. conjs; try (lazymatch goal with |- node_fits _ _ _ _ = true => vm_compute; reflexivity end).
    match goal with |- fits _ ?m _ ?b => replace m with false by (vm_compute; reflexivity); replace b with (num "';'") by (vm_compute; reflexivity) end.
    apply U.
Qed.
Lemma need_node a k ts : (a <= needs 0 ts)%nat -> (a <= need (Node k ts))%nat.
Proof. cbn [need]. lia. Qed.
Lemma need_head a i t ts : (a <= need t)%nat -> (a <= needs i (Cons t ts))%nat.
Proof. cbn [needs]. lia. Qed.
Lemma need_tail a i t ts : (a <= needs (S i) ts)%nat -> (a <= needs i (Cons t ts))%nat.
Proof. cbn [needs]. lia. Qed.
Lemma around_need u : (need u <= need (around u))%nat.
Proof.
  rewrite around_eq. unfold around_n.
  let rec go :=
    lazymatch goal with
    | |- (_ <= need (Node _ _))%nat => apply need_node; go
    | |- (_ <= needs _ (Cons _ _))%nat => first [apply need_head; go | apply need_tail; go]
    | |- (_ <= need (Leaf _ _))%nat => fail
    | |- (_ <= needs _ Nil)%nat => fail
    | |- _ => apply le_n
    end in go.
Qed.
Lemma around_tokens u : source_tokens (yield u) -> source_tokens (yield (around u)).
Proof.
  intros H. unfold source_tokens in *. unfold around. cbn [of N_ L_ yield yields app]. rewrite ?app_nil_r.
  repeat (constructor; [vm_compute; reflexivity |]). repeat (apply Forall_app; split); try exact H; repeat (constructor; [vm_compute; reflexivity |]); constructor.
Qed.
Theorem C67_depth_refuted : exists w t, source_tokens w /\ reading w t /\ exists fuel, parse fuel w = Exhausted.
Proof.
  set (n := Z.to_nat 10000). exists (yield (around (nots n))), (around (nots n)).
  pose proof (around_reading n) as R. pose proof (around_tokens _ (nots_tokens n)) as T'.
  split; [exact T' |]. split; [exact R |]. apply reading_accepts in R.
  destruct (complete YYMAXDEPTH _ _ T' R ltac:(reflexivity)) as (f & E). exists f. unfold parse. rewrite E.
  pose proof (around_need (nots n)). pose proof (nots_need n). change YYMAXDEPTH with 10000.
  destruct (Z.ltb_spec (1 + Z.of_nat (need (around (nots n)))) 10000); [unfold n in *; lia | reflexivity].
Qed.
(** Below the limit such a text is accepted. *)
Example C67_nots_ex : exists t, parse 400 (yield (around (nots 5))) = Accept t.
Proof. eexists. vm_compute. reflexivity. Qed.

Print Assumptions C67_accepts_partial.
Print Assumptions C67_unique.
Print Assumptions C67_result_partial.
Print Assumptions C67_safe.
Print Assumptions C67_right_operand.
Print Assumptions C67_left_operand.
Print Assumptions C67_depth_refuted.
