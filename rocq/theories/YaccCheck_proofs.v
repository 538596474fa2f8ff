(** * Checking the tables of the parser against the grammar *)
From Coq Require Import NArith PArith Lia.
From Verif Require Import Base YaccTables_model Yacc_model Yacc_spec YaccCert_proofs.
Local Open Scope Z_scope.

(** ** Lookup trees *)
Inductive trie (A : Type) := E | T (l : trie A) (o : option A) (r : trie A).
Arguments E {A}. Arguments T {A} l o r.
Fixpoint get {A} (t : trie A) (p : positive) : option A :=
  match t with
  | E => None
  | T l o r => match p with xH => o | xO p => get l p | xI p => get r p end
  end.
Fixpoint set {A} (p : positive) (a : A) (t : trie A) : trie A :=
  match p with
  | xH => match t with E => T E (Some a) E | T l _ r => T l (Some a) r end
  | xO p => match t with E => T (set p a E) None E | T l o r => T (set p a l) o r end
  | xI p => match t with E => T E None (set p a E) | T l o r => T l o (set p a r) end
  end.
Lemma get_set {A} p : forall (a : A) t q, get (set p a t) q = if (q =? p)%positive then Some a else get t q.
Proof.
  induction p as [p IH | p IH |]; intros a t q; destruct t as [| l o r], q; cbn; try reflexivity; rewrite ?IH; try reflexivity;
    destruct (_ =? _)%positive; reflexivity.
Qed.
Fixpoint of_list {A} (l : list A) (p : positive) : trie A :=
  match l with [] => E | a :: l => set p a (of_list l (Pos.succ p)) end.
Lemma get_of_list {A} (l : list A) : forall p q,
  get (of_list l p) q = if (q <? p)%positive then None else nth_error l (Pos.to_nat q - Pos.to_nat p).
Proof.
  induction l as [| a l IH]; intros p q; cbn [of_list].
  - cbn. destruct (q <? p)%positive; [reflexivity |]. now destruct (Pos.to_nat q - Pos.to_nat p)%nat.
  - rewrite get_set, IH. destruct (Pos.eqb_spec q p) as [-> | N].
    + rewrite Pos.ltb_irrefl, Nat.sub_diag. reflexivity.
    + destruct (Pos.ltb_spec q p), (Pos.ltb_spec q (Pos.succ p)); try lia; [reflexivity |].
      replace (Pos.to_nat q - Pos.to_nat p)%nat with (S (Pos.to_nat q - Pos.to_nat (Pos.succ p))) by lia. reflexivity.
Qed.
Definition zget {A} (t : trie A) (i : Z) : option A := if i <? 0 then None else get t (Z.to_pos (i + 1)).
Definition table {A} (l : list A) : trie A := of_list l 1.
Lemma zget_table {A} (l : list A) i : zget (table l) i = if i <? 0 then None else nth_error l (Z.to_nat i).
Proof.
  unfold zget, table. destruct (Z.ltb_spec i 0); [reflexivity |]. rewrite get_of_list.
  destruct (Pos.ltb_spec (Z.to_pos (i + 1)) 1); [lia |]. f_equal. lia.
Qed.
Lemma zget_in {A} (l : list A) i a : zget (table l) i = Some a -> In a l.
Proof. rewrite zget_table. destruct (i <? 0); [discriminate |]. apply nth_error_In. Qed.
Definition keyed {A} (l : list (Z * A)) : trie A := fold_right (fun '(x, a) t => set (Z.to_pos (x + 1)) a t) E l.
Lemma zget_keyed {A} (l : list (Z * A)) i a :
  (forall x b, In (x, b) l -> 0 <= x) -> zget (keyed l) i = Some a -> In (i, a) l.
Proof.
  unfold zget. destruct (Z.ltb_spec i 0); [discriminate |].
  induction l as [| [x b] l IH]; cbn; intros P H'; [discriminate |]. rewrite get_set in H'.
  destruct (Pos.eqb_spec (Z.to_pos (i + 1)) (Z.to_pos (x + 1))) as [e | N].
  - injection H' as ->. left. f_equal. assert (0 <= x) by (eapply P; left; reflexivity). lia.
  - right. apply IH; [| exact H']. intros y c K. eapply P. right. exact K.
Qed.
Definition upto (n : nat) : list Z := map Z.of_nat (seq 0 n).
Lemma in_upto n i : In i (upto n) <-> 0 <= i < Z.of_nat n.
Proof.
  unfold upto. rewrite in_map_iff. split.
  - intros (j & <- & K). apply in_seq in K. lia.
  - intros K. exists (Z.to_nat i). split; [lia |]. apply in_seq. lia.
Qed.
Lemma nth_error_upto n i : (i < n)%nat -> nth_error (upto n) i = Some (Z.of_nat i).
Proof. intros K. unfold upto. rewrite (nth_error_nth' _ 0) by (rewrite map_length, seq_length; exact K). f_equal.
  rewrite (map_nth Z.of_nat (seq 0 n) 0%nat), seq_nth by exact K. reflexivity. Qed.
Lemma zget_tab {A} (f : Z -> A) n i : 0 <= i < Z.of_nat n -> zget (table (map f (upto n))) i = Some (f i).
Proof.
  intros K. rewrite zget_table. destruct (Z.ltb_spec i 0); [lia |]. rewrite nth_error_map, nth_error_upto by lia.
  cbn. do 2 f_equal. lia.
Qed.
Lemma zget_out {A} (l : list A) i : zget (table l) i <> None -> 0 <= i < zlen l.
Proof.
  rewrite zget_table. destruct (Z.ltb_spec i 0); [congruence |]. intros K. apply nth_error_Some in K. unfold zlen. lia.
Qed.
Fixpoint mask (l : list bool) : N :=
  match l with [] => 0%N | b :: l => if b then N.succ_double (mask l) else N.double (mask l) end.
Definition mem (b : Z) (L : N) : bool := N.testbit L (Z.to_N b).
Lemma mem_mask l : forall i, mem (Z.of_nat i) (mask l) = nth i l false.
Proof.
  unfold mem. induction l as [| b l IH]; intros i; cbn [mask nth].
  - rewrite N.bits_0. now destruct i.
  - destruct i as [| i].
    + destruct b; [rewrite N.succ_double_spec; apply N.testbit_odd_0 | rewrite N.double_spec; apply N.testbit_even_0].
    + specialize (IH i). replace (Z.to_N (Z.of_nat (S i))) with (N.succ (Z.to_N (Z.of_nat i))) by lia.
      destruct b; [rewrite N.succ_double_spec, N.testbit_odd_succ by lia | rewrite N.double_spec, N.testbit_even_succ by lia]; exact IH.
Qed.

(** ** The actions, by rows *)
Fixpoint scan (cnt : nat) (b n : Z) (chk tbl : list Z) (d : act) : list act :=
  match cnt with
  | O => []
  | S cnt =>
      if n <? 0 then d :: scan cnt (b + 1) (n + 1) chk tbl d
      else match chk, tbl with
           | c :: chk, v :: tbl =>
               (if c =? b then if v <=? 0 then if v =? YYTABLE_NINF then Err else Reduce (- v) else Shift v else d)
               :: scan cnt (b + 1) (n + 1) chk tbl d
           | _, _ => d :: scan cnt (b + 1) (n + 1) chk tbl d
           end
  end.
Definition row (n : Z) (d : act) : list act :=
  if n =? YYPACT_NINF then repeat d 137
  else scan 137 0 n (zdrop n yycheck) (zdrop n yytable) d.
Definition rows : list (list act) :=
  map (fun '(n, k) => row n (if k =? 0 then Err else Reduce k)) (combine yypact yydefact).
Lemma lengths_ok : zlen yycheck = YYLAST + 1 /\ zlen yytable = YYLAST + 1 /\ zlen yypact = 558 /\ zlen yydefact = 558.
Proof. vm_compute. auto. Qed.
Definition entry_act (p b : Z) (d : act) : act :=
  if (p + b <? 0) || (YYLAST <? p + b) then d
  else match znth yycheck (p + b), znth yytable (p + b) with
       | Some c, Some v => if c =? b then if v <=? 0 then if v =? YYTABLE_NINF then Err else Reduce (- v) else Shift v else d
       | _, _ => Bad
       end.
Lemma scan_spec cnt : forall b p d i, (i < cnt)%nat -> 0 <= b ->
  nth_error (scan cnt b (p + b) (zdrop (p + b) yycheck) (zdrop (p + b) yytable) d) i = Some (entry_act p (b + Z.of_nat i) d).
Proof.
  induction cnt as [| cnt IH]; intros b p d i Hi Hb; [lia |]. cbn [scan].
  assert (N : forall chk tbl, chk = zdrop (p + (b + 1)) yycheck -> tbl = zdrop (p + (b + 1)) yytable ->
     forall j, i = S j -> nth_error (scan cnt (b + 1) (p + b + 1) chk tbl d) j = Some (entry_act p (b + Z.of_nat i) d)).
  { intros chk tbl -> -> j ->. replace (p + b + 1) with (p + (b + 1)) by lia. rewrite IH by lia. do 2 f_equal. lia. }
  unfold entry_act at 1.
  destruct (Z.ltb_spec (p + b) 0) as [Hn | Hn].
  - destruct i as [| i]; cbn [nth_error].
    + unfold entry_act. rewrite Z.add_0_r. destruct (Z.ltb_spec (p + b) 0); [reflexivity | lia].
    + apply N; [| | reflexivity]; rewrite !zdrop_0 by lia; reflexivity.
  - destruct (Z.leb_spec (p + b) YYLAST) as [Hl | Hl].
    + destruct lengths_ok as (L1 & L2 & _).
      destruct (znth_lt yycheck (p + b)) as [c Ec]; [lia |]. destruct (znth_lt yytable (p + b)) as [v Ev]; [lia |].
      rewrite (zdrop_cons _ _ _ Ec), (zdrop_cons _ _ _ Ev).
      destruct i as [| i]; cbn [nth_error].
      * unfold entry_act. rewrite Z.add_0_r. rewrite Ec, Ev.
        destruct (Z.ltb_spec (p + b) 0); [lia |]. destruct (Z.ltb_spec YYLAST (p + b)); [lia |]. reflexivity.
      * apply N; [| | reflexivity]; f_equal; lia.
    + destruct lengths_ok as (L1 & L2 & _). rewrite !(zdrop_all (p + b)) by lia.
      destruct i as [| i]; cbn [nth_error].
      * unfold entry_act. rewrite Z.add_0_r. destruct (Z.ltb_spec YYLAST (p + b)); [| lia]. now rewrite orb_true_r.
      * apply N; [| | reflexivity]; rewrite zdrop_all by lia; reflexivity.
Qed.
Lemma scan_length cnt : forall b n chk tbl d, length (scan cnt b n chk tbl d) = cnt.
Proof.
  induction cnt as [| cnt IH]; intros; cbn [scan]; [reflexivity |].
  destruct (n <? 0); [cbn; now rewrite IH |]. destruct chk, tbl; cbn; now rewrite IH.
Qed.
Lemma row_length n d : length (row n d) = 137%nat.
Proof. unfold row. destruct (n =? YYPACT_NINF); [apply repeat_length | apply scan_length]. Qed.
Lemma rows_nth s b r : zget (table rows) s = Some r -> 0 <= b < 137 -> znth r b = Some (action s b).
Proof.
  rewrite zget_table. destruct (Z.ltb_spec s 0); [discriminate |]. unfold rows. rewrite nth_error_map. intros H1 Hb.
  destruct (nth_error (combine yypact yydefact) (Z.to_nat s)) as [[n k] |] eqn:En; [| discriminate]. cbn in H1. injection H1 as <-.
  assert (E1 : znth yypact s = Some n /\ znth yydefact s = Some k).
  { unfold znth. destruct (Z.ltb_spec s 0); [lia |].
    revert En. generalize (Z.to_nat s). intros i. generalize yypact, yydefact. induction i as [| i IH]; intros l l' En.
    - destruct l, l'; cbn in *; try discriminate. now inversion En.
    - destruct l, l'; cbn in *; try discriminate. now apply IH. }
  destruct E1 as (E1 & E2). unfold action, default. rewrite E1, E2. unfold row.
  destruct (n =? YYPACT_NINF) eqn:Ep.
  - unfold znth. destruct (Z.ltb_spec b 0); [lia |]. rewrite (nth_error_nth' _ Bad) by (rewrite repeat_length; lia).
    f_equal. apply nth_error_nth. rewrite nth_error_repeat by lia. reflexivity.
  - unfold znth at 1. destruct (Z.ltb_spec b 0); [lia |].
    pose proof (scan_spec 137 0 n (if k =? 0 then Err else Reduce k) (Z.to_nat b)) as Q.
    rewrite Z.add_0_r in Q. rewrite Q by lia. unfold entry_act.
    replace (0 + Z.of_nat (Z.to_nat b)) with b by lia. reflexivity.
Qed.

Definition acts : trie (trie act) := table (map table rows).
Definition act_at (s b : Z) : act :=
  match zget acts s with Some r => match zget r b with Some a => a | None => Bad end | None => Bad end.
Lemma rows_count : zlen rows = 558.
Proof. vm_compute. reflexivity. Qed.
Lemma acts_get s : zget acts s = option_map table (zget (table rows) s).
Proof. unfold acts. rewrite !zget_table. destruct (s <? 0); [reflexivity |]. apply nth_error_map. Qed.
Lemma act_at_action s b : 0 <= s < 558 -> 0 <= b < 137 -> act_at s b = action s b.
Proof.
  intros Hs Hb. unfold act_at. rewrite acts_get.
  destruct (zget (table rows) s) as [r |] eqn:Er; cbn.
  - pose proof (rows_nth _ _ _ Er Hb) as R. change (znth r b) with (if b <? 0 then None else nth_error r (Z.to_nat b)) in R.
    rewrite <- zget_table in R. now rewrite R.
  - exfalso. rewrite zget_table in Er. destruct (Z.ltb_spec s 0); [lia |]. apply nth_error_None in Er.
    pose proof rows_count as C. unfold zlen in C. lia.
Qed.
Lemma act_at_range s b a : act_at s b = a -> a <> Bad -> 0 <= s < 558 /\ 0 <= b < 137.
Proof.
  unfold act_at. rewrite acts_get. destruct (zget (table rows) s) as [r |] eqn:Er; cbn; [| congruence].
  destruct (zget (table r) b) as [a' |] eqn:Ea; [| congruence]. intros _ _. split.
  - rewrite <- rows_count. apply zget_out. congruence.
  - assert (L : zlen r = 137).
    { apply zget_in in Er. unfold rows in Er. apply in_map_iff in Er. destruct Er as ([n k] & <- & _).
      unfold zlen. rewrite row_length. reflexivity. }
    rewrite <- L. apply zget_out. congruence.
Qed.

(** ** What is wanted in a state: level, mark, following tokens, next state *)
Definition entry : Type := nat * bool * N * Z.
Fixpoint wt_rows (l : list (list (Z * (nat * bool * nat)))) (s : Z) (sets : trie N) : list (list (Z * entry)) :=
  match l with
  | [] => []
  | r :: l =>
      map (fun '(a, (n, m, i)) => (a, (n, m, match zget sets (Z.of_nat i) with Some x => x | None => 0%N end,
                                       match goto s a with Some q => q | None => -1 end))) r
      :: wt_rows l (s + 1) sets
  end.
Definition wt : list (list (Z * entry)) := wt_rows wanted_cert 0 (table token_sets).
Definition wt_table : trie (trie entry) := table (map keyed wt).
Definition want (s a : Z) : option entry :=
  match zget wt_table s with Some r => zget r a | None => None end.
Definition is_some {A} (o : option A) : bool := match o with Some _ => true | None => false end.
Lemma wt_rows_goto l sets : forall s i r a n m L q,
  nth_error (wt_rows l s sets) i = Some r -> In (a, (n, m, L, q)) r ->
  q = match goto (s + Z.of_nat i) a with Some q => q | None => -1 end.
Proof.
  induction l as [| r0 l IH]; intros s i r a n m L q H1 H; cbn in H1.
  - destruct i; discriminate.
  - destruct i as [| i]; cbn in H1.
    + injection H1 as <-. apply in_map_iff in H. destruct H as ([a' [[n' m'] j]] & e & _). inversion e; subst. now rewrite Z.add_0_r.
    + eapply IH in H; [| exact H1]. rewrite H. replace (s + 1 + Z.of_nat i) with (s + Z.of_nat (S i)) by lia. reflexivity.
Qed.

(** ** First tokens *)
Definition first_table : trie (N * bool) := table first_cert.
Definition first_at (x : Z) : N * bool :=
  if x <? 137 then (N.shiftl 1 (Z.to_N x), false) else match zget first_table (x - 137) with Some e => e | None => (0%N, false) end.
Fixpoint firsts (xs : list Z) (L : N) : N :=
  match xs with
  | [] => L
  | x :: xs => let (f, e) := first_at x in if e then N.lor f (firsts xs L) else f
  end.
Definition subset (a b : N) : bool := (N.ldiff a b =? 0)%N.
Lemma subset_mem a b x : subset a b = true -> mem x a = true -> mem x b = true.
Proof.
  unfold subset, mem. intros H M. apply N.eqb_eq in H. assert (Q := f_equal (fun z => N.testbit z (Z.to_N x)) H).
  cbn beta in Q. rewrite N.ldiff_spec, N.bits_0, M in Q. destruct (N.testbit b (Z.to_N x)); [reflexivity | discriminate].
Qed.

(** ** The rules: the symbols of each right side with what they get *)
Definition inherit {A} (o : option A) (a : A) : A := match o with Some x => x | None => a end.
Definition plan_level (k : Z) (i : nat) (x : Z) : option nat :=
  if operand (lhs k) && operand x then
    match i with
    | O => None
    | _ => if (Nat.eqb (S i) (length (rhs k))) && (x =? operator) then Some (demands_right k) else Some O
    end
  else Some O.
Definition plan_mark (k : Z) (i : nat) (x : Z) : option bool :=
  if existsb (Z.eqb k) lengths then Some (x =? operator)
  else if k =? block_statement then Some true
  else if existsb (Z.eqb k) braces then None
  else match i with
       | O => if operand (lhs k) && operand x || (lhs k =? operators) && (x =? operators) then None else Some false
       | _ => Some false
       end.
Lemma plan_level_eq k i x a : child_level k i x a = inherit (plan_level k i x) a.
Proof. unfold child_level, plan_level. destruct (operand (lhs k) && operand x); [| reflexivity]. destruct i; [reflexivity |].
  destruct (_ && _); reflexivity. Qed.
Lemma plan_mark_eq k i x m : mark k i x m = inherit (plan_mark k i x) m.
Proof. unfold mark, plan_mark. destruct (existsb _ lengths); [reflexivity |]. destruct (k =? _); [reflexivity |].
  destruct (existsb _ braces); [reflexivity |]. destruct i; [| reflexivity].
  destruct (_ || _), m; reflexivity. Qed.
Fixpoint plan (k : Z) (i : nat) (xs : list Z) : list (Z * option nat * option bool) :=
  match xs with [] => [] | x :: xs => (x, plan_level k i x, plan_mark k i x) :: plan k (S i) xs end.
Record info := Info { i_plan : list (Z * option nat * option bool); i_lhs : Z; i_len : nat; i_open : option nat; i_end : N * N }.
Definition demands : list (Z * nat) := map (fun b => (b, demands_left b)) (upto 137).
Definition toks (l : list (Z * list Z * Z)) (k : Z) : list Z :=
  match rule k with
  | Some (x, r) => map snd (filter (fun '(x', r', t) => (x =? x') && same r r') l)
  | None => []
  end.
Definition end_row (m : bool) (o : option nat) (lo ma : list Z) : list bool :=
  map (fun '(b, d) => leq d o && negb (existsb (Z.eqb b) lo) && negb (m && existsb (Z.eqb b) ma)) demands.
Definition info_of (k : Z) : info :=
  let o := open_right k in let lo := toks longest k in let ma := toks marked k in
  Info (plan k 0 (rhs k)) (lhs k) (length (rhs k)) (open_left k) (mask (end_row false o lo ma), mask (end_row true o lo ma)).
Definition infos : trie info := table (map info_of (upto 289)).
Definition all_rules : list Z := map (fun k => k + 2) (upto 287).
Definition rules_of : trie (list Z) := table (map (fun a => filter (fun k => lhs k =? a) all_rules) (upto 233)).
(** The tokens on which a state reduces by a rule. *)
Definition is_reduce (a : act) (k : Z) : bool := match a with Reduce k' => k' =? k | _ => false end.
Fixpoint kinds (r : list act) (acc : list Z) : list Z :=
  match r with
  | [] => acc
  | Reduce k :: r => kinds r (if existsb (Z.eqb k) acc then acc else k :: acc)
  | _ :: r => kinds r acc
  end.
Definition red_row (r : list act) : list (Z * N) := map (fun k => (k, mask (map (fun a => is_reduce a k) r))) (kinds r []).
Definition reds : trie (list (Z * N)) := table (map red_row rows).
Fixpoint assoc_n (l : list (Z * N)) (k : Z) : N :=
  match l with [] => 0%N | (x, n) :: l => if x =? k then n else assoc_n l k end.
Definition red_at (q k : Z) : N := match zget reds q with Some l => assoc_n l k | None => 0%N end.

(** ** The checks *)
Fixpoint walk (s : Z) (xs : list (Z * option nat * option bool)) (l : nat) (m : bool) (L : N) : option Z :=
  match xs with
  | [] => Some s
  | (x, pl, pm) :: xs =>
      if x <? 137 then match act_at s x with Shift q => walk q xs l m L | _ => None end
      else match want s x with
           | Some (l', m', L', q) =>
               if Nat.eqb l' (inherit pl l) && Bool.eqb m' (inherit pm m) && subset (firsts (map (fun e => fst (fst e)) xs) L) L'
               then walk q xs l m L else None
           | None => None
           end
  end.
Definition is_shift (a : act) : bool := match a with Shift _ => true | _ => false end.
Definition end_check (q k : Z) (e : N) (L : N) : bool :=
  let r := red_at q k in subset (N.land L e) r && subset r e.
Definition skip_check (s : Z) (xs : list (Z * option nat * option bool)) : bool :=
  match xs with
  | (x, _, _) :: (o, _, _) :: _ => (x =? operator) && (o <? 137)
      && match want s operator with Some (_, _, _, q) => negb (is_shift (act_at q o)) | None => false end
  | _ => false
  end.
Definition rule_check (s k : Z) (l : nat) (m : bool) (L : N) : bool :=
  match zget infos k with
  | Some (Info xs _ _ o (e0, e1)) =>
      if leq l o then
        match walk s xs l m L with Some q => end_check q k (if m then e1 else e0) L | None => false end
      else skip_check s xs
  | None => false
  end.
Definition in_states (q : Z) : bool := (0 <=? q) && (q <? 558).
Fixpoint numbered_rows {A} (l : list A) (s : Z) : list (Z * A) :=
  match l with [] => [] | r :: l => (s, r) :: numbered_rows l (s + 1) end.
Definition wants_check : bool :=
  forallb (fun '(s, r) => forallb (fun '(a, (l, m, L, q)) =>
    in_states s && (137 <=? a) && (a <? 233) && in_states q &&
    forallb (fun k => rule_check s k l m L) (match zget rules_of a with Some ks => ks | None => [] end)) r) (numbered_rows wt 0).

Definition start : Z := num "grammar".
Definition items_table : trie (list (Z * nat)) := table items_cert.
Definition items (s : Z) : list (Z * nat) := match zget items_table s with Some l => l | None => [] end.
Definition item_eqb (a b : Z * nat) : bool := (fst a =? fst b) && Nat.eqb (snd a) (snd b).
Definition has_item (s k : Z) (i : nat) : bool := existsb (item_eqb (k, i)) (items s).
(** The symbol at a place of a rule; the rule 1 is [$accept: grammar $end]. *)
Definition symbol_at (k : Z) (j : nat) : Z :=
  if k =? 1 then nth j [start; 0] (-1)
  else match zget infos k with Some i => fst (fst (nth j (i_plan i) (-1, None, None))) | None => -1 end.
Definition lhs_at (k : Z) : Z := match zget infos k with Some i => i_lhs i | None => -1 end.
Definition len_at (k : Z) : nat := match zget infos k with Some i => i_len i | None => O end.
Definition edge_check (p x q : Z) : bool :=
  in_states q && negb (q =? 0) &&
  forallb (fun '(k, i) => match i with
                          | O => false
                          | S j => (symbol_at k j =? x) && (1 <=? k) && (k <=? 288) &&
                                   match j with
                                   | O => if k =? 1 then p =? 0 else is_some (want p (lhs_at k))
                                   | _ => has_item p k j
                                   end
                          end) (items q).
Definition shifts_check : bool :=
  forallb (fun '(p, r) => forallb (fun '(x, a) => match a with Shift q => edge_check p x q | _ => true end) (numbered_rows r 0))
          (numbered_rows rows 0).
Definition gotos_check : bool :=
  forallb (fun '(p, r) => forallb (fun '(a, (_, _, _, q)) => edge_check p a q) r) (numbered_rows wt 0).
Definition reduces_check : bool :=
  forallb (fun '(q, r) => forallb (fun '(b, a) =>
    match a with
    | Reduce k => if q =? YYFINAL then k =? 1 else
        (2 <=? k) && (k <=? 288) &&
        match len_at k with O => is_some (want q (lhs_at k)) | n => has_item q k n end
    | Shift s => negb (q =? YYFINAL) && negb (b =? 1) && negb (b =? 2) && ((negb (b =? 0)) || (s =? YYFINAL))
    | Err => true
    | Bad => false
    end) (numbered_rows r 0)) (numbered_rows rows 0).
Definition rules_check : bool :=
  forallb (fun k => match rule k, znth yyr1 k, znth yyr2 k with
                    | Some (l, r), Some a, Some n => (l =? a) && (zlen r =? n) && (137 <=? l) && (l <? 233)
                        && forallb (fun x => (3 <=? x) && (x <? 233)) r
                    | _, _, _ => false
                    end) all_rules && (zlen rules =? 287).
Definition kinds_check : bool :=
  forallb (fun c => match znth yytranslate c with Some t => t =? kind c | None => false end) (map (fun c => c + 1) (upto 377))
  && forallb (fun c => (1 <=? c) && (c <=? 377)) token_codes && (zlen token_codes =? 134).
Definition firsts_check : bool :=
  forallb (fun k => let (f, e) := first_at (lhs k) in
                    subset (firsts (rhs k) 0) f && implb (forallb (fun x => snd (first_at x)) (rhs k)) e) all_rules.
Definition start_check : bool :=
  match want 0 start with
  | Some (l, m, L, q) => Nat.eqb l 0 && negb m && mem 0 L && match act_at q 0 with Shift s => s =? YYFINAL | _ => false end
  | None => false
  end
  && has_item YYFINAL 1 2 && (num "$end" =? 0) && (137 <=? start) && (start <? 233).
Definition nullable (x : Z) : bool := snd (first_at x).
Definition rank (x : Z) : nat := if x <? 137 then O else S (nth (Z.to_nat (x - 137)) rank_cert O).
Definition ranks_check : bool :=
  forallb (fun k => let xs := rhs k in
    (length xs <=? 11)%nat && (rank (lhs k) <=? 5)%nat && (1 <=? rank (lhs k))%nat &&
    forallb (fun i => implb (forallb nullable (firstn i xs) && forallb nullable (skipn (S i) xs))
                            (Nat.ltb (rank (nth i xs (-1))) (rank (lhs k)))) (seq 0 (length xs))) all_rules.

Lemma wants_ok : wants_check = true. Proof. vm_compute. reflexivity. Qed.
Lemma shifts_ok : shifts_check = true. Proof. vm_compute. reflexivity. Qed.
Lemma gotos_ok : gotos_check = true. Proof. vm_compute. reflexivity. Qed.
Lemma reduces_ok : reduces_check = true. Proof. vm_compute. reflexivity. Qed.
Lemma rules_ok : rules_check = true. Proof. vm_compute. reflexivity. Qed.
Lemma kinds_ok : kinds_check = true. Proof. vm_compute. reflexivity. Qed.
Lemma firsts_ok : firsts_check = true. Proof. vm_compute. reflexivity. Qed.
Lemma start_ok : start_check = true. Proof. vm_compute. reflexivity. Qed.
Lemma ranks_ok : ranks_check = true. Proof. vm_compute. reflexivity. Qed.

(** ** What the checks say *)
Global Opaque wanted_cert items_cert first_cert rank_cert token_sets yypact yytable yycheck yydefact yypgoto yydefgoto
  yytranslate yyr1 yyr2 documented terminals nonterminals token_codes upto wt rows rules.
Ltac bsplit := repeat match goal with H : _ && _ = true |- _ => apply andb_true_iff in H; destruct H end.
Lemma numbered_in {A} (l : list A) : forall s i r, nth_error l i = Some r -> In (s + Z.of_nat i, r) (numbered_rows l s).
Proof.
  induction l as [| a l IH]; intros s [| i] r H; cbn in *; try discriminate.
  - injection H as ->. left. f_equal. lia.
  - right. replace (s + Z.pos (Pos.of_succ_nat i)) with (s + 1 + Z.of_nat i) by lia. now apply IH.
Qed.
Lemma numbered_zget {A} (l : list A) i r : zget (table l) i = Some r -> In (i, r) (numbered_rows l 0).
Proof.
  rewrite zget_table. destruct (Z.ltb_spec i 0); [discriminate |]. intros K. apply (numbered_in l 0) in K.
  now replace (0 + Z.of_nat (Z.to_nat i)) with i in K by lia.
Qed.

(** Rules. *)
Lemma rule_range k : rule k <> None -> 2 <= k <= 288.
Proof.
  intros H. unfold rule, znth in H. destruct (Z.ltb_spec (k - 2) 0); [congruence |].
  apply nth_error_Some in H. pose proof rules_ok as R. unfold rules_check in R. bsplit.
  match goal with H : (zlen rules =? 287) = true |- _ => apply Z.eqb_eq in H; unfold zlen in H end. lia.
Qed.
Lemma all_rules_in k : 2 <= k <= 288 -> In k all_rules.
Proof. intros H. unfold all_rules. apply in_map_iff. exists (k - 2). split; [lia |]. apply in_upto. lia. Qed.
Lemma rule_facts k l r : rule k = Some (l, r) ->
  znth yyr1 k = Some l /\ znth yyr2 k = Some (zlen r) /\ 137 <= l < 233 /\ (forall x, In x r -> 3 <= x < 233).
Proof.
  intros H. pose proof rules_ok as R. unfold rules_check in R. apply andb_true_iff in R. destruct R as (R & _).
  rewrite forallb_forall in R. assert (Rk := rule_range k ltac:(congruence)). specialize (R k (all_rules_in k Rk)).
  rewrite H in R. destruct (znth yyr1 k) as [a |]; [| discriminate]. destruct (znth yyr2 k) as [n |]; [| discriminate].
  bsplit. match goal with H : forallb _ r = true |- _ => rewrite forallb_forall in H; rename H into F end.
  repeat match goal with H : (_ =? _) = true |- _ => apply Z.eqb_eq in H end. subst a n.
  split; [reflexivity |]. split; [reflexivity |]. split; [lia |].
  intros x K. specialize (F x K). apply andb_true_iff in F. destruct F as (U & V). apply Z.leb_le in U. apply Z.ltb_lt in V. lia.
Qed.
Lemma rule_none_some k : 2 <= k <= 288 -> exists l r, rule k = Some (l, r).
Proof.
  intros H. pose proof rules_ok as R. unfold rules_check in R. apply andb_true_iff in R. destruct R as (R & _).
  rewrite forallb_forall in R. specialize (R k (all_rules_in k H)). destruct (rule k) as [[l r] |]; [eauto | discriminate].
Qed.
Lemma info_get k : 2 <= k <= 288 -> zget infos k = Some (info_of k).
Proof. intros H. unfold infos. apply zget_tab. lia. Qed.
Lemma plan_symbols k : forall xs i, map (fun e => fst (fst e)) (plan k i xs) = xs.
Proof. induction xs as [| x xs IH]; intros i; cbn; [reflexivity | now rewrite IH]. Qed.
Lemma symbol_at_eq k j : 2 <= k <= 288 -> symbol_at k j = nth j (rhs k) (-1).
Proof.
  intros H. unfold symbol_at. destruct (Z.eqb_spec k 1); [lia |]. rewrite info_get by lia. cbn [info_of i_plan].
  rewrite <- (plan_symbols k (rhs k) 0) at 2. symmetry. exact (map_nth (fun e => fst (fst e)) (plan k 0 (rhs k)) (-1, None, None) j).
Qed.
Lemma lhs_at_eq k : 2 <= k <= 288 -> lhs_at k = lhs k.
Proof. intros H. unfold lhs_at. now rewrite info_get by lia. Qed.
Lemma len_at_eq k : 2 <= k <= 288 -> len_at k = length (rhs k).
Proof. intros H. unfold len_at. now rewrite info_get by lia. Qed.

(** Tokens. *)
Lemma position_bound {A} (f : A -> bool) l : existsb f l = true -> 0 <= position f l < zlen l.
Proof.
  induction l as [| x l IH]; cbn [existsb position]; [discriminate |]. rewrite zlen_cons. pose proof (zlen_nonneg l).
  destruct (f x); [lia |]. cbn. intros K. specialize (IH K). lia.
Qed.
Lemma kind_range c : 1 <= kind c < 137.
Proof.
  unfold kind. destruct (existsb (Z.eqb c) token_codes) eqn:Q; [| destruct (c =? 256); lia].
  apply position_bound in Q. pose proof kinds_ok as R. unfold kinds_check in R. bsplit.
  match goal with H : (zlen _ =? 134) = true |- _ => apply Z.eqb_eq in H; rewrite H in Q end. lia.
Qed.
Lemma translate_kind c : 0 < c -> translate c = Some (kind c).
Proof.
  intros H. unfold translate. destruct (Z.leb_spec c 0); [lia |]. pose proof kinds_ok as R. unfold kinds_check in R.
  apply andb_true_iff in R. destruct R as (R & _). apply andb_true_iff in R. destruct R as (R1 & R2). rewrite forallb_forall in R1, R2.
  destruct (Z.leb_spec c YYMAXUTOK) as [Hc | Hc].
  - assert (In c (map (fun c => c + 1) (upto 377))).
    { apply in_map_iff. exists (c - 1). split; [lia |]. apply in_upto. change YYMAXUTOK with 377 in Hc. lia. }
    specialize (R1 c H1). destruct (znth yytranslate c); [| discriminate]. apply Z.eqb_eq in R1. now subst.
  - unfold kind. destruct (existsb (Z.eqb c) token_codes) eqn:Q.
    + apply existsb_exists in Q. destruct Q as (x & Hx & e). apply Z.eqb_eq in e. subst x. specialize (R2 c Hx).
      apply andb_true_iff in R2. destruct R2 as (_ & R2). apply Z.leb_le in R2. change YYMAXUTOK with 377 in Hc. lia.
    + change YYMAXUTOK with 377 in Hc. destruct (Z.eqb_spec c 256); [lia |]. reflexivity.
Qed.
Lemma kind_pos c : 3 <= kind c -> 0 < c.
Proof.
  unfold kind. destruct (existsb (Z.eqb c) token_codes) eqn:Q; [| destruct (c =? 256); lia].
  intros _. apply existsb_exists in Q. destruct Q as (x & Hx & e). apply Z.eqb_eq in e. subst x.
  pose proof kinds_ok as R. unfold kinds_check in R. bsplit. rewrite forallb_forall in H1. specialize (H1 c Hx).
  apply andb_true_iff in H1. destruct H1 as (H1 & _). apply Z.leb_le in H1. lia.
Qed.

(** Edges. *)
Lemma want_row s a e : want s a = Some e -> exists r, In (s, r) (numbered_rows wt 0) /\ zget (table wt) s = Some r /\ In (a, e) r.
Proof.
  unfold want, wt_table. rewrite zget_table. destruct (Z.ltb_spec s 0) as [| Hs]; [discriminate |]. rewrite nth_error_map.
  destruct (nth_error wt (Z.to_nat s)) as [r |] eqn:Er; [| discriminate]. cbn. intros K. exists r.
  assert (Z1 : zget (table wt) s = Some r) by (rewrite zget_table; destruct (Z.ltb_spec s 0); [lia | exact Er]).
  assert (In (s, r) (numbered_rows wt 0)) by (now apply numbered_zget).
  split; [assumption |]. split; [exact Z1 |]. apply zget_keyed; [| exact K].
  intros x b Hx. pose proof wants_ok as W. unfold wants_check in W. rewrite forallb_forall in W. specialize (W _ H). cbn in W.
  rewrite forallb_forall in W. specialize (W _ Hx). cbn in W. destruct b as [[[l m] L] q]. bsplit. lia.
Qed.
Lemma want_facts s a l m L q : want s a = Some (l, m, L, q) ->
  0 <= s < 558 /\ 137 <= a < 233 /\ 0 <= q < 558 /\ goto s a = Some q /\
  (forall k, rule k <> None -> lhs k = a -> rule_check s k l m L = true) /\ edge_check s a q = true.
Proof.
  intros H. destruct (want_row _ _ _ H) as (r & H1 & H2 & H3).
  pose proof wants_ok as W. unfold wants_check in W. rewrite forallb_forall in W. specialize (W _ H1). cbn in W.
  rewrite forallb_forall in W. specialize (W _ H3). cbn in W.
  pose proof gotos_ok as G. unfold gotos_check in G. rewrite forallb_forall in G. specialize (G _ H1). cbn in G.
  rewrite forallb_forall in G. specialize (G _ H3). cbn in G.
  unfold in_states in W. bsplit. rewrite forallb_forall in *.
  assert (E1 : q = match goto s a with Some q => q | None => -1 end).
  { rewrite zget_table in H2. destruct (Z.ltb_spec s 0); [discriminate |].
    pose proof (wt_rows_goto _ _ _ _ _ _ _ _ _ _ H2 H3) as Q. now replace (0 + Z.of_nat (Z.to_nat s)) with s in Q by lia. }
  repeat match goal with |- _ /\ _ => split end; try lia; try assumption.
  - destruct (goto s a); [now subst | lia].
  - intros k Hk Hl. match goal with H : forall x, In x _ -> rule_check _ _ _ _ _ = true |- _ => apply H end.
    unfold rules_of. rewrite zget_tab by lia. apply filter_In. split; [apply all_rules_in; now apply rule_range | apply Z.eqb_eq; exact Hl].
Qed.
Lemma rows_entry s b : 0 <= s < 558 -> 0 <= b < 137 ->
  exists r, In (s, r) (numbered_rows rows 0) /\ In (b, action s b) (numbered_rows r 0).
Proof.
  intros Hs Hb. destruct (zget (table rows) s) as [r |] eqn:Er.
  - exists r. split; [now apply numbered_zget |]. apply numbered_zget. rewrite zget_table. exact (rows_nth _ _ _ Er Hb).
  - exfalso. rewrite zget_table in Er. destruct (Z.ltb_spec s 0); [lia |]. apply nth_error_None in Er.
    pose proof rows_count as C. unfold zlen in C. lia.
Qed.
Lemma shift_edge s b q : 0 <= s < 558 -> 0 <= b < 137 -> action s b = Shift q -> edge_check s b q = true.
Proof.
  intros Hs Hb H. destruct (rows_entry s b Hs Hb) as (r & H1 & H2). pose proof shifts_ok as W. unfold shifts_check in W.
  rewrite forallb_forall in W. specialize (W _ H1). cbn in W. rewrite forallb_forall in W. specialize (W _ H2). cbn in W.
  now rewrite H in W.
Qed.
Lemma edge_facts p x q : edge_check p x q = true -> 0 <= q < 558 /\ q <> 0 /\
  forall k i, In (k, i) (items q) -> 1 <= k <= 288 /\ exists j, i = S j /\ symbol_at k j = x /\
    match j with O => if k =? 1 then p = 0 else want p (lhs k) <> None | _ => In (k, j) (items p) end.
Proof.
  unfold edge_check, in_states. intros H. bsplit. rewrite forallb_forall in *.
  split; [lia |]. split; [destruct (Z.eqb_spec q 0); [discriminate | assumption] |].
  intros k i K. specialize (H0 _ K). cbn in H0. destruct i as [| j]; [discriminate |]. bsplit.
  split; [lia |]. exists j. split; [reflexivity |]. split; [lia |].
  destruct j as [| j].
  - destruct (Z.eqb_spec k 1); [lia |]. rewrite lhs_at_eq in * by lia. destruct (want p (lhs k)); [discriminate | discriminate].
  - unfold has_item in *. match goal with H : existsb _ _ = true |- _ => apply existsb_exists in H; destruct H as ([k' j'] & Q & e) end.
    unfold item_eqb in e. cbn [fst snd] in e. apply andb_true_iff in e. destruct e as (e1 & e2). apply Z.eqb_eq in e1. apply Nat.eqb_eq in e2. subst. exact Q.
Qed.
Lemma action_facts q b : 0 <= q < 558 -> 0 <= b < 137 ->
  match action q b with
  | Reduce k => if q =? YYFINAL then k = 1 else rule k <> None /\
      match rhs k with [] => want q (lhs k) <> None | xs => In (k, length xs) (items q) end
  | Shift s => q <> YYFINAL /\ b <> 1 /\ b <> 2 /\ (b = 0 -> s = YYFINAL)
  | Err => True
  | Bad => False
  end.
Proof.
  intros Hs Hb. destruct (rows_entry q b Hs Hb) as (r & H1 & H2). pose proof reduces_ok as W. unfold reduces_check in W.
  rewrite forallb_forall in W. specialize (W _ H1). cbn beta iota in W. rewrite forallb_forall in W. specialize (W _ H2). cbn beta iota in W.
  destruct (action q b) as [s | k | |]; try exact I; try discriminate.
  - bsplit. destruct (Z.eqb_spec q YYFINAL); [discriminate |]. destruct (Z.eqb_spec b 1); [discriminate |]. destruct (Z.eqb_spec b 2); [discriminate |].
    repeat split; try assumption. intros ->. apply orb_true_iff in H0. destruct H0 as [H0 | H0]; [discriminate | now apply Z.eqb_eq].
  - destruct (q =? YYFINAL); [now apply Z.eqb_eq |]. bsplit. assert (Hk : 2 <= k <= 288) by lia.
    destruct (rule_none_some k Hk) as (l & xs & Er). split; [congruence |].
    rewrite len_at_eq, lhs_at_eq in H0 by lia. destruct (rhs k) as [| x xs'].
    + cbn in H0. destruct (want q (lhs k)); discriminate.
    + cbn [length] in H0 |- *. unfold has_item in H0. apply existsb_exists in H0. destruct H0 as ([k' j'] & Q & e).
      unfold item_eqb in e. cbn [fst snd] in e. apply andb_true_iff in e. destruct e as (e1 & e2). apply Z.eqb_eq in e1. apply Nat.eqb_eq in e2. subst. exact Q.
Qed.
Lemma has_item_in s k i : has_item s k i = true -> In (k, i) (items s).
Proof.
  unfold has_item. intros H. apply existsb_exists in H. destruct H as ([k' j'] & Q & e).
  unfold item_eqb in e. cbn [fst snd] in e. apply andb_true_iff in e. destruct e as (e1 & e2). apply Z.eqb_eq in e1. apply Nat.eqb_eq in e2. subst. exact Q.
Qed.
Lemma start_cases w h n (a : Z -> act) :
  (match w with
   | Some (l, m, L, q) => Nat.eqb l 0 && negb m && mem 0 L && match a q with Shift s => s =? YYFINAL | _ => false end
   | None => false
   end && h && (n =? 0) && (137 <=? start) && (start <? 233)) = true ->
  exists L q, w = Some (O, false, L, q) /\ mem 0 L = true /\ a q = Shift YYFINAL /\ h = true /\ n = 0 /\ 137 <= start < 233.
Proof.
  intros H. bsplit. destruct w as [[[[l m] L] q] |]; [| discriminate]. bsplit. exists L, q.
  repeat match goal with H : Nat.eqb _ _ = true |- _ => apply Nat.eqb_eq in H; subst end.
  destruct m; [discriminate |]. destruct (a q); try discriminate.
  repeat match goal with H : (_ =? _) = true |- _ => apply Z.eqb_eq in H; subst end.
  repeat split; auto; lia.
Qed.
Lemma start_facts : exists L q, want 0 start = Some (O, false, L, q) /\ mem 0 L = true /\ action q 0 = Shift YYFINAL /\
  In (1, 2%nat) (items YYFINAL) /\ num "$end" = 0 /\ 137 <= start < 233.
Proof.
  destruct (start_cases (want 0 start) (has_item YYFINAL 1 2) (num "$end") (fun q => act_at q 0) start_ok) as (L & q & H1 & H2 & H3 & H4 & H5 & H6).
  exists L, q. destruct (want_facts _ _ _ _ _ _ H1) as (_ & _ & Hq & _). rewrite act_at_action in H3 by lia.
  split; [exact H1 |]. split; [exact H2 |]. split; [exact H3 |]. split; [exact (has_item_in _ _ _ H4) |]. split; [exact H5 | exact H6].
Qed.

(** The end of a rule. *)
Definition end_fits (k : Z) (m : bool) (b : Z) : bool :=
  leq (demands_left b) (open_right k) && negb (in_list longest k b) && negb (m && in_list marked k b).
Lemma toks_eq l k b : in_list l k b = existsb (Z.eqb b) (toks l k).
Proof.
  unfold in_list, toks. destruct (rule k) as [[x r] |]; [| reflexivity].
  induction l as [| [[x' r'] t] l IH]; cbn; [reflexivity |]. rewrite IH.
  destruct (x =? x'), (same r r'); cbn; destruct (b =? t); reflexivity.
Qed.
Lemma end_mask (k : Z) (m : bool) (b : Z) : 2 <= k <= 288 -> 0 <= b < 137 ->
  mem b (if m then snd (i_end (info_of k)) else fst (i_end (info_of k))) = end_fits k m b.
Proof.
  intros Hk Hb. change (i_end (info_of k)) with (mask (end_row false (open_right k) (toks longest k) (toks marked k)), mask (end_row true (open_right k) (toks longest k) (toks marked k))).
  cbn [fst snd].
  transitivity (mem b (mask (end_row m (open_right k) (toks longest k) (toks marked k)))); [destruct m; reflexivity |].
  rewrite <- (Z2Nat.id b) at 1 by lia. rewrite mem_mask. apply nth_error_nth. unfold end_row, demands. rewrite map_map, nth_error_map.
  rewrite nth_error_upto by lia. cbn [option_map]. rewrite Z2Nat.id by lia. unfold end_fits. now rewrite !toks_eq.
Qed.
Lemma kinds_in r : forall acc k, (In (Reduce k) r \/ In k acc) -> In k (kinds r acc).
Proof.
  induction r as [| a r IH]; intros acc k H; cbn [kinds]; [destruct H as [[] | H]; exact H |].
  destruct a as [s | k' | |]; try (apply IH; destruct H as [[e | H] | H]; [discriminate | auto | auto]).
  apply IH. destruct H as [[e | H] | H]; [injection e as -> | auto |].
  - right. destruct (existsb (Z.eqb k) acc) eqn:Q; [| now left]. apply existsb_exists in Q. destruct Q as (y & Hy & e). apply Z.eqb_eq in e. now subst.
  - right. destruct (existsb (Z.eqb k') acc); [exact H | now right].
Qed.
Lemma assoc_n_map ks (f : Z -> N) k : assoc_n (map (fun k => (k, f k)) ks) k = if existsb (Z.eqb k) ks then f k else 0%N.
Proof.
  induction ks as [| x ks IH]; cbn; [reflexivity |]. rewrite (Z.eqb_sym k x). destruct (Z.eqb_spec x k); [subst; reflexivity | exact IH].
Qed.
Lemma red_mask q k b : 0 <= q < 558 -> 0 <= b < 137 -> mem b (red_at q k) = is_reduce (action q b) k.
Proof.
  intros Hq Hb. unfold red_at, reds. rewrite zget_table. destruct (Z.ltb_spec q 0); [lia |]. rewrite nth_error_map.
  destruct (nth_error rows (Z.to_nat q)) as [r |] eqn:Er.
  - cbn. assert (Zr : zget (table rows) q = Some r) by (rewrite zget_table; destruct (Z.ltb_spec q 0); [lia | exact Er]).
    pose proof (rows_nth _ _ _ Zr Hb) as Rb. unfold znth in Rb. destruct (Z.ltb_spec b 0); [lia |].
    unfold red_row. rewrite (assoc_n_map (kinds r []) (fun k => mask (map (fun a => is_reduce a k) r))).
    destruct (existsb (Z.eqb k) (kinds r [])) eqn:Q.
    + rewrite <- (Z2Nat.id b) at 1 by lia. rewrite mem_mask. apply nth_error_nth. rewrite nth_error_map, Rb. reflexivity.
    + destruct (is_reduce (action q b) k) eqn:Qr; [| unfold mem; now rewrite N.bits_0].
      exfalso. unfold is_reduce in Qr. destruct (action q b) as [| k' | |] eqn:Ea; try discriminate. apply Z.eqb_eq in Qr. subst k'.
      apply nth_error_In in Rb. assert (In k (kinds r [])) by (apply kinds_in; now left).
      assert (existsb (Z.eqb k) (kinds r []) = true) by (apply existsb_exists; exists k; split; [assumption | apply Z.eqb_refl]). congruence.
  - exfalso. apply nth_error_None in Er. pose proof rows_count as C. unfold zlen in C. lia.
Qed.
Lemma rule_check_facts s k l m L : rule k <> None -> rule_check s k l m L = true ->
  if leq l (open_left k) then
    exists q, walk s (plan k 0 (rhs k)) l m L = Some q /\
      (0 <= q < 558 -> forall b, 0 <= b < 137 ->
        (mem b L = true -> end_fits k m b = true -> action q b = Reduce k) /\ (action q b = Reduce k -> end_fits k m b = true))
  else exists o r, rhs k = operator :: o :: r /\ o < 137 /\ exists l m L q, want s operator = Some (l, m, L, q) /\ is_shift (act_at q o) = false.
Proof.
  intros Hr H. assert (Hk := rule_range _ Hr). unfold rule_check in H. rewrite info_get in H by lia.
  assert (EM := fun b => end_mask k m b Hk). unfold info_of in H, EM. cbn [i_end fst snd] in EM.
  destruct (leq l (open_left k)).
  - destruct (walk s (plan k 0 (rhs k)) l m L) as [q |]; [| discriminate]. exists q. split; [reflexivity |]. intros Hq b Hb.
    specialize (EM b Hb). unfold end_check in H. apply andb_true_iff in H. destruct H as (H1 & H2). split.
    + intros M F. pose proof (subset_mem _ _ b H1) as Q. unfold mem in Q at 1. rewrite N.land_spec in Q. fold (mem b L) in Q.
      match type of Q with _ && N.testbit ?e _ = true -> _ => fold (mem b e) in Q end. rewrite EM, M, F in Q. specialize (Q eq_refl).
      rewrite red_mask in Q by lia. unfold is_reduce in Q. destruct (action q b); try discriminate. apply Z.eqb_eq in Q. now subst.
    + intros A. pose proof (subset_mem _ _ b H2) as Q. rewrite EM in Q. apply Q. rewrite red_mask by lia. rewrite A. cbn. apply Z.eqb_refl.
  - unfold skip_check in H. destruct (rhs k) as [| x [| o r]]; cbn in H; try discriminate. bsplit.
    apply Z.eqb_eq in H. subst x. exists o, r. split; [reflexivity |]. split; [lia |].
    destruct (want s operator) as [[[[l' m'] L'] q'] |]; [| discriminate]. exists l', m', L', q'. split; [reflexivity |].
    now apply negb_true_iff.
Qed.

(** First tokens. *)
Lemma firsts_facts k : rule k <> None ->
  subset (firsts (rhs k) 0) (fst (first_at (lhs k))) = true /\ (forallb nullable (rhs k) = true -> nullable (lhs k) = true).
Proof.
  intros H. pose proof firsts_ok as W. unfold firsts_check in W. rewrite forallb_forall in W. specialize (W k (all_rules_in k (rule_range k H))).
  unfold nullable. destruct (first_at (lhs k)) as [f e]. bsplit. split; [assumption |]. intros Q. change (forallb (fun x => snd (first_at x)) (rhs k) = true) in Q.
  rewrite Q in H1. exact H1.
Qed.
Lemma ranks_facts k : rule k <> None -> (length (rhs k) <= 11)%nat /\ (1 <= rank (lhs k) <= 5)%nat /\
  forall xs x ys, rhs k = xs ++ x :: ys -> forallb nullable xs = true -> forallb nullable ys = true -> (rank x < rank (lhs k))%nat.
Proof.
  intros H. pose proof ranks_ok as W. unfold ranks_check in W. rewrite forallb_forall in W. specialize (W k (all_rules_in k (rule_range k H))).
  cbv zeta in W. apply andb_true_iff in W. destruct W as (W & W4). apply andb_true_iff in W. destruct W as (W & W3).
  apply andb_true_iff in W. destruct W as (W1 & W2). apply Nat.leb_le in W1, W2, W3. split; [assumption |]. split; [auto |].
  intros xs x ys e Nx Ny. rewrite forallb_forall in W4. specialize (W4 (length xs)). rewrite e in W4.
  rewrite firstn_app, Nat.sub_diag, firstn_all, app_nil_r in W4.
  replace (skipn (S (length xs)) (xs ++ x :: ys)) with ys in W4
    by (rewrite skipn_app, skipn_all2 by lia; replace (S (length xs) - length xs)%nat with 1%nat by lia; reflexivity).
  rewrite Nx, Ny in W4. rewrite app_nth2, Nat.sub_diag in W4 by lia. cbn [nth andb implb] in W4. apply Nat.ltb_lt. apply W4.
  apply in_seq. rewrite app_length. cbn. lia.
Qed.
