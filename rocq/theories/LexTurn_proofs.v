(** * One turn of the tokenizer's loop *)
From Verif Require Import Base CLib CStrto FnMem_model FnNum_spec FnNum_proofs Toke_model Toke_spec TokeNum_proofs TokeStr_proofs TokeExp_proofs Toke_props.
From Verif Require Import Lex_model Lex_spec Lex_proofs.

Lemma last_app_ne (a b : list Z) : b <> [] -> last (a ++ b) 0 = last b 0.
Proof.
  intros N. destruct (exists_last N) as (b' & e & ->). rewrite app_assoc, !last_last. reflexivity.
Qed.
Lemma last_Forall (P : Z -> Prop) l : Forall P l -> l <> [] -> P (last l 0).
Proof. intros H N. destruct (exists_last N) as (b & e & ->). rewrite last_last. apply Forall_app in H. destruct H as [_ H]. inversion H; auto. Qed.

Lemma prefix_stop k u x s : ~ In x k -> is_prefix k (u ++ x :: s) = is_prefix k u.
Proof.
  revert u. induction k as [| y k IH]; intros u N; [destruct u; reflexivity |]. destruct u as [| z u]; cbn [app is_prefix].
  - destruct (Z.eqb_spec y x); [cbn in N; tauto | reflexivity].
  - rewrite IH by (cbn in N; tauto). reflexivity.
Qed.
Lemma operator_none c p : wordb c = true -> operator c p = None.
Proof.
  intros W. unfold operator. unfold wordb, isalnum_ascii, isdigit_ascii in W.
  repeat match goal with |- (if c =? ?k then _ else _) = _ => destruct (Z.eqb_spec c k); [subst; discriminate W |] end.
  replace (single_char c) with false; [reflexivity |]. symmetry. unfold single_char.
  change (bytes "()[]{},:;@") with [40; 41; 91; 93; 123; 125; 44; 58; 59; 64]. cbn [existsb].
  repeat match goal with |- (c =? ?k) || _ = _ => destruct (Z.eqb_spec c k); [subst; discriminate W |]; cbn [orb] end. reflexivity.
Qed.
Lemma word_other c : wordb c = true -> other c /\ (c =? 45) = false /\ (c =? 61) = false /\ (c =? 60) = false.
Proof. unfold wordb, isalnum_ascii, isdigit_ascii, other. lia. Qed.

Section Turn.
  Context (F D : Type) (strtof : list Z -> F * Z) (strtod : list Z -> D * Z) (fneg : F -> F) (dneg : D -> D) (src : list Z).
  Local Notation turn := (turn F D strtof strtod fneg dneg src).
  Local Notation turns := (turns F D strtof strtod fneg dneg src).
  Local Notation tok p := (Tok (K := constant F D) (fst p) (snd p)).
  Local Notation turned := (turned F D).
  Local Notation Got := (Got F D).
  Local Notation Again := (Again F D).

  Definition rep (pre : list Z) (p : pos) (s : lexer) : Prop :=
    src = pre ++ text p ++ [0] /\ ch_ptr s = text p ++ [0] /\ current_line s = at_line p /\ current_file s = at_file p /\
    match at_place p with
    | Begin => pre = [] /\ length (line_begin s) = length (ch_ptr s)
    | After_shebang => last pre 0 = 10 /\ length (line_begin s) = length (ch_ptr s) /\ at_opt (after_shebang s) (ch_ptr s) = true
    | Line_start => last pre 0 = 10 /\ length (line_begin s) = length (ch_ptr s)
    | Inside => pre <> [] /\ (starts (eq 61) (text p) -> last pre 0 <> 10)
    end.
  Definition flags (x : context) (s : lexer) : Prop :=
    before_arrow s = match x with Arrow => true | _ => false end /\
    want_method s = match x with Arrow | Method_name => true | _ => false end /\
    want_field s = match x with Field_name => true | _ => false end /\ was_heredoc s = false.

  Lemma rep_inside pre p s u rest l s' : rep pre p s -> text p = u ++ rest -> u <> [] -> last u 0 <> 10 ->
    ch_ptr s' = rest ++ [0] -> current_line s' = l -> current_file s' = current_file s ->
    rep (pre ++ u) (Pos Inside l (at_file p) rest) s'.
  Proof.
    intros (A & B & C & E & _) T NE L P CL CF. unfold rep. cbn [text at_line at_file at_place].
    split; [rewrite A, T, <- !app_assoc; reflexivity |]. split; [exact P |]. split; [exact CL |]. split; [congruence |].
    split; [destruct pre; [exact NE | discriminate] |]. intros _. rewrite last_app_ne by exact NE. exact L.
  Qed.

  Lemma rep_line pre p s u rest l f s' : rep pre p s -> text p = u ++ 10 :: rest ->
    ch_ptr s' = rest ++ [0] -> line_begin s' = rest ++ [0] -> current_line s' = l -> current_file s' = f ->
    rep (pre ++ u ++ [10]) (Pos Line_start l f rest) s'.
  Proof.
    intros (A & B & _) T P LB CL CF. unfold rep. cbn [text at_line at_file at_place].
    split; [rewrite A, T, <- !app_assoc; reflexivity |]. split; [exact P |]. split; [exact CL |]. split; [exact CF |].
    split; [rewrite app_assoc; apply last_last | congruence].
  Qed.
  Lemma rep_shebang pre l f rest s : rep pre (Pos Line_start l f rest) s -> at_opt (after_shebang s) (ch_ptr s) = true -> rep pre (Pos After_shebang l f rest) s.
  Proof. intros (A & B & C & E & G1 & G2) H. repeat split; auto. Qed.

  (** The loop body, from the switch on. *)
  Definition dispatch (f : lexer) (minus : bool) (s : lexer) : outcome turned :=
    let! c := deref (ch_ptr s) in
    let p := next (ch_ptr s) in
    if (c =? 32) || (c =? 9) || (c =? 12) then Ret (Again minus (go s p))
    else if c =? 10 then Ret (Again minus (ticks 1 p (go s p)))
    else if c =? 35 then hash F D src s
    else if c =? 39 then
      let! (b, q) := character_literal p in Ret (Got (Chr b) (go s q))
    else if c =? 34 then quoted F D s p
    else if c =? 36 then
      let! c1 := deref p in
      if c1 =? 36 then Ret (Got (Tok "DEREFERENCE" "DEREFERENCE") (go s p))
      else if c1 =? 64 then Ret (Got (Tok "EXCEPTION_VAR" "EXCEPTION_VAR") (go s (next p)))
      else if is_prefix (bytes "{@}") p then Ret (Got (Tok "EXCEPTION_VAR" "EXCEPTION_VAR") (go s (skipn 3 p)))
      else let! (n, q) := variable p in Ret (Got (Var n) (go s q))
    else
      let! c1 := deref p in
      let! is_pod := if c =? 61 then is_pod src (ch_ptr s) else Ret false in
      if (c =? 45) && isdigit_ascii c1 then Ret (Again true (go s p))
      else if is_pod : bool then
        let! (q, n) := pod p 0 in
        Ret (Again minus (Lexer q (current_line s + n) (current_file s) (line_begin s) (after_shebang s) (next_literal s) false false false false V_none))
      else if (c =? 60) && is_prefix [60; 39] p then
        let! (d, q, n) := here_document (skipn 2 p) in
        Ret (Got (Str d) (with_flags (ticks n q (go s q)) false true false false V_none))
      else
        match operator c p with
        | Some o =>
            let! (t, q) := o in
            Ret (Got (tok t)
              (with_flags (go s q) (String.eqb (fst t) "ARROW") false
                 (String.eqb (fst t) "ARROW" || String.eqb (fst t) "OUTMOST_CLASS")
                 (before_arrow f && (c =? 123)) V_none))
        | None =>
            if (c =? 113) && (c1 =? 39) then
              let! (bs, q) := single_quoted (S (length p)) (next p) in
              Ret (Got (Str bs) (ticks (newlines (between p q)) q (go s q)))
            else if isdigit_ascii c then
              let! (k, q) := numeric_literal F D strtof strtod fneg dneg minus (ch_ptr s) in
              Ret (Got (Num k) (go s q))
            else if isalpha_ascii c || (c =? 95) then symbol F D src f s
            else Die "Use of the character code is not allowed in source code."
        end.
  Lemma turn_dispatch f v minus s p : ch_ptr s = p ++ [0] -> p <> [] -> at_opt (next_literal s) (ch_ptr s) = false -> v = V_none /\ was_heredoc f = false \/ v = V_var ->
    turn f v minus s = let! r := dispatch f minus s in Ret (r, v).
  Proof.
    intros P NE N V. unfold Lex_model.turn. replace (Nat.leb (length (ch_ptr s)) 1) with false.
    2: { symmetry. apply Nat.leb_gt. rewrite P, app_length. destruct p; [congruence | cbn; lia]. }
    rewrite N. destruct V as [[-> H] | ->]; [rewrite H |]; reflexivity.
  Qed.

  Lemma dispatch_hash f minus s r : ch_ptr s = 35 :: r -> dispatch f minus s = hash F D src s.
  Proof. intros E. unfold dispatch. rewrite E. reflexivity. Qed.

  Lemma is_pod_ok pre p s c r : rep pre p s -> ch_ptr s = 61 :: c :: r -> is_pod src (ch_ptr s) = Ret (match at_place p with Inside => false | _ => isalpha_ascii c end).
  Proof.
    intros (A & B & _ & _ & G) P. rewrite <- B in A. unfold is_pod.
    assert (NL : pre <> [] -> nth (length src - length (ch_ptr s) - 1) src 0 = last pre 0 /\ at_ptr src (ch_ptr s) = false).
    { intros NE. split.
      - rewrite A, app_length. destruct (exists_last NE) as (pre' & e & ->). rewrite last_last, app_length. cbn [length].
        replace (length pre' + 1 + length (ch_ptr s) - length (ch_ptr s) - 1)%nat with (length pre') by lia. rewrite <- app_assoc, app_nth2 by lia. rewrite Nat.sub_diag. reflexivity.
      - apply Nat.eqb_neq. rewrite A, app_length. destruct pre; [congruence | cbn; lia]. }
    assert (T : starts (eq 61) (text p)). { rewrite B in P. destruct (text p); [discriminate P |]. injection P as -> _. reflexivity. }
    destruct (at_place p).
    - destruct G as [-> _]. replace (at_ptr src (ch_ptr s)) with true by (symmetry; apply Nat.eqb_eq; rewrite A; reflexivity). cbn [orb]. rewrite P. reflexivity.
    - destruct G as [G _]. destruct NL as [-> ->]; [intros ->; discriminate G |]. rewrite G, P. reflexivity.
    - destruct G as [G _]. destruct NL as [-> ->]; [intros ->; discriminate G |]. rewrite G, P. reflexivity.
    - destruct G as [G1 G2]. destruct (NL G1) as [-> ->]. specialize (G2 T). apply Z.eqb_neq in G2. rewrite G2. reflexivity.
  Qed.

  (** ** Layout *)
  Definition stays (s s' : lexer) : Prop := next_literal s' = next_literal s.
  Lemma skip_turn p q : skip p q -> forall pre f s, rep pre p s -> next_literal s = None -> was_heredoc f = false ->
    exists s' pre', turn f V_none false s = Ret (Again false s', V_none) /\ rep pre' q s' /\ next_literal s' = None /\ (length (text q) < length (text p))%nat.
  Proof.
    intros SK pre f s R N H.
    assert (TD : text p <> [] -> turn f V_none false s = let! r := dispatch f false s in Ret (r, V_none)).
    { intros NE. destruct R as (_ & P & _). eapply turn_dispatch; eauto. rewrite N. reflexivity. }
    pose proof R as (A & B & C & E & G).
    destruct SK as [pl l f0 c s0 BL | pl l f0 s0 | pl l f0 u s0 O ND NS | l f0 u s0 O SB | pl l f0 u O ND | pl l f0 m ds n k s0 PL NU LI
      | pl l f0 f' q s0 PL Q | pl l f0 d q s0 PL Q | pl l f0 a b u s0 PL LE NZ NC O CU SS | pl l f0 a b PL LE NZ NC]; cbn [text at_line at_file at_place] in *.
    - (* blank *) exists (go s (s0 ++ [0])), (pre ++ [c]). split; [| split; [| split]].
      + rewrite TD by discriminate. unfold dispatch. rewrite B. cbn [app deref obind next tl].
        replace ((c =? 32) || (c =? 9) || (c =? 12)) with true by (unfold blank in BL; lia). reflexivity.
      + eapply (rep_inside pre _ s [c] s0 l _ R); try reflexivity; [discriminate | cbn; unfold blank in BL; lia | exact C].
      + exact N.
      + cbn. lia.
    - (* line *) exists (ticks 1 (s0 ++ [0]) (go s (s0 ++ [0]))), (pre ++ [10]). split; [| split; [| split]].
      + rewrite TD by discriminate. unfold dispatch. rewrite B. reflexivity.
      + apply (rep_line pre _ s [] s0 _ _ _ R); try reflexivity; [cbn; lia | exact E].
      + exact N.
      + cbn. lia.
    - (* comment *) set (p := s0 ++ [0]). exists (ticks 1 p (go s p)), (pre ++ 35 :: u ++ [10]). split; [| split; [| split]].
      + rewrite TD by discriminate. rewrite (dispatch_hash f false s _ B).
        unfold hash. rewrite B. cbn [app next tl]. rewrite <- app_assoc. cbn [app].
        assert (DI : forall k, ~ In 10 (bytes k) -> ~ begins k u -> is_prefix (bytes k) (u ++ 10 :: s0 ++ [0]) = false).
        { intros k K NB. rewrite prefix_stop by exact K. apply not_true_iff_false. rewrite <- begins_iff. exact NB. }
        unfold is_directive in ND.
        rewrite (DI "line "%string), (DI "file "%string), (DI "lib "%string) by (try (cbn; lia); tauto). rewrite comment_ok by exact O. cbn [obind].
        replace (at_ptr src (35 :: u ++ 10 :: s0 ++ [0]) && is_prefix (bytes "!") (u ++ 10 :: s0 ++ [0])) with false; [reflexivity |].
        symmetry. apply andb_false_iff. destruct pl.
        * right. apply DI; [cbn; lia | tauto].
        * left. destruct G as (G & _). apply Nat.eqb_neq. rewrite A, app_length. destruct pre; [discriminate G |]. cbn [length app]. rewrite <- app_assoc. cbn [app]. lia.
        * left. destruct G as (G & _). apply Nat.eqb_neq. rewrite A, app_length. destruct pre; [discriminate G |]. cbn [length app]. rewrite <- app_assoc. cbn [app]. lia.
        * left. destruct G as (G & _). apply Nat.eqb_neq. rewrite A, app_length. destruct pre; [congruence |]. cbn [length app]. rewrite <- app_assoc. cbn [app]. lia.
      + apply (rep_line pre _ s (35 :: u) s0 _ _ _ R); try reflexivity; [cbn; lia | exact E].
      + exact N.
      + cbn [length]. rewrite app_length. cbn. lia.
    - (* shebang *) set (p := s0 ++ [0]). exists (set_shebang (ticks 1 p (go s p))), (pre ++ 35 :: u ++ [10]). split; [| split; [| split]].
      + rewrite TD by discriminate. rewrite (dispatch_hash f false s _ B).
        unfold hash. rewrite B. cbn [app next tl]. rewrite <- app_assoc. cbn [app]. destruct SB as [r ->].
        change (is_prefix (bytes "line ") ((bytes "!" ++ r) ++ 10 :: s0 ++ [0])) with false.
        change (is_prefix (bytes "file ") ((bytes "!" ++ r) ++ 10 :: s0 ++ [0])) with false.
        change (is_prefix (bytes "lib ") ((bytes "!" ++ r) ++ 10 :: s0 ++ [0])) with false.
        change (is_prefix (bytes "!") ((bytes "!" ++ r) ++ 10 :: s0 ++ [0])) with true. rewrite comment_ok by exact O. cbn [obind].
        replace (at_ptr src (35 :: (bytes "!" ++ r) ++ 10 :: s0 ++ [0])) with true; [reflexivity |].
        symmetry. apply Nat.eqb_eq. destruct G as (-> & _). rewrite A. cbn [app]. rewrite <- !app_assoc. reflexivity.
      + apply rep_shebang; [apply (rep_line pre _ s (35 :: u) s0 _ _ _ R); try reflexivity; [cbn; lia | exact E] | apply Nat.eqb_refl].
      + exact N.
      + cbn [length]. rewrite app_length. cbn. lia.
    - (* last comment *) destruct (at_ptr src (35 :: u ++ [0]) && is_prefix (bytes "!") (u ++ [0])) eqn:SH;
        [exists (set_shebang (go s [0])), (pre ++ 35 :: u) | exists (go s [0]), (pre ++ 35 :: u)].
      all: split; [| split; [| split; [exact N | cbn; lia]]].
      1, 3: rewrite TD by discriminate; rewrite (dispatch_hash f false s _ B); unfold hash; rewrite B; cbn [app next tl];
        (assert (DI : forall k, ~ In 0 (bytes k) -> ~ begins k u -> is_prefix (bytes k) (u ++ [0]) = false)
          by (intros k K NB; rewrite prefix_stop by exact K; apply not_true_iff_false; rewrite <- begins_iff; exact NB));
        unfold is_directive in ND; rewrite (DI "line "%string), (DI "file "%string), (DI "lib "%string) by (try (cbn; lia); tauto); rewrite comment_end by exact O; cbn [obind];
        rewrite SH; reflexivity.
      all: unfold rep; cbn [text at_line at_file at_place]; split; [rewrite A, <- !app_assoc; reflexivity |];
        split; [reflexivity |]; split; [exact C |]; split; [exact E |]; split; [destruct pre; discriminate | intros []].
    - (* line directive *) set (p := s0 ++ [0]).
      exists (set_line (go s p) n), (pre ++ (35 :: bytes "line" ++ repeat 32 (S m) ++ ds ++ repeat 32 k) ++ [10]). split; [| split; [| split]].
      + rewrite TD by discriminate. rewrite (dispatch_hash f false s _ B).
        unfold hash. rewrite B.
        replace (next ((35 :: bytes "line" ++ repeat 32 (S m) ++ ds ++ repeat 32 k ++ 10 :: s0) ++ [0])) with (bytes "line" ++ repeat 32 (S m) ++ ds ++ repeat 32 k ++ 10 :: p)
          by (cbn [next tl app]; unfold p; rewrite <- !app_assoc; reflexivity).
        change (is_prefix (bytes "line ") (bytes "line" ++ repeat 32 (S m) ++ ds ++ repeat 32 k ++ 10 :: p)) with true. cbn iota.
        change (skipn 4 (bytes "line" ++ repeat 32 (S m) ++ ds ++ repeat 32 k ++ 10 :: p)) with (repeat 32 (S m) ++ ds ++ repeat 32 k ++ 10 :: p).
        rewrite (line_directive_ok m ds n k p) by auto. cbn [obind]. rewrite <- B. unfold at_ptr.
        replace (length (line_begin s) =? length (ch_ptr s))%nat with true; [reflexivity |]. symmetry. apply Nat.eqb_eq. destruct pl; [tauto .. | congruence].
      + apply (rep_line pre _ s (35 :: bytes "line" ++ repeat 32 (S m) ++ ds ++ repeat 32 k) s0 _ _ _ R); try reflexivity; [cbn [text app]; rewrite <- !app_assoc; reflexivity | exact E].
      + exact N.
      + cbn [length]. rewrite !app_length. cbn [length]. lia.
    - (* file directive *) destruct Q as [m n f1 r NE QF]. set (q := repeat 32 (S m) ++ 34 :: f1 ++ 34 :: repeat 32 n ++ 10 :: r) in *. set (p := r ++ [0]).
      exists (set_file (go s p) f1), (pre ++ (35 :: bytes "file" ++ repeat 32 (S m) ++ 34 :: f1 ++ 34 :: repeat 32 n) ++ [10]). split; [| split; [| split]].
      + rewrite TD by discriminate. rewrite (dispatch_hash f false s _ B).
        unfold hash. rewrite B.
        replace (next ((35 :: bytes "file" ++ q) ++ [0])) with (bytes "file" ++ q ++ [0]) by (cbn [next tl app]; rewrite <- !app_assoc; reflexivity).
        change (is_prefix (bytes "line ") (bytes "file" ++ q ++ [0])) with false.
        change (is_prefix (bytes "file ") (bytes "file" ++ q ++ [0])) with true. cbn iota.
        change (skipn 4 (bytes "file" ++ q ++ [0])) with (q ++ [0]).
        rewrite (path_directive_ok q f1 r) by (constructor; auto). cbn [obind]. rewrite <- B.
        replace (at_ptr src (ch_ptr s) || at_opt (after_shebang s) (ch_ptr s)) with true; [reflexivity |]. symmetry. apply orb_true_iff.
        destruct PL as [-> | ->]; [left | right; tauto]. apply Nat.eqb_eq. rewrite A, B. destruct G as [-> _]. reflexivity.
      + apply (rep_line pre _ s (35 :: bytes "file" ++ repeat 32 (S m) ++ 34 :: f1 ++ 34 :: repeat 32 n) r _ _ _ R); try reflexivity; [| exact C].
        unfold q. cbn [text app]. rewrite <- !app_assoc. cbn [app]. rewrite <- !app_assoc. reflexivity.
      + exact N.
      + unfold q. cbn [length]. rewrite !app_length. cbn [length]. rewrite !app_length. cbn [length]. rewrite !app_length. cbn [length]. lia.
    - (* lib directive *) destruct Q as [m n f1 r NE QF]. set (q := repeat 32 (S m) ++ 34 :: f1 ++ 34 :: repeat 32 n ++ 10 :: r) in *. set (p := r ++ [0]).
      exists (set_file (go s p) (current_file s)), (pre ++ (35 :: bytes "lib" ++ repeat 32 (S m) ++ 34 :: f1 ++ 34 :: repeat 32 n) ++ [10]). split; [| split; [| split]].
      + rewrite TD by discriminate. rewrite (dispatch_hash f false s _ B).
        unfold hash. rewrite B.
        replace (next ((35 :: bytes "lib" ++ q) ++ [0])) with (bytes "lib" ++ q ++ [0]) by (cbn [next tl app]; rewrite <- !app_assoc; reflexivity).
        change (is_prefix (bytes "line ") (bytes "lib" ++ q ++ [0])) with false.
        change (is_prefix (bytes "file ") (bytes "lib" ++ q ++ [0])) with false.
        change (is_prefix (bytes "lib ") (bytes "lib" ++ q ++ [0])) with true. cbn iota.
        change (skipn 3 (bytes "lib" ++ q ++ [0])) with (q ++ [0]).
        rewrite (path_directive_ok q f1 r) by (constructor; auto). cbn [obind]. rewrite <- B. unfold at_ptr.
        replace (length (line_begin s) =? length (ch_ptr s))%nat with true; [reflexivity |]. symmetry. apply Nat.eqb_eq. destruct pl; [tauto .. | congruence].
      + apply (rep_line pre _ s (35 :: bytes "lib" ++ repeat 32 (S m) ++ 34 :: f1 ++ 34 :: repeat 32 n) r _ _ _ R); try reflexivity; [| exact C | exact E].
        unfold q. cbn [text app]. rewrite <- !app_assoc. cbn [app]. rewrite <- !app_assoc. reflexivity.
      + exact N.
      + unfold q. cbn [length]. rewrite !app_length. cbn [length]. rewrite !app_length. cbn [length]. rewrite !app_length. cbn [length]. lia.
    - (* POD *) set (p := s0 ++ [0]).
      exists (Lexer p (current_line s + (0 + count_lines b)) (current_file s) (line_begin s) (after_shebang s) (next_literal s) false false false false V_none),
        (pre ++ 61 :: a :: b ++ bytes "=cut" ++ u). split; [| split; [| split]].
      + rewrite TD by discriminate. pose proof (is_pod_ok _ _ s a (b ++ bytes "=cut" ++ u ++ s0 ++ [0]) R) as IP. unfold dispatch.
        replace ((61 :: a :: b ++ bytes "=cut" ++ u ++ s0) ++ [0]) with (61 :: a :: b ++ bytes "=cut" ++ u ++ s0 ++ [0]) in B by (cbn [app]; rewrite <- !app_assoc; reflexivity).
        rewrite (IP B). cbn [at_place]. rewrite B. cbn [deref obind next tl].
        replace (match pl with Inside => false | _ => isalpha_ascii a end) with true by (apply alpha_iff in LE; destruct pl; congruence).
        change (61 =? 61) with true. change ((61 =? 32) || (61 =? 9) || (61 =? 12)) with false. change (61 =? 10) with false. change (61 =? 35) with false. change (61 =? 39) with false.
        change (61 =? 34) with false. change (61 =? 36) with false. change (61 =? 45) with false. cbn iota. cbn [obind andb].
        rewrite pod_ok by auto. reflexivity.
      + unfold rep. cbn [text at_line at_file at_place]. split; [rewrite A, <- !app_assoc; cbn [app]; rewrite <- !app_assoc; reflexivity |].
        split; [reflexivity |]. split; [cbn [current_line]; lia |]. split; [exact E |]. split; [destruct pre; discriminate |].
        intros X. destruct SS as [-> | SS]; [destruct X |]. destruct s0; cbn in *; [destruct X | lia].
      + exact N.
      + cbn [length]. rewrite !app_length. lia.
    - (* last POD *)
      exists (Lexer [0] (current_line s + (0 + count_lines b)) (current_file s) (line_begin s) (after_shebang s) (next_literal s) false false false false V_none),
        (pre ++ 61 :: a :: b). split; [| split; [| split]].
      + rewrite TD by discriminate. pose proof (is_pod_ok _ _ s a (b ++ [0]) R B) as IP. unfold dispatch.
        rewrite IP. cbn [at_place]. rewrite B. cbn [app deref obind next tl].
        replace (match pl with Inside => false | _ => isalpha_ascii a end) with true by (apply alpha_iff in LE; destruct pl; congruence).
        change (61 =? 61) with true. change ((61 =? 32) || (61 =? 9) || (61 =? 12)) with false. change (61 =? 10) with false. change (61 =? 35) with false. change (61 =? 39) with false.
        change (61 =? 34) with false. change (61 =? 36) with false. change (61 =? 45) with false. cbn iota. cbn [obind andb].
        rewrite pod_end by auto. reflexivity.
      + unfold rep. cbn [text at_line at_file at_place]. split; [rewrite A, <- !app_assoc; reflexivity |].
        split; [reflexivity |]. split; [cbn [current_line]; lia |]. split; [exact E |]. split; [destruct pre; discriminate | intros []].
      + exact N.
      + cbn [length]. lia.
  Qed.

  (** ** Tokens *)
  Definition after (x : context) (t : token (constant F D)) (n : option (list Z)) (q : pos) (s : lexer) : Prop :=
    (exists pre, rep pre q s) /\ flags (context_after x t) s /\ next_literal s = n /\ expansion_state s = V_none.

  Lemma keyword_first n k : In (n, k) keywords -> exists c r, bytes n = c :: r /\ isalpha_ascii c || (c =? 95) = true /\ c <> 113 /\ isdigit_ascii c = false /\ wordb c = true /\ var_name r /\ last (bytes n) 0 <> 10.
  Proof.
    intros I. assert (A : forallb (fun e => match bytes (fst e) with c :: r => (isalpha_ascii c || (c =? 95)) && negb (c =? 113) && forallb wordb r | [] => false end) keywords = true)
      by (vm_compute; reflexivity).
    rewrite forallb_forall in A. specialize (A _ I). cbn [fst] in A. destruct (bytes n) as [| c r]; [discriminate |]. exists c, r.
    apply andb_true_iff in A. destruct A as [A W]. apply andb_true_iff in A. destruct A as [A1 A2].
    assert (WC : wordb c = true) by (unfold isalpha_ascii in A1; unfold wordb, isalnum_ascii, isdigit_ascii; lia).
    repeat split; auto; [lia | unfold isalpha_ascii in A1; unfold isdigit_ascii; lia | |].
    - rewrite forallb_forall in W. clear - W. induction r as [| d r IH]; constructor; [apply word_iff, W; left; reflexivity | apply IH; intros; apply W; right; auto].
    - assert (X : Forall (fun c => wordb c = true) (c :: r)) by (constructor; auto; rewrite forallb_forall in W; apply Forall_forall; exact W).
      apply (last_Forall _ _) in X; [| discriminate]. intros L. rewrite L in X. discriminate X.
  Qed.

  Lemma var_name_last n : var_name n -> n <> [] -> last n 0 <> 10.
  Proof.
    intros V NE. apply (last_Forall (fun c => c <> 10)); [| exact NE]. induction V as [| c t W V IH | t V IH]; [congruence | |].
    - constructor; [unfold word in W; lia |]. destruct t; [constructor | apply IH; discriminate].
    - constructor; [lia |]. constructor; [lia |]. destruct t; [constructor | apply IH; discriminate].
  Qed.

  (** A name, up to the checks. *)
  Lemma dispatch_symbol f minus s c n rest : ch_ptr s = c :: n ++ rest ++ [0] -> (letter c \/ c = 95) -> var_name n -> name_stops rest ->
    ~ begins "q'" (c :: n ++ rest) -> dispatch f minus s = symbol F D src f s.
  Proof.
    intros P L V NS NQ. assert (W : wordb c = true) by (unfold letter in L; unfold wordb, isalnum_ascii, isdigit_ascii; lia).
    destruct (word_other c W) as ((O1 & O2 & O3 & O4 & O5 & O6) & O7 & O8 & O9). unfold dispatch. rewrite P. cbn [deref obind next tl].
    rewrite O1, O2, O3, O4, O5, O6, O7, O8, O9. cbn [andb]. rewrite operator_none by exact W.
    destruct (n ++ rest ++ [0]) as [| c1 r] eqn:E; [destruct n; [destruct rest |]; discriminate E |]. cbn [deref obind].
    replace ((c =? 113) && (c1 =? 39)) with false.
    - replace (isdigit_ascii c) with false by (unfold letter in L; unfold isdigit_ascii; lia). replace (isalpha_ascii c || (c =? 95)) with true by (unfold letter in L; unfold isalpha_ascii; lia). reflexivity.
    - symmetry. apply not_true_iff_false. intros X. apply andb_true_iff in X. destruct X as [X1 X2]. apply Z.eqb_eq in X1, X2. subst. apply NQ.
      destruct n as [| d n]; cbn [app] in E.
      + destruct rest as [| d rest]; cbn [app] in E; [discriminate E |]. injection E as -> E. exists rest. reflexivity.
      + injection E as -> _. exists (n ++ rest). reflexivity.
  Qed.
  Lemma not_q c n rest : var_name n -> name_stops rest -> c <> 113 \/ n <> [] \/ fat rest -> ~ begins "q'" (c :: n ++ rest).
  Proof.
    intros V NS C (r & E). change (bytes "q'" ++ r) with (113 :: 39 :: r) in E. injection E as EC E. destruct C as [C | [C | C]]; [congruence | |].
    - destruct V as [| d t W V | t V]; [congruence | |]; cbn [app] in E; injection E as E _; [unfold word in W; lia | discriminate].
    - destruct V as [| d t W V | t V]; [| cbn [app] in E; injection E as E _; unfold word in W; lia | discriminate E].
      cbn [app] in E. destruct C as (w & q & -> & W). destruct W as [| d w W]; [discriminate E |]. cbn [app] in E. injection E as -> _. unfold space in W. lia.
  Qed.

  Lemma symbol_step f s c n rest : ch_ptr s = c :: n ++ rest ++ [0] -> var_name n -> name_stops rest -> forall b, fat_comma (rest ++ [0]) = Ret b ->
    symbol F D src f s =
      let name := c :: n in let p := rest ++ [0] in
      let not_keyword :=
        check! negb (contains name "__") else "The symbol name cannnot constain __." in
        check! negb (contains name "::::") else "The symbol name cannnot contains ::::." in
        if b then
          check! negb (contains name "::") else "The string literal of the left operand of the fat camma cannnot contains ::." in
          Ret (Got (Str name) (go s p))
        else Ret (Got (Sym name) (go s p)) in
      if b || want_method f || want_field f then not_keyword
      else if same name "__END__" then Ret (Got (Tok "END_OF_FILE" "END_OF_FILE") (go s (skipn (length src - 1) src)))
      else if same name "__FILE__" then Ret (Got (Str (current_file s)) (go s p))
      else if same name "__LINE__" then Ret (Got (Num (CInt (current_line s))) (go s p))
      else
        match keyword name with
        | Some k =>
            Ret (Got (tok k)
              (if same name "scalar" then go s (next p)
               else with_flags (go s p) false false (same name "method") (same name "has") V_none))
        | None => not_keyword
        end.
  Proof.
    intros P V NS b FC. unfold symbol. rewrite P. cbn [deref obind next tl]. rewrite var_name_end by auto. cbn [obind]. rewrite FC. reflexivity.
  Qed.

  Lemma integer_value_fun bits base minus v w w' : 0 < bits -> integer_value bits base minus v w -> integer_value bits base minus v w' -> w = w'.
  Proof.
    intros B. unfold integer_value. destruct (base =? 10); [intros [-> _] [-> _]; reflexivity |]. intros [_ (u & A1 & A2 & ->)] [_ (u' & C1 & C2 & ->)].
    assert (UU : u = u'); [| rewrite UU; reflexivity]. assert (P : 2 ^ bits = 2 * 2 ^ (bits - 1)) by (rewrite <- (Z.pow_succ_r 2 (bits - 1)) by lia; f_equal; lia).
    rewrite <- A2 in C2. pose proof (Z.pow_pos_nonneg 2 (bits - 1) ltac:(lia) ltac:(lia)). rewrite P in C2. clear - A1 C1 C2 H. set (m := 2 ^ (bits - 1)) in *.
    pose proof (Z.div_mod u (2 * m) ltac:(lia)). pose proof (Z.div_mod u' (2 * m) ltac:(lia)). rewrite C2 in H1.
    generalize dependent (u / (2 * m)). generalize dependent (u' / (2 * m)). intros q' Q' q Q. destruct (Z.lt_trichotomy q q') as [X | [-> | X]]; [nia | lia | nia].
  Qed.
  Lemma integer_text_first t base ds : integer_text t base ds -> exists c r, t = c :: r /\ isdigit_ascii c = true.
  Proof.
    intros [| c v r ds' DG _ _ | | |]; try (eexists; eexists; split; [reflexivity | reflexivity]). exists c, r. split; auto. unfold digit in DG. unfold isdigit_ascii. lia.
  Qed.
  Lemma separated_no_line base t ds : base <= 36 -> separated base t ds -> Forall (fun c => c <> 10) t.
  Proof.
    intros B. induction 1 as [| c v t ds DG H IH | t ds H IH]; constructor; auto; [| lia]. apply digit_isdig in DG; [| lia]. apply isdig_ascii in DG; lia.
  Qed.
  Lemma integer_text_no_line t base ds : integer_text t base ds -> Forall (fun c => c <> 10) t.
  Proof.
    intros [| c v r ds' DG _ SP | x r ds' X SP _ | r ds' SP _ | x r ds' X SP _].
    - repeat constructor; lia.
    - constructor; [unfold digit in DG; lia |]. eapply separated_no_line; [| exact SP]; lia.
    - constructor; [lia |]. constructor; [lia |]. eapply separated_no_line; [| exact SP]; lia.
    - constructor; [lia |]. eapply separated_no_line; [| exact SP]; lia.
    - constructor; [lia |]. constructor; [lia |]. eapply separated_no_line; [| exact SP]; lia.
  Qed.
End Turn.
