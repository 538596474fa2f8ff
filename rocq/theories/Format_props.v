(** * C42: sprintf *)
From Verif Require Import Base StM CLib Dec Array_model FnMem_model FnStr_model FnStr_spec FnStr_proofs
  StrBuf_model StrBuf_spec StrBuf_proofs VmConv_props FnNum_spec
  Format_model Format_spec Format_proofs FormatParse_proofs FormatLoop_proofs.

(** For every format and all arguments: sprintf gives a text made up as
    documented, or it throws and there is none (a missing argument, an argument
    of a wrong type, an unfinished or unknown specifier).  Missing: the cases
    refuted below, numbers in the format that are no ints, and results whose
    length does not fit the buffer. *)
Theorem C42_sprintf_partial {F D : Type} (widen : F -> D) (text_f text_g : D -> option Z -> list Z) s args :
  is_string s -> numbers_small s -> Forall arg_ok args -> zlen args <= INT32_MAX ->
  (forall out rest args', pieces widen text_f text_g s args out rest args' -> zlen out <= max_length) ->
  all_handled widen text_f text_g s args ->
  match sprintf widen text_f text_g (Some s) (Some args) with
  | Ret out => formats widen text_f text_g s args out
  | Die _ => ~ exists out, formats widen text_f text_g s args out
  | _ => False
  end.
Proof.
  intros S NS AO LA SIZE HA. unfold sprintf. pose proof S as [_ LS]. pose proof (zlen_nonneg s) as NN.
  destruct (new_ok None (-1)) as (b & -> & I); [exact Logic.I | unfold max_capacity; lia |]. rewrite obind_ret.
  assert (H : holds b []) by (eexists; split; [exact I | reflexivity]).
  assert (A : at_pos s (0 + 0) s) by (split; [lia | apply zdrop_0; lia]).
  pose proof (main_ok widen text_f text_g s (Some args) S NS AO LA SIZE HA (Datatypes.S (length s)) 0 0 0 b [] s
    ltac:(lia) ltac:(lia) ltac:(lia) A) as M.
  cbn [arg_list] in M. specialize (M ltac:(pose proof (zlen_nonneg args); lia) H).
  assert (P0 : pieces widen text_f text_g s args ([] ++ zsub s 0 0) s (zdrop 0 args)).
  { rewrite zdrop_0 by lia. replace (zsub s 0 0) with (@nil Z); [constructor |]. symmetry. apply zlen_0_nil. rewrite zlen_sub; lia. }
  specialize (M P0). destruct (main_loop _ _ _ _ _ _ _ _ _ _) as [[[index n] b'] | e | |]; cbn [obind]; auto.
  destruct M as (out' & a' & P & H' & I0 & N0 & E). pose proof (SIZE _ _ _ P) as X. rewrite zlen_app, zlen_sub in X by lia.
  destruct (flush_ok s index n b' out' S) as (b2 & -> & (a2 & I2 & E2)); auto; try lia. rewrite obind_ret.
  rewrite (to_string_ok _ _ I2), E2. cbn [snd]. exists a'. exact P.
Qed.
Print Assumptions C42_sprintf_partial.

(** What the result looks like: at least as long as the width, and the value
    with nothing but blanks or zeros around it. *)
Theorem C42_padded flags w v :
  w <= zlen (padded flags w v) /\ zlen v <= zlen (padded flags w v) /\
  exists l r, padded flags w v = l ++ v ++ r /\ (l = [] \/ r = []) /\
    (forall c, In c (l ++ r) -> c = 32 \/ c = 48) /\ (zlen v >= w -> l = [] /\ r = []).
Proof.
  pose proof (zlen_nonneg v).
  assert (R : forall n c x, In x (@zrep Z n c) -> x = c) by (intros n c x X; apply repeat_spec in X; auto).
  assert (R0 : forall n c, n <= 0 -> @zrep Z n c = []) by (intros n c N; unfold zrep; replace (Z.to_nat n) with 0%nat by lia; reflexivity).
  unfold padded. destruct (has 45 flags).
  - rewrite zlen_app, zlen_rep. split; [lia |]. split; [lia |]. exists [], (zrep (w - zlen v) 32). split; [reflexivity |]. split; auto.
    split; [cbn [app]; intros c C; left; eapply R; eauto |]. intros. split; auto. apply R0. lia.
  - rewrite zlen_app, zlen_rep. split; [lia |]. split; [lia |]. exists (zrep (w - zlen v) (if has 48 flags then 48 else 32)), [].
    rewrite app_nil_r. split; [reflexivity |]. split; auto.
    split; [rewrite app_nil_r; intros c C; apply R in C; destruct (has 48 flags); auto |]. intros. split; auto. apply R0. lia.
Qed.
Print Assumptions C42_padded.

(** An undef format gives the empty string. *)
Theorem C42_undef_format {F D : Type} (widen : F -> D) text_f text_g args :
  sprintf widen text_f text_g None args = Ret [].
Proof. reflexivity. Qed.
Print Assumptions C42_undef_format.

(** With undef for the arguments, a format without specifiers works, others throw. *)
Theorem C42_undef_args {F D : Type} (widen : F -> D) (text_f text_g : D -> option Z -> list Z) s :
  is_string s -> numbers_small s -> zlen s <= max_length ->
  match sprintf widen text_f text_g (Some s) None with
  | Ret out => formats widen text_f text_g s [] out
  | Die _ => ~ exists out, formats widen text_f text_g s [] out
  | _ => False
  end.
Proof.
  intros S NS LS. unfold sprintf. pose proof (zlen_nonneg s) as NN.
  assert (LEN : forall out rest args', pieces widen text_f text_g s [] out rest args' -> zlen out + zlen rest <= zlen s /\ args' = []).
  { intros out rest args' P. remember [] as a in P at 1. revert Heqa. clear - P.
    induction P as [| s a o1 s1 a1 o2 s2 a2 P PS IH]; intros ->; [rewrite zlen_nil; split; [lia | auto] |].
    inversion P; subst; destruct (IH eq_refl) as [IH1 IH2]; rewrite zlen_app; rewrite ?zlen_cons, ?zlen_nil in *; pose proof (zlen_nonneg s1); split; auto; lia. }
  destruct (new_ok None (-1)) as (b & -> & I); [exact Logic.I | unfold max_capacity; lia |]. rewrite obind_ret.
  assert (H : holds b []) by (eexists; split; [exact I | reflexivity]).
  assert (A : at_pos s (0 + 0) s) by (split; [lia | apply zdrop_0; lia]).
  assert (SIZE : forall o r a, pieces widen text_f text_g s (arg_list None) o r a -> zlen o <= max_length).
  { intros o r a P. destruct (LEN o r a P) as [L _]. pose proof (zlen_nonneg r). lia. }
  assert (HA : all_handled widen text_f text_g s (arg_list None)).
  { intros out t fl w p c a v s' args' P. destruct (LEN _ _ _ P) as [_ X]. discriminate. }
  pose proof (main_ok widen text_f text_g s None S NS (Forall_nil _) ltac:(discriminate) SIZE HA (Datatypes.S (length s)) 0 0 0 b [] s
    ltac:(lia) ltac:(lia) ltac:(lia) A ltac:(unfold zlen; cbn; lia) H) as M.
  cbn [arg_list] in M.
  assert (P0 : pieces widen text_f text_g s [] ([] ++ zsub s 0 0) s (zdrop 0 [])).
  { rewrite zdrop_0 by lia. replace (zsub s 0 0) with (@nil Z); [constructor |]. symmetry. apply zlen_0_nil. rewrite zlen_sub; lia. }
  specialize (M P0). destruct (main_loop _ _ _ _ _ _ _ _ _ _) as [[[index n] b'] | e | |]; cbn [obind]; auto.
  destruct M as (out' & a' & P & H' & I0 & N0 & E). pose proof (SIZE _ _ _ P) as X. rewrite zlen_app, zlen_sub in X by lia.
  destruct (flush_ok s index n b' out' S) as (b2 & -> & (a2 & I2 & E2)); auto; try lia. rewrite obind_ret.
  rewrite (to_string_ok _ _ I2), E2. cbn [snd]. exists a'. exact P.
Qed.
Print Assumptions C42_undef_args.

(** ** What does not hold *)

Lemma simple_spec flags w p c t :
  spec_text t flags w p c -> forall (F D : Type) (widen : F -> D) text_f text_g a v,
  converted widen text_f text_g c p a v -> formats widen text_f text_g t [a] (padded flags w (with_sign flags c v)).
Proof.
  intros S F D widen text_f text_g a v C. exists []. rewrite <- (app_nil_r (padded _ _ _)). rewrite <- (app_nil_r t).
  econstructor; [econstructor; eauto |]. constructor.
Qed.

(** "%s" of the empty string throws. *)
Theorem C42_empty_string_refuted {F D : Type} (widen : F -> D) (text_f text_g : D -> option Z -> list Z) :
  exists e, formats widen text_f text_g [37; 115] [Some (mk_arg 8 (VStr []))] [] /\
    sprintf widen text_f text_g (Some [37; 115]) (Some [Some (mk_arg 8 (VStr []))]) = Die e.
Proof.
  eexists. split; [| reflexivity]. change (@nil Z) with (padded [] 0 (with_sign [] Cs [])). apply (simple_spec [] 0 None Cs [37; 115]).
  - apply (Spec [] [] [] None Cs); [constructor | constructor | cbn; lia | constructor].
  - exists []. split; reflexivity.
Qed.
Print Assumptions C42_empty_string_refuted.

(** "%5.2s" of "ABC" is two characters long. *)
Theorem C42_string_width_refuted {F D : Type} (widen : F -> D) (text_f text_g : D -> option Z -> list Z) :
  formats widen text_f text_g [37; 53; 46; 50; 115] [Some (mk_arg 8 (VStr [65; 66; 67]))] [32; 32; 32; 65; 66] /\
  sprintf widen text_f text_g (Some [37; 53; 46; 50; 115]) (Some [Some (mk_arg 8 (VStr [65; 66; 67]))]) = Ret [65; 66].
Proof.
  split; [| reflexivity]. change [32; 32; 32; 65; 66] with (padded [] 5 (with_sign [] Cs [65; 66])).
  apply (simple_spec [] 5 (Some 2) Cs).
  - apply (Spec [] [53] [46; 50] (Some 2) Cs); [constructor | repeat constructor; unfold is_digit; lia | cbn; lia |].
    apply (P_some [50]); [discriminate | repeat constructor; unfold is_digit; lia].
  - exists [65; 66; 67]. split; reflexivity.
Qed.
Print Assumptions C42_string_width_refuted.

(** "%05d" of -5 puts the zeros before the sign: the result does not read as a
    number. *)
Theorem C42_zero_sign_refuted {F D : Type} (widen : F -> D) (text_f text_g : D -> option Z -> list Z) :
  sprintf widen text_f text_g (Some [37; 48; 53; 100]) (Some [Some (mk_arg 8 (VInt (-5)))]) = Ret [48; 48; 48; 45; 53] /\
  forall v, ~ denotes 10 [48; 48; 48; 45; 53] v.
Proof.
  split; [reflexivity |]. intros v (ws & sign & pre & ds & m & E & WS & PRE & NU & SG).
  assert (W : ws = []).
  { destruct ws as [| w ws]; auto. injection E as <- _. inversion WS. unfold white in *. lia. }
  subst ws. assert (PR : pre = []) by (destruct PRE as [| [X _]]; [auto | lia]). subst pre.
  assert (SI : sign = []).
  { destruct SG as [[-> _] | [[-> | ->] _]]; auto; discriminate. }
  subst sign. cbn [app] in E. subst ds.
  assert (G : forall ds n, number 10 ds n -> Forall (fun c => exists v, digit 10 c v) ds).
  { induction 1; [repeat constructor; eauto |]. apply Forall_app. split; [auto | repeat constructor; eauto]. }
  apply G in NU. rewrite Forall_forall in NU. destruct (NU 45) as (x & X); [cbn; auto 6 |]. unfold digit in X. lia.
Qed.
Print Assumptions C42_zero_sign_refuted.

(** "%f" of a number whose text has more than 21 characters, such as 1e300,
    copies bytes from behind the buffer. *)
Theorem C42_long_double_refuted {F D : Type} (widen : F -> D) (text_f text_g : D -> option Z -> list Z) d :
  21 < zlen (text_f d None) ->
  sprintf widen text_f text_g (Some [37; 102]) (Some [Some (mk_arg 8 (VDouble d))]) = UB.
Proof.
  intros L. unfold sprintf. cbn [sb_new]. 
  change (main_loop widen text_f text_g (Datatypes.S (length [37; 102])) [37; 102] (Some [Some (mk_arg 8 (VDouble d))]) 0 0 0)
    with (fun b => let! b := push_arg widen text_f text_g (spec_of [] 0 None (Some Cf)) (Some (mk_arg 8 (VDouble d))) b in
                   main_loop widen text_f text_g 2 [37; 102] (Some [Some (mk_arg 8 (VDouble d))]) 2 0 1 b).
  cbn [push_arg spec_of sp_conv double_arg a_val obind sp_precision]. unfold snprintf_float, snprintf_new. cbn [Z.geb Z.compare].
  change (c_add 21 (-1)) with (Ret 20). rewrite obind_ret. change (20 <? 0) with false. change (20 =? INT32_MAX) with false. cbn iota.
  change (20 + 1) with 21. destruct (Z.ltb_spec (zlen (text_f d None)) 21); [lia |]. destruct (Z.eqb_spec (zlen (text_f d None)) 21); [lia |].
  reflexivity.
Qed.
Print Assumptions C42_long_double_refuted.

(** A width that is no int wraps around: "%4294967296d". *)
Theorem C42_width_overflow_refuted {F D : Type} (widen : F -> D) (text_f text_g : D -> option Z -> list Z) :
  let s := [37; 52; 50; 57; 52; 57; 54; 55; 50; 57; 54; 100] in
  let a := Some (mk_arg 8 (VInt 7)) in
  sprintf widen text_f text_g (Some s) (Some [a]) = Ret [55] /\
  exists v, formats widen text_f text_g s [a] v /\ zlen v = 4294967296.
Proof.
  intros s a. split; [reflexivity |]. exists (padded [] 4294967296 (with_sign [] Cd [55])). split.
  - apply (simple_spec [] 4294967296 None Cd).
    + apply (Spec [] [52; 50; 57; 52; 57; 54; 55; 50; 57; 54] [] None Cd); [constructor | repeat constructor; unfold is_digit; lia | cbn; lia | constructor].
    + exists 7. split; [reflexivity |]. exists [55]. split; [reflexivity |]. split; [repeat constructor; unfold is_digit; lia |].
      split; [discriminate |]. split; [reflexivity |]. discriminate.
  - unfold padded, with_sign. cbn [has existsb andb]. rewrite zlen_app, zlen_rep. change (zlen [55]) with 1. lia.
Qed.
Print Assumptions C42_width_overflow_refuted.

Lemma pieces_step {F D : Type} (widen : F -> D) text_f text_g s args o r a o1 s1 a1 :
  pieces widen text_f text_g s args o r a -> piece widen text_f text_g s args o1 s1 a1 ->
  (o = [] /\ r = s /\ a = args) \/
  exists o' o2, piece widen text_f text_g s args o' s1 a1 /\ pieces widen text_f text_g s1 a1 o2 r a /\ o = o' ++ o2.
Proof.
  intros P Q. inversion P as [| ? ? o' s' a' o2 ? ? P1 P2]; subst; auto. right.
  destruct (piece_det _ _ _ _ _ _ _ _ _ _ _ Q P1) as [-> ->]. eauto.
Qed.
Lemma numbers_small_short s : zlen s <= 9 -> numbers_small s.
Proof.
  intros L before ds after -> D. rewrite !zlen_app in L. pose proof (zlen_nonneg before). pose proof (zlen_nonneg after). pose proof (zlen_nonneg ds).
  pose proof (dval_upper ds D) as U. assert (10 ^ zlen ds <= 10 ^ 9) by (apply Z.pow_le_mono_r; lia).
  change (10 ^ 9) with 1000000000 in *. change (digits_value ds) with (dval 0 ds). lia.
Qed.

(** "a%5d%%" with 42 meets the hypotheses. *)
Example C42_sprintf_ex :
  let s := [97; 37; 53; 100; 37; 37] in
  let args : list (option (arg unit unit)) := [Some (mk_arg 8 (VInt 42))] in
  let w := fun u : unit => u in
  let t := fun (_ : unit) (_ : option Z) => [48] in
  is_string s /\ numbers_small s /\ Forall arg_ok args /\ zlen args <= INT32_MAX /\
  (forall out rest args', pieces w t t s args out rest args' -> zlen out <= max_length) /\
  all_handled w t t s args /\
  sprintf w t t (Some s) (Some args) = Ret [97; 32; 32; 32; 52; 50; 37].
Proof.
  intros s args w t.
  assert (ST : spec_text [37; 53; 100] [] 5 None Cd).
  { apply (Spec [] [53] [] None Cd); [constructor | repeat constructor; unfold is_digit; lia | cbn; lia | constructor]. }
  assert (D42 : decimal_of 42 [52; 50]).
  { exists [52; 50]. split; [reflexivity |]. split; [repeat constructor; unfold is_digit; lia |]. split; [discriminate |].
    split; [reflexivity | discriminate]. }
  assert (P1 : piece w t t s args [97] [37; 53; 100; 37; 37] args) by (constructor; lia).
  assert (P2 : piece w t t [37; 53; 100; 37; 37] args (padded [] 5 (with_sign [] Cd [52; 50])) [37; 37] []).
  { apply (P_spec w t t [37; 53; 100] [] 5 None Cd _ [52; 50] [37; 37]); auto. exists 42. split; [reflexivity | auto]. }
  assert (P3 : piece w t t [37; 37] [] [37] [] []) by constructor.
  assert (NIL : forall args o r a, pieces w t t [] args o r a -> o = [] /\ r = [] /\ a = args).
  { intros ar o r a P. inversion P as [| ? ? ? ? ? ? ? ? Q]; subst; auto. inversion Q; subst.
    match goal with H : spec_text _ _ _ _ _ |- _ => inversion H; subst; discriminate end. }
  assert (ALL : forall out rest args', pieces w t t s args out rest args' ->
    zlen out <= 100 /\ (args' <> [] -> rest = s \/ rest = [37; 53; 100; 37; 37])).
  { intros o r a P. destruct (pieces_step _ _ _ _ _ _ _ _ _ _ _ P P1) as [(-> & -> & ->) | (o1 & o2 & Q1 & R1 & ->)].
    { split; [discriminate | auto]. }
    assert (zlen o1 = 1).
    { inversion Q1; subst; auto; match goal with H : spec_text _ _ _ _ _ |- _ => inversion H; subst; discriminate end. }
    destruct (pieces_step _ _ _ _ _ _ _ _ _ _ _ R1 P2) as [(-> & -> & ->) | (o3 & o4 & Q2 & R2 & ->)].
    { rewrite app_nil_r. split; [lia | auto]. }
    assert (zlen o3 = 5).
    { inversion Q2 as [| | t' fl wd p c x v s' ar ST' CV E1 E2 E3 E4]; subst; [congruence.. |].
      destruct (spec_text_det _ _ _ _ _ [37; 37] _ _ _ _ _ [37; 37] ST ST') as (_ & <- & <- & <- & <-); [symmetry; exact E1 |].
      destruct CV as (z & Z1 & Z2). injection Z1 as <-. pose proof (C19_decimal_unique _ _ _ D42 Z2) as <-. reflexivity. }
    destruct (pieces_step _ _ _ _ _ _ _ _ _ _ _ R2 P3) as [(-> & -> & ->) | (o5 & o6 & Q3 & R3 & ->)].
    { rewrite app_nil_r, zlen_app. split; [lia | congruence]. }
    apply NIL in R3. destruct R3 as (-> & -> & ->). assert (zlen o5 = 1) by (inversion Q3; subst; reflexivity).
    rewrite !zlen_app. change (@zlen Z []) with 0. split; [lia | congruence]. }
  split; [split; [repeat constructor; lia | reflexivity] |]. split; [apply numbers_small_short; discriminate |].
  split; [repeat constructor; cbn; try lia; unfold in_i32; lia |]. split; [discriminate |].
  split; [intros o r a P; destruct (ALL _ _ _ P) as [X _]; unfold max_length; lia |].
  split; [| reflexivity].
  intros out t' fl wd p c a v s' args' P SP CV. destruct (ALL _ _ _ P) as [_ X]. destruct X as [X | X]; [discriminate | |].
  - inversion SP; subst. discriminate.
  - destruct (spec_text_det _ _ _ _ _ s' _ _ _ _ _ [37; 37] SP ST X) as (_ & _ & _ & _ & ->). exact Logic.I.
Qed.

(** "a%5d%%%-3s|" with 42, "x" *)
Example C42_ex :
  let s := [97; 37; 53; 100; 37; 37; 37; 45; 51; 115; 124] in
  let args : list (option (arg unit unit)) := [Some (mk_arg 8 (VInt 42)); Some (mk_arg 16 (VStr [120]))] in
  let t := fun (_ : unit) (_ : option Z) => [48] in
  sprintf (fun u => u) t t (Some s) (Some args) = Ret [97; 32; 32; 32; 52; 50; 37; 120; 32; 32; 124].
Proof. reflexivity. Qed.

(** A missing argument and an unfinished specifier: nothing is documented for
    them, so they throw. *)
Example C42_undef_args_ex :
  let t := fun (_ : unit) (_ : option Z) => [48] in
  is_string [97; 37; 37] /\ numbers_small [97; 37; 37] /\
  sprintf (F := unit) (fun u => u) t t (Some [97; 37; 37]) None = Ret [97; 37] /\
  (exists e, sprintf (F := unit) (fun u => u) t t (Some [97; 37; 100]) (Some []) = Die e) /\
  (exists e, sprintf (F := unit) (fun u => u) t t (Some [97; 37; 53]) (Some [None]) = Die e).
Proof.
  intros t. split; [split; [repeat constructor; lia | reflexivity] |]. split; [apply numbers_small_short; discriminate |].
  split; [reflexivity |]. split; eexists; reflexivity.
Qed.
