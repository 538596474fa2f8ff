(** * How templates are read *)
From Verif Require Import Base StM CLib Dec Array_model Bytes Utf8_model FnMem_model FnStr_model FnStr_spec FnStr_proofs FnNum_model FnNum_spec FnNum_proofs FnNum_props
  FnUtf8_model VmConv_props Format_model Format_spec FormatParse_proofs Packer_model Packer_spec.
Local Notation is_digit := Dec.is_digit.

Definition spec_of (it : item) : pspec :=
  match i_count it with
  | Single => mk_pspec (i_type it) true (i_endian it) 1 false
  | Count n => mk_pspec (i_type it) false (i_endian it) n false
  | Star => mk_pspec (i_type it) false (i_endian it) 0 true
  end.

Lemma type_of_char_ok c : 0 <= c <= 255 -> forall ty, type_of_char (wrap8 c) = Some ty <-> letter c ty.
Proof.
  intros C ty. unfold type_of_char. rewrite !char_eqb by lia.
  repeat (match goal with |- context [Z.eqb c ?k] => destruct (Z.eqb_spec c k) as [-> |] end; cbn [orb];
    [split; [intros [= <-]; constructor | intros H; inversion H; reflexivity] |]).
  split; [discriminate |]. intros H. inversion H; subst; congruence.
Qed.
Lemma letter_not c ty : letter c ty -> c <> 62 /\ c <> 60 /\ c <> 42 /\ digb c = false.
Proof. intros H; inversion H; repeat split; (discriminate || reflexivity). Qed.

Lemma is_digit_digb c : 0 <= c <= 255 -> negb (FnStr_model.is_digit (wrap8 c) =? 0) = digb c.
Proof.
  intros C. unfold FnStr_model.is_digit, flag01. pose proof (char_digb c C) as D. rewrite Z.geb_leb.
  rewrite Z.ltb_antisym, (Z.ltb_antisym (wrap8 c) 57), <- negb_andb in D.
  destruct ((48 <=? wrap8 c) && (wrap8 c <=? 57)); destruct (digb c); (reflexivity || discriminate).
Qed.
Lemma chr_ascii c : 0 <= c < 128 -> chr c = Some [c].
Proof.
  intros C. unfold chr, is_unicode_scalar_value, codepoint_to_utf8.
  replace ((c >=? 0) && (c <=? 1114111)) with true by lia. replace ((c >=? 55296) && (c <=? 57343)) with false by lia. cbn [negb].
  replace (c <? 0) with false by lia. replace (c <? 128) with true by lia. unfold u8. rewrite Z.mod_small by lia. reflexivity.
Qed.
Lemma chr_digit c : is_digit c -> chr c = Some [c].
Proof. unfold is_digit. intros D. apply chr_ascii. lia. Qed.

Lemma digits_loop_ok t : is_string t -> forall l fuel i acc,
  at_pos t i l -> (length l < fuel)%nat -> zlen acc + zlen l < INT32_MAX ->
  digits_loop fuel t i acc = Ret (i + zlen (takew digb l), acc ++ takew digb l) /\
  at_pos t (i + zlen (takew digb l)) (dropw digb l).
Proof.
  intros S. induction l as [| c l IH]; intros fuel i acc A L LA; (destruct fuel as [| fuel]; [cbn in L; lia |]); cbn [digits_loop].
  - rewrite (at_nil _ _ A). cbn [takew dropw]. rewrite app_nil_r. change (@zlen Z []) with 0. rewrite Z.add_0_r. auto.
  - destruct (at_cons _ _ _ _ S A) as (E1 & E2 & E3 & A' & BC). rewrite E1, E2, obind_ret, is_digit_digb by auto.
    cbn [takew dropw] in *. assert (L' : (length l < fuel)%nat) by (cbn in L; lia).
    destruct (digb c) eqn:DC.
    + assert (D : is_digit c) by (apply digb_digit; auto). rewrite (wrap8_id c) by (unfold is_digit in D; unfold in_i8; lia).
      rewrite (chr_digit c D). unfold concat, c_add. change (zlen [c]) with 1. rewrite zlen_cons in LA. pose proof (zlen_nonneg acc). pose proof (zlen_nonneg l).
      replace ((INT32_MIN <=? zlen acc + 1) && (zlen acc + 1 <=? INT32_MAX)) with true by lia. rewrite obind_ret.
      destruct (Z.eqb_spec (zlen acc + 1) INT32_MAX); [lia |]. rewrite obind_ret, E3.
      destruct (IH fuel (i + 1) (acc ++ [c]) A' L') as [-> AT]; [rewrite zlen_app; change (zlen [c]) with 1; lia |].
      rewrite <- app_assoc. cbn [app]. rewrite zlen_cons, Z.add_assoc. auto.
    + rewrite app_nil_r. change (@zlen Z []) with 0. rewrite Z.add_0_r. auto.
Qed.

Lemma digits_denote ds : ds <> [] -> Forall is_digit ds -> ~ In 0 ds /\ denotes 10 ds (digits_value ds).
Proof.
  intros NE D. split.
  - intros IN. rewrite Forall_forall in D. specialize (D 0 IN). unfold is_digit in D. lia.
  - exists [], [], [], ds, (digits_value ds). split; [reflexivity |]. split; [constructor |]. split; [auto |]. split; [| auto].
    apply number_value; [lia |]. split; auto. split.
    + eapply Forall_impl; [| exact D]. intros c C. unfold isdig. apply digit_of_dec. exact C.
    + unfold digits_value, value. clear - D. generalize 0. induction D as [| c ds C F IH]; intros a; [reflexivity |].
      cbn [fold_left]. rewrite (digit_of_value c C). apply IH.
Qed.
Lemma digits_to_int long64 ds : ds <> [] -> Forall is_digit ds ->
  if digits_value ds <=? INT32_MAX then to_int long64 (Some ds) = Ret (digits_value ds) else exists e, to_int long64 (Some ds) = Die e.
Proof.
  intros NE D. destruct (digits_denote ds NE D) as [N0 DN]. assert (IB : In 10 bases) by (right; right; left; auto).
  pose proof (digits_value_nonneg ds D) as NN.
  pose proof (C50_to_int_partial long64 ds 10 NE N0) as H. unfold to_int.
  destruct (to_int_with_base long64 (Some ds) 10) as [w | e | |]; try tauto.
  - destruct H as (_ & D' & R). rewrite (C50_one_number 10 ds w (digits_value ds) IB D' DN) in *. unfold in_i32 in R.
    destruct (Z.leb_spec (digits_value ds) INT32_MAX); [reflexivity | lia].
  - destruct H as [H | H]; [tauto |]. specialize (H _ DN). unfold in_i32 in H.
    destruct (Z.leb_spec (digits_value ds) INT32_MAX); [lia | eauto].
Qed.

(** The start of another item, or the end. *)
Definition item_start (r : list Z) : Prop := match r with [] => True | c :: _ => exists ty, letter c ty end.
Lemma template_start t its : template_text t its -> item_start t.
Proof. intros H. destruct H as [| t it t' its I _]; [exact Logic.I |]. inversion I; subst. cbn. eauto. Qed.

(** After the letter and the endian. *)
Definition count_spec (n : count) : Z * bool * bool :=
  match n with Single => (1, true, false) | Count n => (n, false, false) | Star => (0, false, true) end.

Lemma rest_short t i l : is_string t -> at_pos t i l -> (length l < S (length t))%nat /\ zlen l < INT32_MAX.
Proof. intros [_ L] A. apply at_len in A as A'. destruct A as [B _]. unfold zlen in *. lia. Qed.

Lemma parse_count_cases long64 t i l : is_string t -> at_pos t i l ->
  (exists tx r n, l = tx ++ r /\ count_text tx n /\ at_pos t (i + zlen tx) r /\
     parse_count long64 t i = Ret (i + zlen tx, fst (fst (count_spec n)), snd (fst (count_spec n)), snd (count_spec n))) \/
  exists e, parse_count long64 t i = Die e.
Proof.
  intros S A. unfold parse_count.
  assert (DIGITS : forall l, at_pos t i l ->
    let m := let! (index, ds) := digits_loop (Datatypes.S (length t)) t i [] in
      if zlen ds =? 0 then Ret (index, 1, true, false)
      else let! n := to_int long64 (Some ds) in
        check! n >? 0 else "The data length $length in the template must be a positive value."%string in
        Ret (index, n, false, false) in
    (exists tx r n, l = tx ++ r /\ count_text tx n /\ at_pos t (i + zlen tx) r /\
       m = Ret (i + zlen tx, fst (fst (count_spec n)), snd (fst (count_spec n)), snd (count_spec n))) \/ exists e, m = Die e).
  { clear l A. intros l A. destruct (rest_short _ _ _ S A) as [L1 L2].
    destruct (digits_loop_ok t S l _ i [] A L1) as [-> AT]; [exact L2 |]. cbn zeta. rewrite obind_ret. cbn [app].
    destruct (Z.eqb_spec (zlen (takew digb l)) 0) as [E0 | E0].
    - apply zlen_0_nil in E0. left. exists [], l, Single. rewrite E0 in *. change (@zlen Z []) with 0 in *.
      assert (EL : dropw digb l = l) by (pose proof (take_drop digb l) as TD; rewrite E0 in TD; exact TD).
      rewrite EL in AT. split; [reflexivity |]. split; [constructor |]. split; [exact AT | reflexivity].
    - assert (NE : takew digb l <> []) by (intros X; rewrite X in E0; apply E0; reflexivity).
      assert (F : Forall is_digit (takew digb l)) by (eapply Forall_impl; [| apply takew_all]; intros; apply digb_digit; auto).
      pose proof (digits_to_int long64 _ NE F) as T. destruct (Z.leb_spec (digits_value (takew digb l)) INT32_MAX) as [LE | GT].
      + rewrite T, obind_ret. destruct (Z.gtb_spec (digits_value (takew digb l)) 0); [| right; eexists; reflexivity].
        left. exists (takew digb l), (dropw digb l), (Count (digits_value (takew digb l))). split; [symmetry; apply take_drop |].
        split; [constructor; auto; lia |]. split; [exact AT | reflexivity].
      + destruct T as (e & ->). right. exists e. reflexivity. }
  destruct l as [| c l].
  - rewrite (at_nil _ _ A), obind_ret. apply DIGITS; auto.
  - destruct (at_cons _ _ _ _ S A) as (E1 & E2 & E3 & A' & BC). rewrite E1, E2, obind_ret, char_eqb by lia.
    destruct (Z.eqb_spec c 42) as [-> |]; rewrite obind_ret; cbn iota; [| apply DIGITS; auto].
    left. exists [42], l, Star. rewrite E3. split; [reflexivity |]. split; [constructor |]. change (zlen [42]) with 1. split; [exact A' | reflexivity].
Qed.

Lemma parse_count_complete long64 t i tx n r : is_string t -> at_pos t i (tx ++ r) -> count_text tx n -> item_start r ->
  parse_count long64 t i = Ret (i + zlen tx, fst (fst (count_spec n)), snd (fst (count_spec n)), snd (count_spec n)).
Proof.
  intros S A CT IS. unfold parse_count. destruct (rest_short _ _ _ S A) as [L1 L2].
  assert (SR : stops digb r). { destruct r as [| c r]; cbn in *; auto. destruct IS as (ty & L). apply letter_not in L. tauto. }
  inversion CT as [| | ds NE D B]; subst.
  - cbn [app] in A. assert (ST : (if i <? zlen t then let! c := char_at t i in Ret (c =? 42) else Ret false) = Ret false).
    { destruct r as [| c r]; [rewrite (at_nil _ _ A); reflexivity |]. destruct (at_cons _ _ _ _ S A) as (E1 & E2 & E3 & A' & BC).
      rewrite E1, E2, obind_ret, char_eqb by lia. cbn in IS. destruct IS as (ty & L). apply letter_not in L.
      destruct (Z.eqb_spec c 42); [tauto | reflexivity]. }
    rewrite ST, obind_ret. destruct (digits_loop_ok t S r _ i [] A L1 L2) as [-> _]. rewrite obind_ret. cbn [app].
    destruct (takew_app digb [] r (Forall_nil _) SR) as [X _]. cbn [app] in X. rewrite X. reflexivity.
  - cbn [app] in A. destruct (at_cons _ _ _ _ S A) as (E1 & E2 & E3 & A' & BC). rewrite E1, E2, obind_ret, char_eqb by lia.
    change (42 =? 42) with true. rewrite obind_ret, E3. reflexivity.
  - assert (F : Forall (fun c => digb c = true) tx) by (eapply Forall_impl; [| exact D]; intros; apply digb_digit; auto).
    destruct (takew_app digb tx r F SR) as [X _].
    assert (ST : (if i <? zlen t then let! c := char_at t i in Ret (c =? 42) else Ret false) = Ret false).
    { destruct tx as [| c tx]; [congruence |]. destruct (at_cons _ _ _ _ S A) as (E1 & E2 & E3 & A' & BC).
      rewrite E1, E2, obind_ret, char_eqb by lia. inversion D; subst. unfold is_digit in *. destruct (Z.eqb_spec c 42); [lia | reflexivity]. }
    rewrite ST, obind_ret. destruct (digits_loop_ok t S (tx ++ r) _ i [] A L1 L2) as [-> _]. rewrite obind_ret. cbn [app]. rewrite X.
    destruct (Z.eqb_spec (zlen tx) 0) as [E0 | E0]; [apply zlen_0_nil in E0; congruence |].
    pose proof (digits_to_int long64 _ NE D) as T. destruct (Z.leb_spec (digits_value tx) INT32_MAX); [| lia].
    rewrite T, obind_ret. destruct (Z.gtb_spec (digits_value tx) 0); [reflexivity | lia].
Qed.

Lemma parse_endian_cases t i l : is_string t -> at_pos t i l ->
  exists te r e, l = te ++ r /\ endian_text te e /\ at_pos t (i + zlen te) r /\ parse_endian t i = Ret (i + zlen te, e).
Proof.
  intros S A. unfold parse_endian. destruct l as [| d l].
  - exists [], [], ENone. rewrite (at_nil _ _ A). change (@zlen Z []) with 0. rewrite Z.add_0_r. repeat split; (constructor || apply A).
  - destruct (at_cons _ _ _ _ S A) as (F1 & F2 & F3 & A2 & BD). rewrite F1, F2, obind_ret, F3, !char_eqb by lia.
    destruct (Z.eqb_spec d 62) as [-> |]; [| destruct (Z.eqb_spec d 60) as [-> |]].
    + exists [62], l, EBig. repeat split; (constructor || apply A2).
    + exists [60], l, ELittle. repeat split; (constructor || apply A2).
    + exists [], (d :: l), ENone. change (@zlen Z []) with 0. rewrite Z.add_0_r. repeat split; (constructor || apply A).
Qed.
Lemma parse_endian_complete t i te e r : is_string t -> at_pos t i (te ++ r) -> endian_text te e ->
  match r with c :: _ => c <> 62 /\ c <> 60 | [] => True end ->
  parse_endian t i = Ret (i + zlen te, e) /\ at_pos t (i + zlen te) r.
Proof.
  intros S A TE NR. unfold parse_endian. inversion TE; subst; cbn [app] in A.
  - change (@zlen Z []) with 0. rewrite Z.add_0_r. split; [| exact A]. destruct r as [| c r]; [rewrite (at_nil _ _ A); reflexivity |].
    destruct (at_cons _ _ _ _ S A) as (F1 & F2 & F3 & A2 & BD). rewrite F1, F2, obind_ret, !char_eqb by lia.
    destruct (Z.eqb_spec c 62); [tauto |]. destruct (Z.eqb_spec c 60); [tauto |]. reflexivity.
  - destruct (at_cons _ _ _ _ S A) as (F1 & F2 & F3 & A2 & BD). rewrite F1, F2, obind_ret, F3. split; [reflexivity | exact A2].
  - destruct (at_cons _ _ _ _ S A) as (F1 & F2 & F3 & A2 & BD). rewrite F1, F2, obind_ret, F3. split; [reflexivity | exact A2].
Qed.

Lemma parse_one_cases long64 t i l : is_string t -> at_pos t i l -> l <> [] ->
  (exists tx r it, l = tx ++ r /\ item_text tx it /\ at_pos t (i + zlen tx) r /\ parse_one long64 t i = Ret (i + zlen tx, spec_of it)) \/
  exists e, parse_one long64 t i = Die e.
Proof.
  intros S A NE. destruct l as [| c l]; [congruence |]. destruct (at_cons _ _ _ _ S A) as (E1 & E2 & E3 & A' & BC).
  unfold parse_one. rewrite E2, obind_ret. destruct (type_of_char (wrap8 c)) as [ty |] eqn:TY; [| right; eexists; reflexivity].
  apply type_of_char_ok in TY; [| lia]. rewrite E3.
  destruct (parse_endian_cases t _ _ S A') as (te & r & e & -> & TE & A2 & ->). rewrite obind_ret.
  destruct (parse_count_cases long64 t _ _ S A2) as [(tx & r' & n & -> & CT & A3 & PC) | (err & PC)]; rewrite PC; [| right; eexists; reflexivity].
  rewrite obind_ret.
  destruct (negb match ty with PStr => snd (fst (count_spec n)) | _ => false end) eqn:NS; [| right; eexists; reflexivity].
  left. exists (c :: te ++ tx), r', (mk_item ty e n).
  assert (ZL : i + zlen (c :: te ++ tx) = i + 1 + zlen te + zlen tx) by (rewrite zlen_cons, zlen_app; lia).
  rewrite ZL. split; [cbn [app]; rewrite <- app_assoc; reflexivity |]. split.
  { constructor; auto. intros -> ->. discriminate. }
  split; [exact A3 |]. unfold spec_of. cbn [i_count i_type i_endian]. destruct n; reflexivity.
Qed.

Lemma parse_one_complete long64 t i tx it r : is_string t -> at_pos t i (tx ++ r) -> item_text tx it -> item_start r ->
  parse_one long64 t i = Ret (i + zlen tx, spec_of it) /\ at_pos t (i + zlen tx) r.
Proof.
  intros S A IT IS. inversion IT as [c ty te e tc n L TE CT NP]; subst. cbn [app] in A. rewrite <- app_assoc in A.
  destruct (at_cons _ _ _ _ S A) as (E1 & E2 & E3 & A' & BC). unfold parse_one. rewrite E2, obind_ret.
  rewrite (proj2 (type_of_char_ok c BC ty) L), E3.
  destruct (parse_endian_complete t _ _ _ _ S A' TE) as [-> A2].
  { inversion CT as [| | ds NE D B]; subst; cbn [app].
    - destruct r as [| d r]; auto. cbn in IS. destruct IS as (ty' & L'). apply letter_not in L'. tauto.
    - split; discriminate.
    - destruct tc as [| d tc]; [congruence |]. cbn [app]. inversion D; subst. unfold is_digit in *. lia. }
  rewrite obind_ret, (parse_count_complete long64 t _ tc n r S A2 CT IS), obind_ret.
  assert (ZL : i + zlen (c :: te ++ tc) = i + 1 + zlen te + zlen tc) by (rewrite zlen_cons, zlen_app; lia). rewrite ZL.
  replace (negb match ty with PStr => snd (fst (count_spec n)) | _ => false end) with true.
  2: { destruct ty; auto. destruct n; auto. exfalso. apply NP; auto. }
  split. { unfold spec_of. cbn [i_count i_type i_endian]. destruct n; reflexivity. }
  pose proof (at_len _ _ _ A2) as L2. destruct A2 as [B2 D2]. rewrite zlen_app in L2. pose proof (zlen_nonneg tc). pose proof (zlen_nonneg r).
  split; [lia |]. replace (i + 1 + zlen te + zlen tc) with (Z.max 0 (zlen tc) + Z.max 0 (i + 1 + zlen te)) by lia. rewrite <- zdrop_zdrop, D2. rewrite zdrop_app_r, Z.sub_diag by lia. apply zdrop_0. lia.
Qed.

Lemma parse_loop_sound long64 t : is_string t -> forall fuel i l acc, at_pos t i l -> (length l < fuel)%nat ->
  (exists its, template_text l its /\ parse_loop long64 fuel t i acc = Ret (acc ++ map spec_of its)) \/
  exists e, parse_loop long64 fuel t i acc = Die e.
Proof.
  intros S. induction fuel as [| fuel IH]; intros i l acc A L; [lia |]. cbn [parse_loop].
  destruct l as [| c l].
  - rewrite (at_nil _ _ A). left. exists []. split; [constructor | rewrite app_nil_r; reflexivity].
  - destruct (at_cons _ _ _ _ S A) as (E1 & _). rewrite E1.
    destruct (parse_one_cases long64 t i (c :: l) S A) as [(tx & r & it & E & IT & A' & ->) | (e & ->)]; [discriminate | | right; eexists; reflexivity].
    rewrite obind_ret. destruct (IH (i + zlen tx) r (acc ++ [spec_of it]) A') as [(its & TT & ->) | X]; auto.
    + inversion IT; subst. apply (f_equal (@length Z)) in E. rewrite app_length in E. cbn in E, L. lia.
    + left. exists (it :: its). rewrite E. split; [constructor; auto |]. rewrite <- app_assoc. reflexivity.
Qed.
Lemma parse_loop_complete long64 t : is_string t -> forall l its, template_text l its -> forall fuel i acc, at_pos t i l -> (length l < fuel)%nat ->
  parse_loop long64 fuel t i acc = Ret (acc ++ map spec_of its).
Proof.
  intros S. induction 1 as [| tx it r its IT TT IH]; intros fuel i acc A L; (destruct fuel as [| fuel]; [lia |]); cbn [parse_loop].
  - rewrite (at_nil _ _ A), app_nil_r. reflexivity.
  - destruct (parse_one_complete long64 t i tx it r S A IT (template_start _ _ TT)) as [E A'].
    inversion IT; subst. cbn [app] in A. destruct (at_cons _ _ _ _ S A) as (E1 & _). rewrite E1, E, obind_ret, IH; auto.
    + rewrite <- app_assoc. reflexivity.
    + cbn in L. rewrite app_length in L. lia.
Qed.

Lemma parse_template_ok long64 t : is_string t ->
  match parse_template long64 t with
  | Ret specs => exists its, template_text t its /\ specs = map spec_of its
  | Die _ => forall its, ~ template_text t its
  | _ => False
  end.
Proof.
  intros S. unfold parse_template. assert (A : at_pos t 0 t) by (split; [pose proof (zlen_nonneg t); lia | apply zdrop_0; lia]).
  destruct (parse_loop_sound long64 t S (Datatypes.S (length t)) 0 t [] A) as [(its & TT & ->) | (e & E)]; [lia | eauto |].
  rewrite E. intros its TT. rewrite (parse_loop_complete long64 t S t its TT (Datatypes.S (length t)) 0 [] A) in E; [discriminate | lia].
Qed.
Lemma parse_template_complete long64 t its : is_string t -> template_text t its -> parse_template long64 t = Ret (map spec_of its).
Proof.
  intros S TT. unfold parse_template. rewrite (parse_loop_complete long64 t S t its TT); auto.
  split; [pose proof (zlen_nonneg t); lia | apply zdrop_0; lia].
Qed.
