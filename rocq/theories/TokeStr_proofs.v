(** * String and character literals *)
From Verif Require Import Base CLib CStrto FnMem_model Utf8_spec Utf8_model Utf8_proofs FnNum_spec FnNum_proofs Toke_model Toke_spec TokeNum_proofs.

(** ** Digits *)
Definition digs (base : Z) (ds : list Z) : Prop := Forall (fun c => isdig base c = true) ds.
Lemma number_digs base ds v : base <= 36 -> number base ds v -> digs base ds /\ ds <> [].
Proof. intros B N. apply number_value in N as (A & F & _); auto. Qed.
Lemma digs_number base ds : base <= 36 -> digs base ds -> ds <> [] -> number base ds (value base 0 ds).
Proof. intros B F N. apply number_value; auto. Qed.
Lemma number_fun base ds v w : base <= 36 -> number base ds v -> number base ds w -> v = w.
Proof. intros B N M. apply number_value in N as (_ & _ & ->); auto. apply number_value in M as (_ & _ & ->); auto. Qed.
Lemma digit_range base c : 2 <= base <= 36 -> isdig base c = true -> 0 <= digit_of c < base.
Proof.
  intros B H. split; [| unfold isdig in H; apply Z.ltb_lt in H; auto].
  unfold digit_of. destruct (Z.leb_spec 48 c); destruct (Z.leb_spec c 57); cbn [andb]; try lia;
    destruct (Z.leb_spec 97 c); destruct (Z.leb_spec c 122); cbn [andb]; try lia; destruct (Z.leb_spec 65 c); destruct (Z.leb_spec c 90); cbn [andb]; lia.
Qed.
Lemma number_bound base ds v : 2 <= base <= 36 -> number base ds v -> 0 <= v < base ^ zlen ds.
Proof.
  intros B. induction 1 as [c v D | ds n c v N IH D].
  - assert (C : isdig base c = true) by (eapply digit_isdig; eauto; lia). apply digit_of_spec in D as [<- D]; [| lia].
    change (zlen [c]) with 1. rewrite Z.pow_1_r. apply digit_range; auto.
  - assert (C : isdig base c = true) by (eapply digit_isdig; eauto; lia). apply digit_of_spec in D as [<- D]; [| lia].
    pose proof (digit_range base c B C). rewrite zlen_app. change (zlen [c]) with 1. pose proof (zlen_nonneg ds).
    rewrite Z.pow_add_r, Z.pow_1_r by lia. nia.
Qed.
Lemma number_bound_le base ds v n : 2 <= base <= 36 -> number base ds v -> zlen ds <= n -> 0 <= v < base ^ n.
Proof.
  intros B N L. pose proof (number_bound base ds v B N). pose proof (Z.pow_le_mono_r base (zlen ds) n ltac:(lia) L). lia.
Qed.
Lemma strtoll_digits base ds v : In base bases -> number base ds v -> v <= INT64_MAX -> strtoll base ds = (v, zlen ds, false).
Proof.
  intros IB N L. assert (B : 2 <= base <= 36) by (destruct IB as [<- | [<- | [<- | [<- | []]]]]; lia).
  pose proof (number_bound base ds v B N).
  destruct (strto_denotes INT64_MIN INT64_MAX base ds v) as (e & E & EE); [lia | auto | |].
  - exists [], [], [], ds, v. repeat split; auto.
  - unfold strtoll. rewrite E. unfold clamp. replace e with false by (symmetry; apply EE; lia). f_equal. f_equal. lia.
Qed.
Lemma octal_iff c : octal c <-> is_octal_number c = true.
Proof. rewrite isoct_dec. split; [intros [v D]; eapply digit_isdig; eauto; lia | intros H; eexists; apply isdig_digit; eauto; lia]. Qed.
Lemma hexadecimal_iff c : hexadecimal c <-> is_hex_number c = true.
Proof. rewrite ishex_dec. split; [intros [v D]; eapply digit_isdig; eauto; lia | intros H; eexists; apply isdig_digit; eauto; lia]. Qed.
Lemma digs_oct ds : digs 8 ds -> Forall (fun c => is_octal_number c = true) ds.
Proof. intros F. eapply Forall_impl; [| exact F]. intros c. rewrite isoct_dec. auto. Qed.
Lemma digs_hex ds : digs 16 ds -> Forall (fun c => is_hex_number c = true) ds.
Proof. intros F. eapply Forall_impl; [| exact F]. intros c. rewrite ishex_dec. auto. Qed.

(** ** up_to and while_ *)
Lemma up_to_ok n f ds rest : Forall (fun c => f c = true) ds -> (length ds <= n)%nat -> rest <> [] ->
  (length ds = n \/ ~ starts (fun c => f c = true) rest) -> up_to n f (ds ++ rest) = Ret (ds, rest).
Proof.
  revert ds. induction n as [| n IH]; intros ds F L NE E.
  - destruct ds; [| cbn in L; lia]. cbn [up_to app]. destruct rest; [congruence |]. reflexivity.
  - destruct ds as [| c ds]; cbn [app up_to].
    + destruct E as [E | E]; [discriminate |]. destruct rest as [| r rest]; [congruence |]. cbn [starts] in E. destruct (f r); [congruence | reflexivity].
    + inversion F; subst. rewrite H1. rewrite IH; auto; [cbn in L; lia |]. destruct E as [E | E]; auto.
Qed.
Lemma up_to_inv n f p ds rest : up_to n f p = Ret (ds, rest) ->
  p = ds ++ rest /\ Forall (fun c => f c = true) ds /\ (length ds <= n)%nat /\ rest <> [] /\ (length ds = n \/ ~ starts (fun c => f c = true) rest).
Proof.
  revert p ds. induction n as [| n IH]; intros p ds E; cbn [up_to] in E.
  - destruct p; [discriminate |]. cbn in E. injection E as <- <-. repeat split; auto. discriminate.
  - destruct p as [| c p]; [discriminate |]. destruct (f c) eqn:FC.
    + destruct (up_to n f p) as [[ds' r] | | |] eqn:U; try discriminate. cbn [obind] in E. injection E as <- <-.
      destruct (IH _ _ U) as (-> & A & B & C & D0). repeat split; auto; [cbn; lia | destruct D0; cbn; auto].
    + injection E as <- <-. repeat split; auto; [cbn; lia | discriminate | right; cbn [starts]; congruence].
Qed.
Lemma while_ok f ds rest : Forall (fun c => f c = true) ds -> rest <> [] -> ~ starts (fun c => f c = true) rest -> while_ f (ds ++ rest) = Ret (ds, rest).
Proof.
  intros F NE E. induction F as [| c ds C F IH]; cbn [app while_].
  - destruct rest as [| r rest]; [congruence |]. cbn [while_]. cbn [starts] in E. destruct (f r); [congruence | reflexivity].
  - rewrite C, IH. reflexivity.
Qed.
Lemma while_inv f p ds rest : while_ f p = Ret (ds, rest) -> p = ds ++ rest /\ Forall (fun c => f c = true) ds /\ rest <> [] /\ ~ starts (fun c => f c = true) rest.
Proof.
  revert ds. induction p as [| c p IH]; intros ds E; cbn [while_] in E; [discriminate |]. destruct (f c) eqn:FC.
  - destruct (while_ f p) as [[ds' r] | | |] eqn:U; try discriminate. cbn [obind] in E. injection E as <- <-.
    destruct (IH _ eq_refl) as (-> & A & B & C). auto.
  - injection E as <- <-. repeat split; auto; [discriminate | cbn [starts]; congruence].
Qed.

(** ** Escapes *)
Definition plain (c : Z) : Prop := c <> 34 /\ c <> 92 /\ c <> 36 /\ c <> 0.
Lemma digs_plain base ds : base <= 36 -> digs base ds -> Forall plain ds.
Proof. intros B F. eapply Forall_impl; [| exact F]. cbn beta. intros c C. apply isdig_ascii in C; auto. unfold plain. lia. Qed.

Lemma zlen_length_le {A} (l : list A) n : zlen l <= Z.of_nat n <-> (length l <= n)%nat.
Proof. unfold zlen. lia. Qed.
Lemma starts_impl (f g : Z -> Prop) l : (forall c, f c -> g c) -> starts f l -> starts g l.
Proof. destruct l; cbn; auto. Qed.

Lemma octal_escape_ok ds v rest : some_digits 8 octal 3 ds rest v -> v <= 255 -> rest <> [] -> parse_octal_escape (ds ++ rest) = Ret (v, rest).
Proof.
  intros (N & L & E) V NE. destruct (number_digs 8 ds v ltac:(lia) N) as [F DN]. unfold parse_octal_escape.
  pose proof (digs_oct ds F) as FO. destruct ds as [| c ds]; [congruence |]. cbn [app deref obind].
  inversion FO as [| ? ? CO _]; subst. destruct (Z.eqb_spec c 111) as [-> | N1]; [discriminate |]. cbn [obind].
  change (c :: ds ++ rest) with ((c :: ds) ++ rest).
  rewrite (up_to_ok 3 is_octal_number (c :: ds) rest); auto; [| apply zlen_length_le; exact L |].
  - cbn [obind]. rewrite (strtoll_digits 8 (c :: ds) v); auto; [| cbn; auto | lia]. destruct (Z.leb_spec v 255); [reflexivity | lia].
  - destruct E as [E | E]; [left; unfold zlen in E; lia | right]. intros S. apply E. eapply starts_impl; [| exact S]. intros x. apply octal_iff.
Qed.
Lemma octal_brace_ok ds v rest : number 8 ds v -> zlen ds <= 3 -> v <= 255 -> parse_octal_escape (111 :: 123 :: (ds ++ [125]) ++ rest) = Ret (v, rest).
Proof.
  intros N L V. destruct (number_digs 8 ds v ltac:(lia) N) as [F DN]. unfold parse_octal_escape.
  pose proof (digs_oct ds F) as FO. destruct ds as [| c ds]; [congruence |]. rewrite <- app_assoc. cbn [app deref obind next tl].
  change (111 =? 111) with true. change (123 =? 123) with true. cbn iota. inversion FO as [| ? ? CO _]; subst. rewrite CO. cbn [obind].
  change (c :: ds ++ 125 :: rest) with ((c :: ds) ++ 125 :: rest).
  rewrite (up_to_ok 3 is_octal_number (c :: ds) (125 :: rest)); auto; [| apply zlen_length_le; exact L | discriminate | right; cbn; discriminate].
  cbn [obind]. rewrite (strtoll_digits 8 (c :: ds) v); auto; [| cbn; auto | lia]. destruct (Z.leb_spec v 255); [reflexivity | lia].
Qed.
Lemma hex_escape_ok ds v rest : some_digits 16 hexadecimal 2 ds rest v -> rest <> [] -> parse_hex_escape (120 :: ds ++ rest) = Ret (v, rest).
Proof.
  intros (N & L & E) NE. destruct (number_digs 16 ds v ltac:(lia) N) as [F DN]. unfold parse_hex_escape.
  pose proof (digs_hex ds F) as FO. pose proof (number_bound_le 16 ds v 2 ltac:(lia) N L) as V. change (16 ^ 2) with 256 in V.
  destruct ds as [| c ds]; [congruence |]. cbn [app deref obind next tl].
  inversion FO as [| ? ? CO _]; subst. destruct (Z.eqb_spec c 123) as [-> | N1]; [discriminate |].
  change (c :: ds ++ rest) with ((c :: ds) ++ rest).
  rewrite (up_to_ok 2 is_hex_number (c :: ds) rest); auto; [| apply zlen_length_le; exact L |].
  - cbn [obind]. destruct (Z.ltb_spec 0 (zlen (c :: ds))); [| rewrite zlen_cons in *; pose proof (zlen_nonneg ds); lia].
    rewrite (strtoll_digits 16 (c :: ds) v); auto; [cbn; auto | lia].
  - destruct E as [E | E]; [left; unfold zlen in E; lia | right]. intros S. apply E. eapply starts_impl; [| exact S]. intros x. apply hexadecimal_iff.
Qed.
Lemma hex_brace_ok ds v rest : number 16 ds v -> zlen ds <= 2 -> parse_hex_escape (120 :: 123 :: (ds ++ [125]) ++ rest) = Ret (v, rest).
Proof.
  intros N L. destruct (number_digs 16 ds v ltac:(lia) N) as [F DN]. unfold parse_hex_escape.
  pose proof (digs_hex ds F) as FO. pose proof (number_bound_le 16 ds v 2 ltac:(lia) N L) as V. change (16 ^ 2) with 256 in V.
  rewrite <- app_assoc. cbn [app deref obind next tl]. change (123 =? 123) with true. cbn iota.
  rewrite (up_to_ok 2 is_hex_number ds (125 :: rest)); auto; [| apply zlen_length_le; exact L | discriminate | right; cbn; discriminate].
  cbn [obind]. destruct (Z.ltb_spec 0 (zlen ds)); [| destruct ds; [congruence | rewrite zlen_cons in *; pose proof (zlen_nonneg ds); lia]].
  rewrite (strtoll_digits 16 ds v); auto; [cbn; auto | lia].
Qed.

(** The escapes shared by both sorts of literal, as one function. *)
Definition numeric_escape (p : list Z) : outcome (Z * list Z) :=
  let! e := deref p in
  match char_escape e with
  | Some v => Ret (v, next p)
  | None => if is_octal_number e || (e =? 111) then parse_octal_escape p else if e =? 120 then parse_hex_escape p else Die "no"
  end.
Lemma char_escape_spec c v : char_escape c = Some v <-> In (c, v) letters.
Proof.
  unfold char_escape, letters. cbn [In].
  repeat match goal with |- context [?a =? ?b] => destruct (Z.eqb_spec a b) as [-> |] end;
    split; intros H; try (injection H as <-); try discriminate; auto 10;
    repeat match goal with H : _ \/ _ |- _ => destruct H as [H | H] | H : (_, _) = (_, _) |- _ => injection H; intros; subst; clear H | H : False |- _ => destruct H end; congruence.
Qed.
Lemma char_escape_not c : is_octal_number c = true \/ c = 111 \/ c = 120 \/ c = 36 -> char_escape c = None.
Proof. unfold is_octal_number, char_escape. intros H. repeat match goal with |- context [?a =? ?b] => destruct (Z.eqb_spec a b); [lia |] end. reflexivity. Qed.

Lemma numeric_escape_ok t v rest : byte_escape t v rest -> rest <> [] -> numeric_escape (t ++ rest) = Ret (v, rest).
Proof.
  intros B NE. unfold numeric_escape. destruct B as [c v rest IL | ds v rest SD V | ds v rest N L V | ds v rest SD | ds v rest N L].
  - cbn [app deref obind next tl]. apply char_escape_spec in IL. rewrite IL. reflexivity.
  - pose proof (octal_escape_ok _ _ _ SD V NE) as OK. destruct SD as (N & _ & _). destruct (number_digs 8 ds v ltac:(lia) N) as [F DN].
    apply digs_oct in F. destruct ds as [| c ds]; [congruence |]. inversion F as [| ? ? CO _]; subst. cbn [app deref obind] in *. rewrite char_escape_not by auto. rewrite CO. cbn [orb]. exact OK.
  - cbn [app deref obind]. apply octal_brace_ok; auto.
  - cbn [app deref obind]. apply hex_escape_ok; auto.
  - cbn [app deref obind]. apply hex_brace_ok; auto.
Qed.

Lemma byte_escape_cons t v rest : byte_escape t v rest -> exists e t', t = e :: t' /\ Forall plain t' /\ 0 <= v <= 255.
Proof.
  intros B. destruct B as [c v rest IL | ds v rest SD V | ds v rest N L V | ds v rest SD | ds v rest N L].
  - exists c, []. repeat split; auto; unfold letters in IL; cbn [In] in IL;
      repeat match goal with H : _ \/ _ |- _ => destruct H as [H | H] | H : (_, _) = (_, _) |- _ => injection H; intros; subst; clear H | H : False |- _ => destruct H end; lia.
  - destruct SD as (N & _ & _). destruct (number_digs 8 ds v ltac:(lia) N) as [F DN]. pose proof (number_bound 8 ds v ltac:(lia) N).
    apply digs_plain in F; [| lia]. destruct ds as [| c ds]; [congruence |]. inversion F; subst. exists c, ds. repeat split; auto; lia.
  - destruct (number_digs 8 ds v ltac:(lia) N) as [F DN]. pose proof (number_bound 8 ds v ltac:(lia) N). apply digs_plain in F; [| lia].
    exists 111, (123 :: ds ++ [125]). repeat split; auto; [| lia]. constructor; [unfold plain; lia |]. apply Forall_app. split; auto. constructor; auto. unfold plain; lia.
  - destruct SD as (N & L & _). destruct (number_digs 16 ds v ltac:(lia) N) as [F DN]. pose proof (number_bound_le 16 ds v 2 ltac:(lia) N L) as V. change (16 ^ 2) with 256 in V.
    apply digs_plain in F; [| lia]. exists 120, ds. repeat split; auto; lia.
  - destruct (number_digs 16 ds v ltac:(lia) N) as [F DN]. pose proof (number_bound_le 16 ds v 2 ltac:(lia) N L) as V. change (16 ^ 2) with 256 in V. apply digs_plain in F; [| lia].
    exists 120, (123 :: ds ++ [125]). repeat split; auto; try lia. constructor; [unfold plain; lia |]. apply Forall_app. split; auto. constructor; auto. unfold plain; lia.
Qed.

Lemma numeric_escape_inv p v rest : numeric_escape p = Ret (v, rest) -> exists t, p = t ++ rest /\ byte_escape t v rest.
Proof.
  unfold numeric_escape. destruct p as [| e p]; [discriminate |]. cbn [deref obind next tl].
  destruct (char_escape e) as [w |] eqn:CE.
  { intros E. injection E as <- <-. exists [e]. split; [reflexivity |]. constructor. apply char_escape_spec; auto. }
  destruct (is_octal_number e || (e =? 111)) eqn:O.
  { unfold parse_octal_escape. cbn [deref obind next tl]. destruct (Z.eqb_spec e 111) as [-> | N1]; intros E.
    - destruct p as [| b p]; [discriminate |]. cbn [deref obind next tl] in E. destruct (Z.eqb_spec b 123) as [-> |]; [| discriminate]. cbn [next tl] in E.
      destruct p as [| c p]; [discriminate |]. cbn [deref obind next tl] in E. destruct (is_octal_number c) eqn:CO; [| discriminate]. cbn [obind] in E.
      destruct (up_to 3 is_octal_number (c :: p)) as [[ds r] | | |] eqn:U; try discriminate. cbn [obind] in E.
      destruct (up_to_inv _ _ _ _ _ U) as (EP & F & L & NE & ED).
      assert (DN : ds <> []). { intros ->. cbn [app] in EP. subst r. destruct ED as [ED | ED]; [cbn in ED; lia | apply ED; cbn [starts]; rewrite ?CO, ?O; auto]. }
      assert (FD : digs 8 ds) by (eapply Forall_impl; [| exact F]; cbn beta; intros x; rewrite isoct_dec; auto).
      pose proof (digs_number 8 ds ltac:(lia) FD DN) as N. apply (zlen_length_le ds 3) in L. change (Z.of_nat 3) with 3 in L.
      pose proof (number_bound_le 8 ds _ 3 ltac:(lia) N L) as V. change (8 ^ 3) with 512 in V.
      rewrite (strtoll_digits 8 ds _ ltac:(cbn; auto) N ltac:(lia)) in E.
      destruct (Z.leb_spec (value 8 0 ds) 255); [| discriminate]. destruct r as [| c1 r]; [congruence |]. cbn [deref obind next tl] in E.
      destruct (Z.eqb_spec c1 125) as [-> |]; [| discriminate]. cbn [next tl] in E. injection E as <- <-.
      exists (111 :: 123 :: ds ++ [125]). split; [cbn; rewrite <- app_assoc; cbn; congruence |]. apply E_octal_brace; auto.
    - cbn [obind] in E. rewrite orb_false_r in O. destruct (up_to 3 is_octal_number (e :: p)) as [[ds r] | | |] eqn:U; try discriminate. cbn [obind] in E.
      destruct (up_to_inv _ _ _ _ _ U) as (EP & F & L & NE & ED).
      assert (DN : ds <> []). { intros ->. cbn [app] in EP. subst r. destruct ED as [ED | ED]; [cbn in ED; lia | apply ED; cbn [starts]; rewrite ?CO, ?O; auto]. }
      assert (FD : digs 8 ds) by (eapply Forall_impl; [| exact F]; cbn beta; intros x; rewrite isoct_dec; auto).
      pose proof (digs_number 8 ds ltac:(lia) FD DN) as N. pose proof L as L0. apply (zlen_length_le ds 3) in L. change (Z.of_nat 3) with 3 in L.
      pose proof (number_bound_le 8 ds _ 3 ltac:(lia) N L) as V. change (8 ^ 3) with 512 in V.
      rewrite (strtoll_digits 8 ds _ ltac:(cbn; auto) N ltac:(lia)) in E.
      destruct (Z.leb_spec (value 8 0 ds) 255); [| discriminate]. cbn iota in E. injection E as <- <-.
      exists ds. split; [exact EP |]. apply E_octal; auto. split; [auto |]. split; [auto |].
      destruct ED as [ED | ED]; [left; unfold zlen; lia | right]. intros S. apply ED. eapply starts_impl; [| exact S]. intros x. apply octal_iff. }
  destruct (Z.eqb_spec e 120) as [-> |]; [| discriminate].
  unfold parse_hex_escape. cbn [deref obind next tl]. destruct p as [| b p]; [discriminate |]. cbn [deref obind]. intros E.
  destruct (Z.eqb_spec b 123) as [-> | NB].
  - cbn [next tl] in E. destruct (up_to 2 is_hex_number p) as [[ds r] | | |] eqn:U; try discriminate. cbn [obind] in E.
    destruct (up_to_inv _ _ _ _ _ U) as (EP & F & L & NE & ED). destruct (Z.ltb_spec 0 (zlen ds)) as [DN |]; [| discriminate].
    assert (DN' : ds <> []) by (intros ->; change (@zlen Z []) with 0 in DN; lia).
    assert (FD : digs 16 ds) by (eapply Forall_impl; [| exact F]; cbn beta; intros x; rewrite ishex_dec; auto).
    pose proof (digs_number 16 ds ltac:(lia) FD DN') as N. apply (zlen_length_le ds 2) in L. change (Z.of_nat 2) with 2 in L.
    pose proof (number_bound_le 16 ds _ 2 ltac:(lia) N L) as V. change (16 ^ 2) with 256 in V.
    rewrite (strtoll_digits 16 ds _ ltac:(cbn; auto) N ltac:(lia)) in E.
    destruct r as [| c1 r]; [congruence |]. cbn [deref obind next tl] in E.
    destruct (Z.eqb_spec c1 125) as [-> |]; [| discriminate]. cbn [next tl] in E. injection E as <- <-.
    exists (120 :: 123 :: ds ++ [125]). split; [cbn; rewrite <- app_assoc; cbn; congruence |]. apply E_hex_brace; auto.
  - destruct (up_to 2 is_hex_number (b :: p)) as [[ds r] | | |] eqn:U; try discriminate. cbn [obind] in E.
    destruct (up_to_inv _ _ _ _ _ U) as (EP & F & L & NE & ED). destruct (Z.ltb_spec 0 (zlen ds)) as [DN |]; [| discriminate].
    assert (DN' : ds <> []) by (intros ->; change (@zlen Z []) with 0 in DN; lia).
    assert (FD : digs 16 ds) by (eapply Forall_impl; [| exact F]; cbn beta; intros x; rewrite ishex_dec; auto).
    pose proof (digs_number 16 ds ltac:(lia) FD DN') as N. apply (zlen_length_le ds 2) in L. change (Z.of_nat 2) with 2 in L.
    pose proof (number_bound_le 16 ds _ 2 ltac:(lia) N L) as V. change (16 ^ 2) with 256 in V.
    rewrite (strtoll_digits 16 ds _ ltac:(cbn; auto) N ltac:(lia)) in E. injection E as <- <-.
    exists (120 :: ds). split; [cbn; congruence |]. apply E_hex; auto. split; [auto |]. split; [auto |].
    destruct ED as [ED | ED]; [left; unfold zlen; lia | right]. intros S. apply ED. eapply starts_impl; [| exact S]. intros x. apply hexadecimal_iff.
Qed.

(** ** One part of a string literal *)
Lemma wf_char_small bs cp : wf_char bs cp -> 0 <= cp <= 0x10FFFF.
Proof. intros W. apply wf_char_scalar in W. unfold scalar in W. lia. Qed.
Lemma unicode_ok ds cp bs rest : number 16 ds cp -> zlen ds <= 8 -> wf_char bs cp -> parse_unicode_escape (123 :: 85 :: 43 :: (ds ++ [125]) ++ rest) = Ret (bs, rest).
Proof.
  intros N L W. destruct (number_digs 16 ds cp ltac:(lia) N) as [F DN]. pose proof (wf_char_small _ _ W) as SM. unfold parse_unicode_escape.
  rewrite <- app_assoc. cbn [deref obind next tl app]. change (85 =? 85) with true. change (43 =? 43) with true. cbn iota.
  rewrite (while_ok is_hex_number ds (125 :: rest)); [| apply digs_hex; auto | discriminate | cbn; discriminate]. cbn [obind deref].
  change (125 =? 125) with true. cbn iota. destruct (Z.leb_spec 1 (zlen ds)); [| destruct ds; [congruence | rewrite zlen_cons in *; pose proof (zlen_nonneg ds); lia]].
  destruct (Z.leb_spec (zlen ds) 8); [| lia]. rewrite (strtoll_digits 16 ds cp); auto; [| cbn; auto | lia].
  rewrite wrap32_id by (unfold in_i32; lia).
  assert (S : scalar cp) by (eapply wf_char_scalar; eauto). pose proof S as S'. apply is_scalar_spec in S'. rewrite S'. cbn [next tl].
  f_equal. f_equal. eapply wf_char_inj; eauto. apply encode_wf; auto.
Qed.
Lemma unicode_inv p bs rest : parse_unicode_escape (123 :: p) = Ret (bs, rest) ->
  exists ds cp, 123 :: p = (123 :: 85 :: 43 :: ds ++ [125]) ++ rest /\ number 16 ds cp /\ zlen ds <= 8 /\ wf_char bs cp.
Proof.
  unfold parse_unicode_escape. cbn [next tl]. intros E. destruct p as [| c1 p]; [discriminate |]. cbn [deref obind next tl] in E.
  destruct (Z.eqb_spec c1 85) as [-> |]; [| discriminate]. destruct p as [| c2 p]; [discriminate |]. cbn [deref obind next tl] in E.
  destruct (Z.eqb_spec c2 43) as [-> |]; [| discriminate].
  destruct (while_ is_hex_number p) as [[ds r] | | |] eqn:U; try discriminate. cbn [obind] in E. destruct (while_inv _ _ _ _ U) as (-> & F & NE & _).
  destruct r as [| c r]; [congruence |]. cbn [deref obind next tl] in E. destruct (Z.eqb_spec c 125) as [-> |]; [| discriminate].
  destruct (Z.leb_spec 1 (zlen ds)); [| discriminate]. destruct (Z.leb_spec (zlen ds) 8) as [L |]; [| discriminate].
  assert (DN' : ds <> []) by (intros ->; change (@zlen Z []) with 0 in *; lia).
  assert (FD : digs 16 ds) by (eapply Forall_impl; [| exact F]; cbn beta; intros x; rewrite ishex_dec; auto).
  pose proof (digs_number 16 ds ltac:(lia) FD DN') as N. pose proof (number_bound_le 16 ds _ 8 ltac:(lia) N L) as V. change (16 ^ 8) with 4294967296 in V.
  rewrite (strtoll_digits 16 ds _ ltac:(cbn; auto) N ltac:(lia)) in E.
  destruct (is_unicode_scalar_value (wrap32 (value 16 0 ds))) eqn:S; [| discriminate]. apply is_scalar_spec in S.
  assert (WV : wrap32 (value 16 0 ds) = value 16 0 ds).
  { unfold scalar in S. unfold wrap32, wrap in *. pose proof (Z.div_mod (value 16 0 ds + 2147483648) (2 * 2147483648) ltac:(lia)).
    assert ((value 16 0 ds + 2147483648) / (2 * 2147483648) < 2) by (apply Z.div_lt_upper_bound; lia).
    assert (0 <= (value 16 0 ds + 2147483648) / (2 * 2147483648)) by (apply Z.div_pos; lia). lia. }
  rewrite WV in *. injection E as <- <-. exists ds, (value 16 0 ds). split; [cbn; rewrite <- app_assoc; reflexivity |]. split; [auto |]. split; [auto |].
  apply encode_wf; auto.
Qed.

Lemma string_escape_ne c : c <> 36 -> string_escape c = char_escape c.
Proof. intros N. unfold string_escape. destruct (Z.eqb_spec c 36); [lia | reflexivity]. Qed.
Lemma raw_escape_spec c : raw_escape c = true <-> In c raw_letters \/ 49 <= c <= 55.
Proof.
  unfold raw_escape. rewrite existsb_exists. split.
  - intros (x & IX & E). apply Z.eqb_eq in E. subst x. cbn in IX. cbn [raw_letters In bytes].
    repeat match goal with H : _ \/ _ |- _ => destruct H as [<- | H] end; try (right; lia); try (left; cbn; tauto).
  - intros [H | H].
    + exists c. split; [| apply Z.eqb_refl]. cbn in H. cbn. tauto.
    + exists c. split; [| apply Z.eqb_refl]. assert (c = 49 \/ c = 50 \/ c = 51 \/ c = 52 \/ c = 53 \/ c = 54 \/ c = 55) as X by lia.
      destruct X as [-> | [-> | [-> | [-> | [-> | [-> | ->]]]]]]; cbn; tauto.
Qed.
Lemma raw_letters_not c : In c raw_letters -> string_escape c = None /\ is_octal_number c = false /\ c <> 111 /\ c <> 120 /\ c <> 34 /\ c <> 92 /\ c <> 36 /\ c <> 0.
Proof.
  intros H. cbn in H. repeat match goal with H : _ \/ _ |- _ => destruct H as [<- | H] end; repeat split; try reflexivity; lia.
Qed.

Lemma piece_ok t bs rest : piece t bs rest -> rest <> [] -> string_piece (t ++ rest) = Ret (bs, rest).
Proof.
  intros P NE. unfold string_piece. destruct P as [c rest C1 C2 C3 C4 | rest | t v rest BE | rest | ds cp bs rest N L W | c rest IR N78].
  - cbn [app deref obind next tl]. destruct (Z.eqb_spec c 92); [lia | reflexivity].
  - reflexivity.
  - cbn [app deref obind next tl]. change (92 =? 92) with true. cbn iota.
    pose proof (numeric_escape_ok _ _ _ BE NE) as OK. unfold numeric_escape in OK.
    destruct (byte_escape_cons _ _ _ BE) as (e & t' & -> & _). cbn [app deref obind next tl] in *.
    rewrite string_escape_ne by (intros ->; cbn in OK; discriminate).
    destruct (char_escape e) as [w |]; [injection OK as ->; congruence |].
    destruct (is_octal_number e || (e =? 111)); [rewrite OK; reflexivity |]. destruct (e =? 120); [rewrite OK; reflexivity | discriminate].
  - reflexivity.
  - cbn [app deref obind next tl]. apply (unicode_ok ds cp bs rest); auto.
  - cbn [app deref obind next tl]. change (92 =? 92) with true. cbn iota. destruct (raw_letters_not c IR) as (S1 & S2 & S3 & S4 & _).
    rewrite S1, S2. destruct (Z.eqb_spec c 111); [lia |]. destruct (Z.eqb_spec c 120); [lia |]. cbn [orb].
    assert (RE : raw_escape c = true) by (apply raw_escape_spec; auto). rewrite RE.
    destruct (Z.eqb_spec c 78) as [-> | N0]; cbn [obind].
    + destruct rest as [| r rest]; [congruence |]. cbn [deref obind]. destruct (Z.eqb_spec r 123) as [-> |]; [exfalso; apply N78; reflexivity | reflexivity].
    + reflexivity.
Qed.

Lemma piece_inv e p bs rest : string_piece (92 :: e :: p) = Ret (bs, rest) ->
  exists t, e :: p = (e :: t) ++ rest /\ piece (92 :: e :: t) bs rest /\ Forall plain t.
Proof.
  unfold string_piece. cbn [deref obind next tl]. change (92 =? 92) with true. cbn iota. intros E.
  destruct (string_escape e) as [w |] eqn:SE.
  - injection E as <- <-. exists []. split; [reflexivity |]. split; [| auto]. unfold string_escape in SE. destruct (Z.eqb_spec e 36) as [-> |].
    + injection SE as <-. apply P_escaped_dollar.
    + apply (P_byte [e]). constructor. apply char_escape_spec; auto.
  - assert (CE : char_escape e = None) by (unfold string_escape in SE; destruct (e =? 36); [discriminate | auto]).
    assert (NUM : forall v r, numeric_escape (e :: p) = Ret (v, r) -> exists t, e :: p = (e :: t) ++ r /\ piece (92 :: e :: t) [v] r /\ Forall plain t).
    { intros v r NE. destruct (numeric_escape_inv _ _ _ NE) as (t & EP & BE). destruct (byte_escape_cons _ _ _ BE) as (e' & t' & -> & FP & _).
      cbn [app] in EP. injection EP as <- EP. exists t'. split; [cbn; congruence |]. split; [apply (P_byte (e :: t')); auto | auto]. }
    unfold numeric_escape in NUM. cbn [deref obind next tl] in NUM. rewrite CE in NUM.
    destruct (is_octal_number e || (e =? 111)) eqn:O.
    + destruct (parse_octal_escape (e :: p)) as [[v r] | | |]; try discriminate. cbn [obind] in E. injection E as <- <-. auto.
    + destruct (e =? 120) eqn:X.
      * destruct (parse_hex_escape (e :: p)) as [[v r] | | |]; try discriminate. cbn [obind] in E. injection E as <- <-. auto.
      * destruct (Z.eqb_spec e 78) as [-> | N78].
        -- destruct p as [| c p]; [discriminate |]. cbn [deref obind] in E. destruct (Z.eqb_spec c 123) as [-> | N123]; cbn [andb] in E.
           ++ destruct (unicode_inv _ _ _ E) as (ds & cp & EP & N & L & W). exists (123 :: 85 :: 43 :: ds ++ [125]). rewrite EP. split; [reflexivity |].
              split; [apply (P_unicode ds cp); auto |]. destruct (number_digs 16 ds cp ltac:(lia) N) as [F _]. apply digs_plain in F; [| lia].
              repeat (constructor; [unfold plain; lia |]). apply Forall_app. split; auto. constructor; auto. unfold plain; lia.
           ++ change (raw_escape 78) with true in E. cbn iota in E. injection E as <- <-. exists []. split; [reflexivity |]. split; [| auto].
              apply P_raw; [cbn; tauto |]. intros _. cbn [starts]. congruence.
        -- cbn [obind andb] in E. destruct (raw_escape e) eqn:RE; [| discriminate]. injection E as <- <-. exists []. split; [reflexivity |]. split; [| auto].
           apply P_raw; [| intros; lia]. apply raw_escape_spec in RE as [RE | RE]; auto. exfalso. unfold is_octal_number in O. lia.
Qed.

(** ** The first pass *)
Lemma find_end_plain u p fuel : Forall plain u -> find_end (length u + fuel) (u ++ p) = find_end fuel p.
Proof.
  induction 1 as [| c u C F IH]; [reflexivity |]. cbn [length app Nat.add find_end deref obind next tl]. destruct C as (C1 & C2 & C3 & C4).
  destruct (Z.eqb_spec c 34); [lia |]. destruct (Z.eqb_spec c 36); [lia |]. cbn [obind negb]. destruct (Z.eqb_spec c 0); [lia |]. destruct (Z.eqb_spec c 92); [lia |]. exact IH.
Qed.
Lemma piece_text t bs rest : piece t bs rest -> (exists e u, t = 92 :: e :: u /\ Forall plain u) \/ (exists c, t = [c] /\ plain c) \/ (t = [36] /\ starts (eq 34) rest).
Proof.
  intros P. destruct P as [c rest C1 C2 C3 C4 | rest | t v rest BE | rest | ds cp bs rest N L W | c rest IR N78].
  - right. left. exists c. unfold plain. auto.
  - right. right. cbn. auto.
  - left. destruct (byte_escape_cons _ _ _ BE) as (e & t' & -> & F & _). eauto.
  - left. exists 36, []. auto.
  - left. exists 78, (123 :: 85 :: 43 :: ds ++ [125]). split; auto. destruct (number_digs 16 ds cp ltac:(lia) N) as [F _]. apply digs_plain in F; [| lia].
    repeat (constructor; [unfold plain; lia |]). apply Forall_app. split; auto. constructor; auto. unfold plain; lia.
  - left. exists c, []. auto.
Qed.
Lemma find_end_piece t bs rest : piece t bs rest -> exists n, (1 <= n <= length t)%nat /\ forall fuel, find_end (n + fuel) (t ++ rest) = find_end fuel rest.
Proof.
  intros P. destruct (piece_text _ _ _ P) as [(e & u & -> & F) | [(c & -> & C) | (-> & S)]].
  - exists (Datatypes.S (length u)). split; [cbn; lia |]. intros fuel. cbn [app Nat.add find_end deref obind next tl].
    change (92 =? 34) with false. change (92 =? 36) with false. change (92 =? 92) with true. cbn [obind negb]. change (92 =? 0) with false. cbn iota. apply find_end_plain; auto.
  - exists 1%nat. split; [cbn; lia |]. intros fuel. apply (find_end_plain [c]). auto.
  - exists 1%nat. split; [cbn; lia |]. intros fuel. destruct rest as [| r rest]; [destruct S |]. cbn [starts] in S. subst r. reflexivity.
Qed.
Lemma find_end_body t bs rest : body t bs rest -> exists n, (n <= length t)%nat /\ forall fuel, find_end (n + fuel) (t ++ rest) = find_end fuel rest.
Proof.
  induction 1 as [rest | t bs t' bs' rest P B (n & L & IH)].
  - exists 0%nat. split; [cbn; lia | reflexivity].
  - destruct (find_end_piece _ _ _ P) as (m & M & FE). exists (m + n)%nat. split; [rewrite app_length; lia |].
    intros fuel. rewrite <- app_assoc, <- Nat.add_assoc, FE. apply IH.
Qed.

(** ** The second pass *)
Lemma piece_len t bs rest : piece t bs rest -> 1 <= zlen t /\ zlen bs <= 4 * zlen t.
Proof.
  intros P. assert (T : 1 <= zlen t).
  { destruct (piece_text _ _ _ P) as [(e & u & -> & F) | [(c & -> & C) | (-> & S)]]; rewrite ?zlen_cons; try (pose proof (zlen_nonneg u)); change (@zlen Z []) with 0; lia. }
  split; auto. assert (zlen bs <= 4); [| lia]. destruct P as [c rest C1 C2 C3 C4 | rest | t v rest BE | rest | ds cp bs rest N L W | c rest IR N78]; try (vm_compute; discriminate).
  apply wf_char_len in W. lia.
Qed.
Lemma body_len t bs rest : body t bs rest -> zlen bs <= 4 * zlen t.
Proof. induction 1; [vm_compute; discriminate |]. rewrite !zlen_app. pose proof (piece_len _ _ _ H). lia. Qed.
Lemma string_loop_body t bs rest : body t bs rest -> rest <> [] -> forall size buf fuel, zlen buf + zlen bs <= size -> (length t < fuel)%nat ->
  string_loop fuel size (t ++ rest) rest buf = Ret (buf ++ bs).
Proof.
  induction 1 as [rest | t bs t' bs' rest P B IH]; intros NE size buf fuel SZ FU.
  - destruct fuel; [lia |]. cbn [string_loop app]. rewrite Nat.eqb_refl, app_nil_r. reflexivity.
  - destruct (piece_len _ _ _ P) as [T _]. destruct fuel; [lia |]. cbn [string_loop].
    rewrite !app_length in *. unfold zlen in T. destruct (Nat.eqb_spec (length t + length t' + length rest) (length rest)); [lia |].
    rewrite <- app_assoc. rewrite (piece_ok t bs (t' ++ rest) P) by (destruct t'; [exact NE | discriminate]). cbn [obind].
    unfold store. rewrite zlen_app in SZ. pose proof (zlen_nonneg bs'). destruct (Z.leb_spec (zlen buf + zlen bs) size); [| lia]. cbn [obind].
    rewrite IH; [rewrite <- app_assoc; reflexivity | auto | rewrite zlen_app; lia | lia].
Qed.

Lemma body_first t bs rest : body t bs rest -> ~ starts (eq 34) t.
Proof.
  destruct 1 as [| t bs t' bs' rest P B]; [intros [] |]. destruct (piece_text _ _ _ P) as [(e & u & -> & F) | [(c & -> & C) | (-> & S)]]; cbn; unfold plain in *; lia.
Qed.

Lemma c_mul_ok a b : INT32_MIN <= a * b <= INT32_MAX -> c_mul a b = Ret (a * b).
Proof. intros H. unfold c_mul. destruct (Z.leb_spec INT32_MIN (a * b)); [| lia]. destruct (Z.leb_spec (a * b) INT32_MAX); [reflexivity | lia]. Qed.

Lemma string_literal_ok t bs rest fuel : body t bs (34 :: rest) -> 4 * zlen t <= INT32_MAX -> (length t < fuel)%nat ->
  string_literal fuel (t ++ 34 :: rest) = Ret (bs, rest, None).
Proof.
  intros B SZ FU. unfold string_literal. destruct (find_end_body _ _ _ B) as (n & L & FE). pose proof (body_first _ _ _ B) as BF. pose proof (body_len _ _ _ B) as BL.
  destruct t as [| c t].
  - inversion B as [| t1 b1 t2 b2 r1 P1 B1 E1]; subst; [reflexivity |]. destruct (piece_len _ _ _ P1) as [H _]. destruct t1; [change (@zlen Z []) with 0 in H; lia | discriminate].
  - assert (NC : (c =? 34) = false) by (cbn [starts] in BF; lia).
    replace (let! c0 := deref ((c :: t) ++ 34 :: rest) in if c0 =? 34 then Ret ([], next ((c :: t) ++ 34 :: rest), None) else _) with
      (let! (stop, expansion) := find_end fuel ((c :: t) ++ 34 :: rest) in
       let! size := c_mul (zlen ((c :: t) ++ 34 :: rest) - zlen stop) 4 in
       let! bs := string_loop fuel size ((c :: t) ++ 34 :: rest) stop [] in
       Ret (bs, match expansion with Some _ => stop | None => next stop end, expansion)) by (cbn [app deref obind]; rewrite NC; reflexivity).
    replace fuel with (n + Datatypes.S (fuel - n - 1))%nat at 1 by (cbn [length] in *; lia). rewrite FE. cbn [find_end deref obind]. change (34 =? 34) with true. cbn iota. cbn [obind].
    rewrite zlen_app. replace (zlen (c :: t) + zlen (34 :: rest) - zlen (34 :: rest)) with (zlen (c :: t)) by lia.
    pose proof (zlen_nonneg (c :: t)). rewrite c_mul_ok by lia. cbn [obind].
    rewrite (string_loop_body _ _ _ B); [reflexivity | discriminate | change (@zlen Z []) with 0; lia | auto].
Qed.

Lemma find_end_suffix fuel p stop x : find_end fuel p = Ret (stop, x) -> exists u, p = u ++ stop.
Proof.
  revert p. induction fuel as [| fuel IH]; intros p E; [discriminate |]. cbn [find_end] in E. destruct p as [| c p]; [discriminate |]. cbn [deref obind next tl] in E.
  destruct (c =? 34); [injection E as <- _; exists []; reflexivity |].
  assert (GO : (if c =? 0 then Die "The string literal must be end with a double quote."
        else if c =? 92 then find_end fuel (tl p) else find_end fuel p) = Ret (stop, x) -> exists u, c :: p = u ++ stop).
  { clear E. intros E. destruct (c =? 0); [discriminate |]. destruct (c =? 92).
    - destruct (IH _ E) as [u EU]. destruct p as [| e p]; [exists (c :: u); cbn in *; rewrite EU; auto |]. exists (c :: e :: u). cbn in *. congruence.
    - destruct (IH _ E) as [u EU]. exists (c :: u). cbn. congruence. }
  destruct (c =? 36); cbn [obind] in E; [| auto].
  destruct p as [| c1 p]; [discriminate |]. cbn [deref obind] in E. destruct (c1 =? 34); cbn [obind negb] in E; [auto |].
  destruct (skip_expansion fuel (c1 :: p)) as [n0 | | |]; try discriminate. cbn [obind] in E. injection E as <- _. exists []. reflexivity.
Qed.

Lemma find_end_plain_inv u p fuel r : Forall plain u -> find_end fuel (u ++ p) = Ret r -> exists fuel', find_end fuel' p = Ret r.
Proof.
  intros F. revert fuel. induction F as [| c u C F IH]; intros fuel E; [eauto |]. destruct fuel; [discriminate |].
  cbn [app find_end deref obind next tl] in E. destruct C as (C1 & C2 & C3 & C4).
  destruct (Z.eqb_spec c 34); [lia |]. destruct (Z.eqb_spec c 36); [lia |]. cbn [obind negb] in E. destruct (Z.eqb_spec c 0); [lia |]. destruct (Z.eqb_spec c 92); [lia |]. eauto.
Qed.

Lemma string_loop_inv g : forall f size p stop x buf b, find_end f p = Ret (stop, x) -> string_loop g size p stop buf = Ret b ->
  exists t bs, p = t ++ stop /\ body t bs stop /\ b = buf ++ bs.
Proof.
  induction g as [| g IH]; intros f size p stop x buf b FE SL; [discriminate |]. cbn [string_loop] in SL.
  destruct (Nat.eqb_spec (length p) (length stop)) as [EL | NL].
  - injection SL as <-. destruct (find_end_suffix _ _ _ _ FE) as [u ->]. rewrite app_length in EL. destruct u; [| cbn in EL; lia].
    exists [], []. repeat split; [constructor | rewrite app_nil_r; auto].
  - destruct f; [discriminate |]. cbn [find_end] in FE. destruct p as [| c p]; [discriminate |]. cbn [deref obind next tl] in FE.
    destruct (string_piece (c :: p)) as [[bs p'] | | |] eqn:SP; try discriminate. cbn [obind] in SL.
    destruct (store size buf bs) as [buf' | | |] eqn:ST; try discriminate. cbn [obind] in SL.
    assert (BE : buf' = buf ++ bs) by (unfold store in ST; destruct (_ <=? _); [injection ST; auto | discriminate]). subst buf'.
    destruct (Z.eqb_spec c 34) as [-> | N34]; [injection FE as <- _; congruence |].
    destruct (Z.eqb_spec c 92) as [-> | N92].
    + change (92 =? 36) with false in FE. cbn [obind negb] in FE. change (92 =? 0) with false in FE. cbn iota in FE.
      destruct p as [| e p]; [discriminate |]. destruct (piece_inv _ _ _ _ SP) as (t & EP & PC & FP). cbn [tl] in FE.
      cbn [app] in EP. injection EP as ->. destruct (find_end_plain_inv _ _ _ _ FP FE) as [f' FE'].
      destruct (IH _ _ _ _ _ _ _ FE' SL) as (t2 & bs2 & -> & B & ->). exists ((92 :: e :: t) ++ t2), (bs ++ bs2).
      split; [cbn; rewrite <- app_assoc; reflexivity |]. split; [constructor; auto | rewrite app_assoc; reflexivity].
    + unfold string_piece in SP. cbn [deref obind next tl] in SP. destruct (Z.eqb_spec c 92); [lia |]. injection SP as <- <-.
      assert (GO : piece [c] [c] p -> find_end f p = Ret (stop, x) -> exists t bs, c :: p = t ++ stop /\ body t bs stop /\ b = buf ++ bs).
      { intros PC FE'. destruct (IH _ _ _ _ _ _ _ FE' SL) as (t2 & bs2 & -> & B & ->). exists ([c] ++ t2), ([c] ++ bs2).
        split; [reflexivity |]. split; [constructor; auto | rewrite app_assoc; reflexivity]. }
      destruct (Z.eqb_spec c 36) as [-> | N36].
      * destruct p as [| c1 p]; [discriminate |]. cbn [deref obind] in FE. destruct (Z.eqb_spec c1 34) as [-> | N1]; cbn [negb] in FE.
        -- apply GO; [apply P_dollar | exact FE].
        -- destruct (skip_expansion f (c1 :: p)); try discriminate. cbn [obind] in FE. injection FE as <- _. congruence.
      * cbn [obind negb] in FE. destruct (Z.eqb_spec c 0); [discriminate |]. apply GO; auto. apply P_plain; auto.
Qed.

Lemma find_end_stop fuel p stop x : find_end fuel p = Ret (stop, x) -> starts (eq (match x with None => 34 | Some _ => 36 end)) stop.
Proof.
  revert p. induction fuel as [| fuel IH]; intros p E; [discriminate |]. cbn [find_end] in E. destruct p as [| c p]; [discriminate |]. cbn [deref obind next tl] in E.
  destruct (Z.eqb_spec c 34) as [-> |]; [injection E as <- <-; reflexivity |].
  destruct (Z.eqb_spec c 36) as [-> |]; cbn [obind] in E.
  - destruct p as [| c1 p]; [discriminate |]. cbn [deref obind] in E. destruct (c1 =? 34); cbn [negb] in E; [change (36 =? 0) with false in E; change (36 =? 92) with false in E; cbn iota in E; eauto |].
    destruct (skip_expansion fuel (c1 :: p)); try discriminate. cbn [obind] in E. injection E as <- <-. reflexivity.
  - cbn [negb] in E. destruct (c =? 0); [discriminate |]. destruct (c =? 92); eauto.
Qed.
Lemma string_literal_inv fuel p bs q x : string_literal fuel p = Ret (bs, q, x) ->
  match x with
  | None => exists t, p = t ++ 34 :: q /\ body t bs (34 :: q)
  | Some _ => exists t, p = t ++ q /\ body t bs q /\ starts (eq 36) q
  end.
Proof.
  unfold string_literal. destruct p as [| c p]; [discriminate |]. cbn [deref obind next tl]. destruct (Z.eqb_spec c 34) as [-> | NC]; intros E.
  - injection E as <- <- <-. exists []. split; [reflexivity | constructor].
  - destruct (find_end fuel (c :: p)) as [[stop e] | | |] eqn:FE; try discriminate. cbn [obind] in E.
    destruct (c_mul _ 4) as [size | | |]; try discriminate. cbn [obind] in E.
    destruct (string_loop fuel size (c :: p) stop []) as [b | | |] eqn:SL; try discriminate. cbn [obind] in E. injection E as <- <- <-.
    destruct (string_loop_inv _ _ _ _ _ _ _ _ FE SL) as (t & b' & EP & B & ->). pose proof (find_end_stop _ _ _ _ FE) as ST. cbn [app].
    destruct e as [n |]; [exists t; auto |]. destruct stop as [| s stop]; [destruct ST |]. cbn [starts] in ST. subst s. exists t. auto.
Qed.
