(** * C50: to_double and to_float *)
From Coq Require Import Lia.
From Verif Require Import Base CLib FnNum_proofs FnFloat_model FnFloat_spec.
Local Open Scope Z_scope.

(** The first character is not in [p]. *)
Definition not_at (p : Z -> bool) (r : list Z) : Prop := r = [] \/ exists c r', r = c :: r' /\ p c = false.
Lemma span_split p s : exists a r, span p s = (a, r) /\ s = a ++ r /\ Forall (fun c => p c = true) a /\ not_at p r.
Proof.
  induction s as [| c s (a & r & E & D & F & N)]; [exists [], []; repeat split; auto; left; reflexivity |]. cbn [span].
  destruct (p c) eqn:P.
  - rewrite E. exists (c :: a), r. subst s. repeat split; auto.
  - exists [], (c :: s). repeat split; auto. right. eauto.
Qed.
Lemma span_app p a r : Forall (fun c => p c = true) a -> not_at p r -> span p (a ++ r) = (a, r).
Proof.
  intros F N. induction F as [| c a H F IH]; cbn [app span].
  - destruct N as [-> | (c & r' & -> & H)]; cbn; [reflexivity | now rewrite H].
  - rewrite H, IH. reflexivity.
Qed.
Lemma sign_split s neg r : sign s = (neg, r) -> exists sg, signed neg sg /\ s = sg ++ r.
Proof.
  destruct s as [| c s]; cbn [sign]; [intros [= <- <-]; exists []; split; [constructor | reflexivity] |].
  destruct (Z.eqb_spec c 43) as [-> |]; [intros [= <- <-]; exists [43]; split; [constructor | reflexivity] |].
  destruct (Z.eqb_spec c 45) as [-> |]; intros [= <- <-]; [exists [45]; split; [constructor | reflexivity] | exists []; split; [constructor | reflexivity]].
Qed.
Definition is_sign (c : Z) : bool := (c =? 43) || (c =? 45).
Lemma sign_app neg sg r : signed neg sg -> not_at is_sign r -> sign (sg ++ r) = (neg, r).
Proof.
  intros H N. destruct H; cbn [app sign]; try reflexivity.
  destruct N as [-> | (c & r' & -> & H)]; [reflexivity |]. unfold is_sign in H. apply Bool.orb_false_iff in H as (H1 & H2). cbn. now rewrite H1, H2.
Qed.

Lemma lower_is c k : 97 <= k <= 122 -> lower c = k <-> c = k \/ c = k - 32.
Proof. intros K. unfold lower. destruct (Z.leb_spec 65 c), (Z.leb_spec c 90); cbn [andb]; lia. Qed.
Lemma is_digit_spec c : is_digit c = true <-> decimal c.
Proof. unfold is_digit, decimal. rewrite Bool.andb_true_iff, !Z.leb_le. lia. Qed.
Lemma is_xdigit_spec c : is_xdigit c = true <-> hexadecimal c.
Proof.
  unfold is_xdigit, is_digit, hexadecimal, lower. rewrite Bool.orb_true_iff, !Bool.andb_true_iff, !Z.leb_le.
  destruct (Z.leb_spec 65 c), (Z.leb_spec c 90); cbn [andb]; lia.
Qed.
Lemma is_nchar_spec c : is_nchar c = true <-> name_char c.
Proof.
  unfold is_nchar, is_digit, name_char, lower. rewrite !Bool.orb_true_iff, !Bool.andb_true_iff, !Z.leb_le, Z.eqb_eq.
  destruct (Z.leb_spec 65 c), (Z.leb_spec c 90); cbn [andb]; lia.
Qed.
Lemma is_space_spec c : is_space c = true <-> blank c.
Proof. unfold is_space, blank. rewrite Bool.orb_true_iff, Bool.andb_true_iff, !Z.leb_le, Z.eqb_eq. lia. Qed.
Lemma is_e_spec c : is_e c = true <-> c = 101 \/ c = 69.
Proof. unfold is_e. rewrite Z.eqb_eq, lower_is by lia. lia. Qed.
Lemma is_p_spec c : is_p c = true <-> c = 112 \/ c = 80.
Proof. unfold is_p. rewrite Z.eqb_eq, lower_is by lia. lia. Qed.
Lemma forall_iff (p : Z -> bool) (q : Z -> Prop) l : (forall c, p c = true <-> q c) -> Forall (fun c => p c = true) l <-> Forall q l.
Proof. intros H. split; apply Forall_impl; intros; now apply H. Qed.

Lemma digit_value_spec c v : digit_of c v -> digit_value c = v.
Proof.
  unfold digit_of, digit_value, is_digit, lower.
  destruct (Z.leb_spec 48 c), (Z.leb_spec c 57), (Z.leb_spec 65 c), (Z.leb_spec c 90); cbn [andb]; lia.
Qed.
Lemma digit_value_ok c : hexadecimal c -> digit_of c (digit_value c).
Proof.
  unfold hexadecimal, digit_of, digit_value, is_digit, lower.
  destruct (Z.leb_spec 48 c), (Z.leb_spec c 57), (Z.leb_spec 65 c), (Z.leb_spec c 90); cbn [andb]; lia.
Qed.
Lemma value_number b l n : value_of b l n -> n = number b l.
Proof.
  induction 1 as [| l n c v H IH D]; [reflexivity |]. unfold number in *. rewrite fold_left_app. cbn. rewrite <- IH.
  apply digit_value_spec in D. now rewrite D.
Qed.
Lemma number_value b l : Forall hexadecimal l -> value_of b l (number b l).
Proof.
  induction l as [| c l IH] using rev_ind; intros F; [constructor |]. apply Forall_app in F as (F1 & F2).
  unfold number. rewrite fold_left_app. cbn. constructor; [now apply IH |]. apply digit_value_ok. exact (Forall_inv F2).
Qed.
Lemma decimal_hexadecimal l : Forall decimal l -> Forall hexadecimal l.
Proof. apply Forall_impl. unfold decimal, hexadecimal. lia. Qed.

Section Scan.
  Variables (is_dig is_exp : Z -> bool) (dig letter : Z -> Prop) (b : Z).
  Hypothesis D : forall c, is_dig c = true <-> dig c.
  Hypothesis E : forall c, is_exp c = true <-> letter c.
  Hypothesis DH : forall c, dig c -> hexadecimal c.
  Hypothesis EN : forall c, letter c -> ~ dig c /\ c <> 46.

  Lemma exponent_sound s x : scan_exponent is_exp s = (x, []) -> exponent letter s x.
  Proof.
    destruct s as [| c s]; cbn [scan_exponent]; [intros [= <-]; constructor |].
    destruct (is_exp c) eqn:Ec; [| discriminate]. destruct (sign s) as [neg r] eqn:Es. apply sign_split in Es as (sg & Hs & ->).
    destruct (span_split is_digit r) as (ds & r' & Ed & -> & F & _). rewrite Ed. destruct ds as [| d ds]; [discriminate |].
    intros [= <- ->]. rewrite app_nil_r. apply (forall_iff _ decimal) in F; [| exact is_digit_spec].
    apply E_some; auto; [now apply E | discriminate |]. apply number_value. now apply decimal_hexadecimal.
  Qed.
  Lemma exponent_complete s x : exponent letter s x -> scan_exponent is_exp s = (x, []).
  Proof.
    intros [| c neg sg ds n L S' N F V]; [reflexivity |]. cbn [scan_exponent]. apply E in L. rewrite L.
    rewrite (sign_app neg); [| exact S' |].
    - assert (P : span is_digit ds = (ds, [])). { rewrite <- (app_nil_r ds) at 1. apply span_app; [| left; reflexivity]. apply (forall_iff _ decimal); [exact is_digit_spec | exact F]. }
      rewrite P. destruct ds; [congruence |]. apply value_number in V. now subst n.
    - destruct ds as [| d ds]; [congruence |]. right. exists d, ds. split; [reflexivity |]. pose proof (Forall_inv F) as Hd. unfold decimal in Hd. unfold is_sign. lia.
  Qed.
  Lemma exponent_not_at s x : exponent letter s x -> not_at is_dig s /\ (s = [] \/ exists c r, s = c :: r /\ c <> 46).
  Proof.
    intros [| c neg sg ds n L _ _ _ _]; [split; left; reflexivity |]. destruct (EN c L) as (N1 & N2). split; right.
    - exists c, (sg ++ ds). split; [reflexivity |]. destruct (is_dig c) eqn:K; [| reflexivity]. apply D in K. tauto.
    - eauto.
  Qed.
  Lemma number_sound s m f x : scan_number is_dig is_exp b s = Some (m, f, x, []) -> fraction dig letter b s m f x.
  Proof.
    unfold scan_number. destruct (span_split is_dig s) as (ip & r & Ei & -> & Fi & Ni). rewrite Ei.
    apply (forall_iff _ dig) in Fi; [| exact D].
    assert (HH : forall l, Forall dig l -> Forall hexadecimal l) by (intros l; apply Forall_impl; exact DH).
    assert (I : forall r', match ip ++ [] with [] => None | _ :: _ => let (x0, r0) := scan_exponent is_exp r' in Some (number b (ip ++ []), zlen (@nil Z), x0, r0) end
       = Some (m, f, x, []) -> fraction dig letter b (ip ++ r') m f x).
    { intros r' H. rewrite app_nil_r in H. destruct ip as [| i ip]; [discriminate |]. destruct (scan_exponent is_exp r') as [x0 r0] eqn:Ex. injection H as <- <- -> ->.
      apply exponent_sound in Ex. apply F_int; auto; [discriminate |]. apply number_value. auto. }
    destruct r as [| c r]; [intros H; apply I; destruct (ip ++ []); exact H |].
    destruct (Z.eqb_spec c 46) as [-> |].
    - destruct (span_split is_dig r) as (fp & r2 & Ef & -> & Ff & Nf). rewrite Ef. apply (forall_iff _ dig) in Ff; [| exact D].
      assert (Fa : Forall dig (ip ++ fp)) by (apply Forall_app; auto).
      destruct (ip ++ fp) as [| d ds] eqn:Ea; [discriminate |]. destruct (scan_exponent is_exp r2) as [x0 r0] eqn:Ex. intros [= <- <- -> ->].
      apply exponent_sound in Ex. apply F_dot; auto; rewrite Ea; [discriminate |]. apply number_value. auto.
    - intros H. apply I. destruct (ip ++ []); exact H.
  Qed.
  Lemma number_complete s m f x : fraction dig letter b s m f x -> ~ dig 46 -> scan_number is_dig is_exp b s = Some (m, f, x, []).
  Proof.
    intros H N46. unfold scan_number. destruct H as [ip ep m x Ni Fi V X | ip fp ep m x Na Fi Ff V X].
    - destruct (exponent_not_at _ _ X) as (N1 & N2). apply (forall_iff is_dig dig) in Fi; [| exact D]. rewrite span_app by assumption.
      apply exponent_complete in X. apply value_number in V. destruct N2 as [-> | (c & r & -> & Nc)].
      + rewrite app_nil_r. destruct ip; [congruence |]. cbn in X. injection X as <-. cbn. subst m. reflexivity.
      + destruct (Z.eqb_spec c 46); [congruence |]. rewrite app_nil_r. rewrite X. destruct ip; [congruence |]. subst m. reflexivity.
    - destruct (exponent_not_at _ _ X) as (N1 & N2). apply (forall_iff is_dig dig) in Fi; [| exact D]. apply (forall_iff is_dig dig) in Ff; [| exact D].
      rewrite span_app; [| exact Fi | right; exists 46, (fp ++ ep); split; [reflexivity |]; destruct (is_dig 46) eqn:K; [apply D in K; tauto | reflexivity]].
      cbn [Z.eqb Pos.eqb]. rewrite span_app by assumption. apply exponent_complete in X. rewrite X. apply value_number in V.
      destruct (ip ++ fp); [congruence |]. subst m. reflexivity.
  Qed.
End Scan.

(** Words. *)
Definition letters (w : list Z) : Prop := Forall (fun c => 97 <= c <= 122) w.
Lemma word_sound w : forall s r, letters w -> word w s = Some r -> exists p, s = p ++ r /\ same_word w p.
Proof.
  induction w as [| c w IH]; intros s r L H; cbn [word] in H.
  - injection H as <-. exists []. split; [reflexivity | constructor].
  - destruct s as [| d s]; [discriminate |]. destruct (Z.eqb_spec (lower d) c) as [Q |]; [| discriminate].
    destruct (IH s r (Forall_inv_tail L) H) as (p & -> & P). exists (d :: p). split; [reflexivity |]. constructor; [| exact P].
    apply lower_is; [exact (Forall_inv L) | exact Q].
Qed.
Lemma word_complete w : forall p r, letters w -> same_word w p -> word w (p ++ r) = Some r.
Proof.
  induction w as [| c w IH]; intros p r L H; inversion H as [| ? d ? p' Hd H']; subst; [reflexivity |]. cbn [app word].
  apply lower_is in Hd; [| exact (Forall_inv L)]. rewrite (proj2 (Z.eqb_eq _ _) Hd). apply IH; [exact (Forall_inv_tail L) | exact H'].
Qed.
(** A word with a letter that the text has not. *)
Lemma word_absent w s k : In k w -> Forall (fun c => lower c <> k) s -> word w s = None.
Proof.
  revert s. induction w as [| c w IH]; intros s I F; [destruct I |]. destruct s as [| d s]; [reflexivity |]. cbn [word].
  destruct (Z.eqb_spec (lower d) c) as [Q |]; [| reflexivity]. destruct I as [<- | I]; [exfalso; exact (Forall_inv F Q) |]. apply IH; [exact I | exact (Forall_inv_tail F)].
Qed.
Lemma letters_inf : letters (bytes "infinity") /\ letters (bytes "inf") /\ letters (bytes "nan").
Proof. unfold letters. cbn. repeat apply conj; repeat (apply Forall_cons; [lia |]); apply Forall_nil. Qed.

(** The characters of decimal numbers. *)
Definition plain (c : Z) : Prop := 48 <= c <= 57 \/ c = 46 \/ c = 101 \/ c = 69 \/ c = 43 \/ c = 45.
Lemma signed_plain neg sg : signed neg sg -> Forall plain sg.
Proof. destruct 1; repeat constructor; unfold plain; lia. Qed.
Lemma decimal_plain l : Forall decimal l -> Forall plain l.
Proof. apply Forall_impl. unfold decimal, plain. lia. Qed.
Lemma exponent_plain s x : exponent (fun c => c = 101 \/ c = 69) s x -> Forall plain s.
Proof.
  intros [| c neg sg ds n L S' _ F _]; [constructor |]. constructor; [unfold plain; lia |]. apply Forall_app. split; [eapply signed_plain; eauto | now apply decimal_plain].
Qed.
Lemma fraction_plain s m f x : fraction decimal (fun c => c = 101 \/ c = 69) 10 s m f x -> Forall plain s.
Proof.
  intros [ip ep m' x' _ Fi _ X | ip fp ep m' x' _ Fi Ff _ X]; apply exponent_plain in X; apply Forall_app; split; [now apply decimal_plain | exact X | now apply decimal_plain |].
  constructor; [unfold plain; lia |]. apply Forall_app. split; [now apply decimal_plain | exact X].
Qed.
Lemma plain_lower s k : 102 <= k <= 122 -> Forall plain s -> Forall (fun c => lower c <> k) s.
Proof. intros K. apply Forall_impl. intros c H Q. apply lower_is in Q; [| lia]. unfold plain in H. lia. Qed.

Lemma dec_exp c : c = 101 \/ c = 69 -> ~ decimal c /\ c <> 46.
Proof. unfold decimal. lia. Qed.
Lemma hex_exp c : c = 112 \/ c = 80 -> ~ hexadecimal c /\ c <> 46.
Proof. unfold hexadecimal. lia. Qed.
Lemma decimal_hex c : decimal c -> hexadecimal c.
Proof. unfold decimal, hexadecimal. lia. Qed.

Lemma word_0x s r : word (bytes "0x") s = Some r -> exists c, s = 48 :: c :: r /\ (c = 120 \/ c = 88).
Proof.
  change (bytes "0x") with [48; 120]. destruct s as [| a [| c s]]; cbn [word]; [discriminate | destruct (lower a =? 48); discriminate |].
  destruct (Z.eqb_spec (lower a) 48) as [Q |]; [| discriminate]. destruct (Z.eqb_spec (lower c) 120) as [Q2 |]; [| discriminate]. intros [= <-].
  exists c. apply lower_is in Q2; [| lia]. split; [| lia]. f_equal. unfold lower in Q. destruct (Z.leb_spec 65 a), (Z.leb_spec a 90); cbn in Q; lia.
Qed.

Lemma body_sound neg s x : scan_body neg s = Some (x, []) -> body neg s x.
Proof.
  destruct letters_inf as (L1 & L2 & L3). unfold scan_body.
  destruct (word (bytes "infinity") s) as [r |] eqn:W1.
  { intros [= <- ->]. apply word_sound in W1 as (p & -> & P); [| exact L1]. rewrite app_nil_r. apply B_infinity. auto. }
  destruct (word (bytes "inf") s) as [r |] eqn:W2.
  { intros [= <- ->]. apply word_sound in W2 as (p & -> & P); [| exact L2]. rewrite app_nil_r. apply B_infinity. auto. }
  destruct (word (bytes "nan") s) as [r |] eqn:W3.
  { apply word_sound in W3 as (p & -> & P); [| exact L3]. destruct r as [| c r]; [intros [= <-]; rewrite app_nil_r; now apply B_nan |].
    destruct (Z.eqb_spec c 40) as [-> |]; [| discriminate]. destruct (span_split is_nchar r) as (n & r2 & En & -> & Fn & _). rewrite En.
    destruct r2 as [| d r3]; [discriminate |]. destruct (Z.eqb_spec d 41) as [-> |]; [| discriminate]. intros [= <- ->]. apply B_nan_name; [exact P |].
    apply (forall_iff _ name_char) in Fn; [exact Fn | exact is_nchar_spec]. }
  destruct (word (bytes "0x") s) as [r |] eqn:W4.
  { apply word_0x in W4 as (c & -> & C). destruct (scan_number is_xdigit is_p 16 r) as [[[[m f] e] r'] |] eqn:N; [| discriminate]. intros [= <- ->].
    apply B_hexadecimal; [exact C |]. eapply number_sound in N; [exact N | exact is_xdigit_spec | exact is_p_spec | auto]. }
  destruct (scan_number is_digit is_e 10 s) as [[[[m f] e] r'] |] eqn:N; [| discriminate]. intros [= <- ->].
  apply B_decimal. eapply number_sound in N; [exact N | exact is_digit_spec | exact is_e_spec | exact decimal_hex].
Qed.
Lemma body_complete neg s x : body neg s x -> scan_body neg s = Some (x, []).
Proof.
  destruct letters_inf as (L1 & L2 & L3). unfold scan_body. intros [n t m f e F | n c t m f e C F | n t W | n t W | n t k W Fk].
  - pose proof (fraction_plain _ _ _ _ F) as P.
    rewrite (word_absent _ _ 105), (word_absent (bytes "inf") _ 105), (word_absent (bytes "nan") _ 110), (word_absent (bytes "0x") _ 120)
      by (cbn; auto 10; apply plain_lower; auto; lia).
    erewrite number_complete; [reflexivity | exact is_digit_spec | exact is_e_spec | exact dec_exp | exact F | unfold decimal; lia].
  - assert (W1 : word (bytes "infinity") (48 :: c :: t) = None) by reflexivity. assert (W2 : word (bytes "inf") (48 :: c :: t) = None) by reflexivity.
    assert (W3 : word (bytes "nan") (48 :: c :: t) = None) by reflexivity. assert (W4 : word (bytes "0x") (48 :: c :: t) = Some t).
    { change (bytes "0x") with [48; 120]. cbn [word]. rewrite (proj2 (Z.eqb_eq _ _) (proj2 (lower_is c 120 ltac:(lia)) ltac:(lia))). reflexivity. }
    rewrite W1, W2, W3, W4.
    erewrite number_complete; [reflexivity | exact is_xdigit_spec | exact is_p_spec | exact hex_exp | exact F | unfold hexadecimal; lia].
  - destruct W as [W | W].
    + assert (W1 : word (bytes "infinity") t = None).
      { unfold same_word in W. inversion W as [| ? d1 ? t1 H1 W1]; subst. inversion W1 as [| ? d2 ? t2 H2 W2]; subst. inversion W2 as [| ? d3 ? t3 H3 W3]; subst. inversion W3; subst.
        destruct H1 as [-> | ->], H2 as [-> | ->], H3 as [-> | ->]; reflexivity. }
      rewrite W1. rewrite <- (app_nil_r t). rewrite word_complete by assumption. reflexivity.
    + rewrite <- (app_nil_r t). rewrite word_complete by assumption. reflexivity.
  - assert (W0 : exists d t', t = d :: t' /\ (d = 110 \/ d = 110 - 32)).
    { inversion W as [| ? d ? t' H W']; subst. exists d, t'. split; [reflexivity |]. exact H. }
    destruct W0 as (d & t' & Et & Hd).
    assert (W1 : word (bytes "infinity") t = None) by (subst t; destruct Hd as [-> | ->]; reflexivity).
    assert (W2 : word (bytes "inf") t = None) by (subst t; destruct Hd as [-> | ->]; reflexivity).
    rewrite W1, W2. rewrite <- (app_nil_r t). rewrite word_complete by assumption. reflexivity.
  - assert (W0 : exists d t', t = d :: t' /\ (d = 110 \/ d = 110 - 32)).
    { inversion W as [| ? d ? t' H W']; subst. exists d, t'. split; [reflexivity |]. exact H. }
    destruct W0 as (d & t' & Et & Hd).
    assert (W1 : word (bytes "infinity") (t ++ 40 :: k ++ [41]) = None) by (subst t; destruct Hd as [-> | ->]; reflexivity).
    assert (W2 : word (bytes "inf") (t ++ 40 :: k ++ [41]) = None) by (subst t; destruct Hd as [-> | ->]; reflexivity).
    rewrite W1, W2. rewrite word_complete by assumption. cbn [Z.eqb Pos.eqb].
    rewrite span_app; [reflexivity | apply (forall_iff _ name_char); [exact is_nchar_spec | exact Fk] | right; exists 41, []; split; reflexivity].
Qed.
Lemma body_start neg t x : body neg t x -> exists c r, t = c :: r /\ is_space c = false /\ is_sign c = false.
Proof.
  assert (W : forall w s, letters w -> w <> [] -> same_word w s -> exists c r, s = c :: r /\ is_space c = false /\ is_sign c = false).
  { intros w s L N H. destruct H as [| a d w s H _]; [congruence |]. exists d, s. split; [reflexivity |]. pose proof (Forall_inv L) as La. cbn beta in La. unfold is_space, is_sign. lia. }
  destruct letters_inf as (L1 & L2 & L3).
  intros [n s m f e F | n c s m f e C F | n s H | n s H | n s k H Fk].
  - assert (G : forall c, decimal c \/ c = 46 -> is_space c = false /\ is_sign c = false) by (unfold decimal, is_space, is_sign; intros; lia).
    destruct F as [ip ep m' x' N Fi _ _ | ip fp ep m' x' N Fi Ff _ _].
    + destruct ip as [| c ip]; [congruence |]. exists c, (ip ++ ep). split; [reflexivity |]. apply G. left. exact (Forall_inv Fi).
    + destruct ip as [| c ip]; [exists 46, (fp ++ ep); split; [reflexivity | apply G; auto] |]. exists c, (ip ++ 46 :: fp ++ ep). split; [reflexivity |]. apply G. left. exact (Forall_inv Fi).
  - exists 48, (c :: s). repeat split; reflexivity.
  - destruct H as [H | H]; [apply (W _ _ L2) in H | apply (W _ _ L1) in H]; auto; discriminate.
  - apply (W _ _ L3) in H; auto. discriminate.
  - apply (W _ _ L3) in H; [| discriminate]. destruct H as (c & r & -> & H). exists c, (r ++ 40 :: k ++ [41]). auto.
Qed.

Lemma strtod_spec s x : s <> [] -> strtod s = (x, []) <-> float_text s x.
Proof.
  intros N. unfold strtod. split.
  - destruct (span_split is_space s) as (w & r & Ew & E & Fw & _). rewrite Ew. destruct (sign r) as [neg t] eqn:Es.
    apply sign_split in Es as (sg & Sg & ->). destruct (scan_body neg t) as [[x' r'] |] eqn:B; [| intros [= _ ->]; congruence]. intros [= -> ->].
    apply body_sound in B. exists w, sg, neg, t. repeat split; auto. apply (forall_iff _ blank) in Fw; [exact Fw | exact is_space_spec].
  - intros (w & sg & neg & t & -> & Fw & Sg & B). destruct (body_start _ _ _ B) as (c & r & Et & C1 & C2).
    rewrite span_app; [| apply (forall_iff _ blank); [exact is_space_spec | exact Fw] |].
    + rewrite (sign_app neg); [| exact Sg | right; eauto]. rewrite (body_complete _ _ _ B). reflexivity.
    + destruct Sg; cbn [app]; right; [exists c, r; auto | exists 43, t | exists 45, t]; split; reflexivity.
Qed.

(** to_double returns a value exactly for the texts of floating point numbers that are in
    range, and it is the rounded number that the text denotes; otherwise it throws. *)
Theorem C50_to_double_partial (F : Type) (round : exact -> F * bool) s v : s <> [] -> ~ In 0 s ->
  to_double F round (Some s) = Ret v <-> exists x, float_text s x /\ round x = (v, false).
Proof.
  intros N Z0. unfold to_double. rewrite c_str_no_nul by exact Z0. destruct (strtod s) as [x rest] eqn:E. split.
  - destruct (round x) as [num er] eqn:R. destruct rest; [| discriminate]. destruct er; [discriminate |]. intros [= <-]. exists x. split; [| exact R]. now apply strtod_spec.
  - intros (x' & H & R). apply strtod_spec in H; [| exact N]. rewrite E in H. injection H as -> ->. now rewrite R.
Qed.
Theorem C50_to_double_total (F : Type) (round : exact -> F * bool) s : exists r, to_double F round s = r /\ r <> UB /\ r <> Fuel.
Proof.
  eexists. split; [reflexivity |]. unfold to_double. destruct s as [s |]; [| split; discriminate].
  destruct (strtod (c_str s)) as [x rest]. destruct (round x) as [num er]. destruct rest; [destruct er |]; split; discriminate.
Qed.
(** A text denotes one number. *)
Theorem C50_one_float s x y : float_text s x -> float_text s y -> x = y.
Proof.
  intros H1 H2. assert (N : s <> []).
  { destruct H1 as (w & sg & neg & t & -> & _ & _ & B). destruct (body_start _ _ _ B) as (c & r & -> & _). destruct w; [destruct sg; discriminate | discriminate]. }
  apply strtod_spec in H1; [| exact N]. apply strtod_spec in H2; [| exact N]. congruence.
Qed.
(** The empty string gives 0, though it is no number. *)
Theorem C50_to_double_empty_refuted (F : Type) (round : exact -> F * bool) z : round (Number false 0 10 0) = (z, false) ->
  to_double F round (Some []) = Ret z /\ forall x, ~ float_text [] x.
Proof.
  intros R. split; [cbn; now rewrite R |]. intros x (w & sg & neg & t & E & _ & _ & B). destruct (body_start _ _ _ B) as (c & r & -> & _).
  destruct w; [destruct sg; discriminate | discriminate].
Qed.

(** -12.5e3, 0x1.8p-1 and a text that is no number. *)
Example to_double_ex : strtod (bytes " -12.5e3") = (Number true 125 10 2, []) /\ strtod (bytes "0x1.8p-1") = (Number false 24 2 (-5), [])
  /\ strtod (bytes "-Inf") = (Infinity true, []) /\ strtod (bytes "1e") = (Number false 1 10 0, bytes "e") /\ strtod (bytes "0x") = (Number false 0 10 0, bytes "x").
Proof. vm_compute. auto. Qed.
Example float_text_ex : float_text (bytes " -12.5e3") (Number true 125 10 2).
Proof. apply strtod_spec; [discriminate | vm_compute; reflexivity]. Qed.

Print Assumptions C50_to_double_partial.
Print Assumptions C50_to_double_total.
Print Assumptions C50_one_float.
Print Assumptions C50_to_double_empty_refuted.
