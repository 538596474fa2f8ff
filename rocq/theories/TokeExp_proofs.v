(** * Variables in strings, character and single-quoted literals *)
From Verif Require Import Base CLib CStrto FnMem_model Utf8_spec Utf8_model FnNum_spec FnNum_proofs Toke_model Toke_spec TokeNum_proofs TokeStr_proofs.

(** ** Variables *)
Definition wordb (c : Z) : bool := isalnum_ascii c || (c =? 95).
Lemma word_iff c : word c <-> wordb c = true.
Proof. unfold word, wordb, isalnum_ascii, isdigit_ascii. lia. Qed.

Lemma skip_name_ok n brace rest fuel : var_name n -> (length n < fuel)%nat -> rest <> [] -> ~ starts word rest -> ~ starts (eq 58) rest ->
  (starts (eq 125) rest -> brace = true) ->
  skip_name fuel brace (n ++ rest) = Ret (match rest with c :: r => if c =? 125 then r else rest | [] => rest end).
Proof.
  intros V. revert fuel. induction V as [| c t W V IH | t V IH]; intros fuel L NE NW NC NB.
  - destruct fuel; [cbn in L; lia |]. cbn [skip_name app]. destruct rest as [| c r]; [congruence |]. cbn [deref obind]. cbn [starts] in *.
    fold (wordb c). destruct (wordb c) eqn:W; [exfalso; apply NW, word_iff; auto |]. destruct (Z.eqb_spec c 58); [lia |]. cbn [obind andb].
    destruct (Z.eqb_spec c 125) as [-> |]; [rewrite NB by auto; reflexivity | reflexivity].
  - destruct fuel; [cbn in L; lia |]. cbn [skip_name app deref obind next tl]. fold (wordb c). apply word_iff in W. rewrite W. apply IH; auto. cbn in L; lia.
  - destruct fuel; [cbn in L; lia |]. cbn [skip_name app deref obind next tl]. change (isalnum_ascii 58 || (58 =? 95)) with false. change (58 =? 58) with true. cbn [obind deref andb].
    change (58 =? 58) with true. cbn iota. apply IH; auto. cbn in L; lia.
Qed.

Lemma is_arrow_after rest : after_var rest -> is_arrow rest = Ret false.
Proof.
  intros (_ & _ & _ & _ & _ & NE & AR). unfold is_arrow. destruct rest as [| c r]; [congruence |]. cbn [deref obind next tl].
  destruct (Z.eqb_spec c 45) as [-> |]; [| reflexivity]. destruct AR as (c1 & r1 & E & N); [reflexivity |]. injection E as ->. cbn [deref obind].
  destruct (Z.eqb_spec c1 62); [lia | reflexivity].
Qed.
Lemma access_first a : access a -> exists c t, a = c :: t /\ (c = 123 \/ c = 91).
Proof. destruct 1; eauto 6. Qed.
Lemma skip_access_ok b t : accesses b t -> b = true -> forall a rest fuel, access a -> after_var rest -> (length t < fuel)%nat -> skip_access fuel true (a ++ t ++ rest) = Ret rest.
Proof.
  intros A. induction A as [b | b a' t A' T IH | a' t A' T IH]; intros EB a rest fuel AC AV L; try specialize (IH eq_refl); clear EB.
  all: (destruct fuel; [lia |]); cbn [skip_access obind].
  all: assert (CL : exists c w e, a = c :: w ++ [e] /\ Forall word w /\ (c = 123 /\ e = 125 \/ c = 91 /\ e = 93)) by (destruct AC; eauto 10).
  all: destruct CL as (c & w & e & -> & FW & CE).
  all: cbn [app deref obind next tl].
  all: assert (CC : (c =? 123) || (c =? 91) = true) by (destruct CE as [[-> _] | [-> _]]; reflexivity); rewrite CC.
  all: rewrite <- (app_assoc w [e]); cbn [app].
  all: rewrite (while_ok wordb w (e :: _)); [ | eapply Forall_impl; [| exact FW]; intros x; apply word_iff | discriminate | cbn [starts]; destruct CE as [[_ ->] | [_ ->]]; discriminate].
  all: cbn [obind deref].
  all: assert (EE : (e =? (if c =? 123 then 125 else 93)) = true) by (destruct CE as [[-> ->] | [-> ->]]; reflexivity); rewrite EE; cbn [next tl].
  - rewrite (is_arrow_after rest AV). cbn [obind]. destruct AV as (_ & _ & _ & N1 & N2 & NE & _). destruct rest as [| r rest]; [congruence |]. cbn [deref obind starts] in *.
    destruct (Z.eqb_spec r 123); [lia |]. destruct (Z.eqb_spec r 91); [lia |]. reflexivity.
  - unfold is_arrow. cbn [app deref obind next tl]. change (45 =? 45) with true. change (62 =? 62) with true. cbn iota.
    cbn [deref obind]. change (62 =? 62) with true. cbn iota. rewrite <- app_assoc.
    destruct (access_first a' A') as (c2 & t2 & E2 & C2). rewrite E2. cbn [app deref obind]. destruct (Z.eqb_spec c2 123); [| destruct (Z.eqb_spec c2 91); [| lia]]; cbn [orb];
      (replace (c2 :: t2 ++ t ++ rest) with (a' ++ t ++ rest) by (rewrite E2; reflexivity)); apply IH; auto; cbn [length] in L; rewrite app_length in L; lia.
  - rewrite <- app_assoc. destruct (access_first a' A') as (c2 & t2 & E2 & C2).
    assert (IA : is_arrow (a' ++ t ++ rest) = Ret false) by (rewrite E2; unfold is_arrow; cbn [app deref obind]; destruct (Z.eqb_spec c2 45); [lia | reflexivity]).
    rewrite IA. cbn [obind]. rewrite E2. cbn [app deref obind]. destruct (Z.eqb_spec c2 123); [| destruct (Z.eqb_spec c2 91); [| lia]]; cbn [orb];
      (replace (c2 :: t2 ++ t ++ rest) with (a' ++ t ++ rest) by (rewrite E2; reflexivity)); apply IH; auto;
      rewrite app_length, E2 in L; cbn [length] in L; lia.
Qed.

Lemma skip_expansion_ok var rest fuel : expansion var rest -> (length var < fuel)%nat -> skip_expansion fuel (var ++ rest) = Ret rest.
Proof.
  intros X L. unfold skip_expansion. destruct X as [n a rest V NN A AV | n rest V | n rest V NN AV | n rest V | rest | rest].
  - pose proof AV as (A1 & A2 & A3 & A4 & A5 & A6 & A7). rewrite <- app_assoc.
    assert (SN : skip_name fuel false (n ++ a ++ rest) = Ret (a ++ rest)).
    { assert (NA : a = [] \/ exists r, a = 45 :: 62 :: r) by (inversion A; subst; eauto).
      assert (S0 : match a ++ rest with c :: r => if c =? 125 then r else a ++ rest | [] => a ++ rest end = a ++ rest).
      { destruct NA as [-> | [r ->]]; [| reflexivity]. cbn [app]. destruct rest as [| c r]; auto. cbn [starts] in A3. destruct (Z.eqb_spec c 125); [lia | reflexivity]. }
      rewrite skip_name_ok, S0; auto; rewrite ?app_length in *; try lia; destruct NA as [-> | [r ->]]; cbn [app] in *; auto; cbn [starts]; unfold word; try lia; discriminate. }
    assert (F0 : exists c t, n ++ a ++ rest = c :: t /\ c <> 36 /\ c <> 123 /\ c <> 64).
    { destruct V as [| c t W V | t V]; [congruence | |]; cbn [app]; do 2 eexists; (split; [reflexivity |]); unfold word in *; lia. }
    destruct F0 as (c & t & E & N1 & N2 & N3). rewrite E in *. cbn [deref obind]. destruct (Z.eqb_spec c 36); [lia |]. cbn [deref obind].
    destruct (Z.eqb_spec c 123); [lia |]. cbn [deref obind]. destruct (Z.eqb_spec c 64); [lia |]. rewrite SN. cbn [obind negb andb].
    inversion A as [b | b ac t' AC T' | ]; subst.
    + destruct fuel; [lia |]. cbn [skip_access app]. rewrite (is_arrow_after rest AV). reflexivity.
    + destruct fuel; [lia |]. cbn [skip_access]. unfold is_arrow at 1. cbn [app deref obind next tl].
      change (45 =? 45) with true. cbn [deref obind]. change (62 =? 62) with true. cbn iota. cbn [obind].
      pose proof (skip_access_ok true t' T' eq_refl ac rest (Datatypes.S fuel) AC AV) as SA. rewrite <- (app_assoc ac). cbn [skip_access obind] in SA. apply SA.
      rewrite !app_length in L. cbn [length] in L. rewrite app_length in L. lia.
  - rewrite <- app_comm_cons. cbn [deref obind]. change (123 =? 36) with false. cbn iota. cbn [deref obind]. change (123 =? 123) with true. cbn iota. cbn [next tl]. rewrite <- app_assoc. cbn [app].
    assert (F0 : exists c t, n ++ 125 :: rest = c :: t /\ c <> 64).
    { destruct V as [| c t W V | t V]; cbn [app]; do 2 eexists; (split; [reflexivity |]); unfold word in *; lia. }
    destruct F0 as (c & t & E & N1). rewrite E. cbn [deref obind]. destruct (Z.eqb_spec c 64); [lia |]. rewrite <- E.
    rewrite skip_name_ok; auto; [cbn [length] in L; rewrite app_length in L; lia | discriminate | cbn; unfold word; lia | cbn; lia].
  - pose proof AV as (A1 & A2 & A3 & A4 & A5 & A6 & A7). rewrite <- app_comm_cons. cbn [deref obind]. change (36 =? 36) with true. cbn iota. cbn [next tl].
    assert (F0 : exists c t, n ++ rest = c :: t /\ c <> 123 /\ c <> 64).
    { destruct V as [| c t W V | t V]; [congruence | |]; cbn [app]; do 2 eexists; (split; [reflexivity |]); unfold word in *; lia. }
    destruct F0 as (c & t & E & N1 & N2). rewrite E. cbn [deref obind]. destruct (Z.eqb_spec c 123); [lia |]. cbn [deref obind]. destruct (Z.eqb_spec c 64); [lia |]. rewrite <- E.
    rewrite skip_name_ok; [| auto | cbn [length] in L; lia | auto | auto | auto | intros S; exfalso; auto]. cbn [obind negb andb].
    destruct rest as [| r rest]; auto. cbn [starts] in A3. destruct (Z.eqb_spec r 125); [lia | reflexivity].
  - rewrite <- !app_comm_cons. cbn [deref obind]. change (36 =? 36) with true. cbn iota. cbn [next tl deref obind]. change (123 =? 123) with true. cbn iota. cbn [next tl]. rewrite <- app_assoc. cbn [app].
    assert (F0 : exists c t, n ++ 125 :: rest = c :: t /\ c <> 64).
    { destruct V as [| c t W V | t V]; cbn [app]; do 2 eexists; (split; [reflexivity |]); unfold word in *; lia. }
    destruct F0 as (c & t & E & N1). rewrite E. cbn [deref obind]. destruct (Z.eqb_spec c 64); [lia |]. rewrite <- E.
    rewrite skip_name_ok; auto; [cbn [length] in L; rewrite app_length in L; lia | discriminate | cbn; unfold word; lia | cbn; lia].
  - reflexivity.
  - reflexivity.
Qed.
Lemma expansion_first var rest : expansion var rest -> exists c t, var ++ rest = c :: t /\ c <> 34.
Proof.
  intros X. destruct X as [n a rest V NN A AV | n rest V | n rest V NN AV | n rest V | rest | rest]; cbn [app]; try (do 2 eexists; split; [reflexivity | lia]).
  destruct V as [| c t W V | t V]; [congruence | |]; cbn [app]; do 2 eexists; (split; [reflexivity |]); unfold word in *; lia.
Qed.

Lemma string_expansion_ok t bs var rest fuel : body t bs (36 :: var ++ rest) -> expansion var rest -> 4 * zlen t <= INT32_MAX -> (length t + length var + 1 < fuel)%nat ->
  string_literal fuel (t ++ 36 :: var ++ rest) = Ret (bs, 36 :: var ++ rest, Some rest).
Proof.
  intros B X SZ FU. unfold string_literal. destruct (find_end_body _ _ _ B) as (n & L & FE). pose proof (body_first _ _ _ B) as BF. pose proof (body_len _ _ _ B) as BL.
  destruct (expansion_first _ _ X) as (c1 & t1 & E1 & N1). set (p := t ++ 36 :: var ++ rest).
  assert (ND : exists c q, p = c :: q /\ c <> 34) by (unfold p; destruct t as [| c t]; cbn [app]; do 2 eexists; (split; [reflexivity |]); cbn [starts] in BF; lia).
  destruct ND as (c & q & EP & N34). rewrite EP. cbn [deref obind]. destruct (Z.eqb_spec c 34); [lia |]. rewrite <- EP. unfold p.
  replace fuel with (n + Datatypes.S (fuel - n - 1))%nat at 1 by lia. rewrite FE. cbn [find_end deref obind]. change (36 =? 34) with false. change (36 =? 36) with true. cbn iota. cbn [next tl].
  rewrite E1. cbn [deref obind]. destruct (Z.eqb_spec c1 34); [lia |]. cbn [negb]. rewrite <- E1. rewrite (skip_expansion_ok var rest) by (auto; lia). cbn [obind].
  rewrite zlen_app. replace (zlen t + zlen (36 :: var ++ rest) - zlen (36 :: var ++ rest)) with (zlen t) by lia.
  pose proof (zlen_nonneg t). rewrite c_mul_ok by lia. cbn [obind].
  rewrite (string_loop_body _ _ _ B); [reflexivity | discriminate | change (@zlen Z []) with 0; lia | lia].
Qed.

(** ** Characters *)
Lemma wrap8_as_byte v : 0 <= v <= 255 -> as_byte v (wrap8 v).
Proof.
  intros V. unfold as_byte, wrap8, wrap. pose proof (Z.mod_pos_bound (v + 128) (2 * 128) ltac:(lia)). split; [lia |].
  rewrite <- (Z.mod_small v 256) at 2 by lia. change (2 * 128) with 256 in *. rewrite <- (Z.mod_mod (v + 128) 256) by lia.
  rewrite (Z.mod_mod (v + 128)) by lia. rewrite Zminus_mod_idemp_l. f_equal. lia.
Qed.
Lemma character_escape p : (let! e := deref p in
      match char_escape e with
      | Some v => Ret (v, next p)
      | None =>
          if is_octal_number e || (e =? 111) then parse_octal_escape p
          else if e =? 120 then parse_hex_escape p
          else Die "The invalid charater literal escape character."
      end) = match numeric_escape p with Die _ => match p with e :: _ => if is_octal_number e || (e =? 111) || (e =? 120) then numeric_escape p else Die "The invalid charater literal escape character." | [] => UB end | r => r end.
Proof.
  unfold numeric_escape. destruct p as [| e p]; [reflexivity |]. cbn [deref obind]. destruct (char_escape e); [reflexivity |].
  destruct (is_octal_number e || (e =? 111)); [cbn [orb]; destruct (parse_octal_escape (e :: p)); reflexivity |]. cbn [orb].
  destruct (e =? 120); [destruct (parse_hex_escape (e :: p)); reflexivity | reflexivity].
Qed.
Lemma character_ok t v rest : char_text t v (39 :: rest) -> 0 <= v <= 255 -> exists w, character_literal (t ++ 39 :: rest) = Ret (w, rest) /\ as_byte v w.
Proof.
  intros C V. exists (wrap8 v). split; [| apply wrap8_as_byte; auto]. unfold character_literal. inversion C as [c r N1 N2 | t' v' r BE]; subst.
  - cbn [app deref obind next tl]. destruct (Z.eqb_spec v 39); [lia |]. cbn [negb]. destruct (Z.eqb_spec v 92); [lia |]. cbn [obind deref]. reflexivity.
  - cbn [app deref obind next tl]. change (92 =? 39) with false. cbn [negb]. change (92 =? 92) with true. cbn iota. rewrite character_escape.
    rewrite (numeric_escape_ok _ _ _ BE) by discriminate. cbn [obind deref]. reflexivity.
Qed.
Lemma character_inv p w q : character_literal p = Ret (w, q) -> Forall (fun c => 0 <= c <= 255) p -> exists t v, p = t ++ 39 :: q /\ char_text t v (39 :: q) /\ as_byte v w.
Proof.
  unfold character_literal. destruct p as [| c p]; [discriminate |]. cbn [deref obind next tl]. destruct (Z.eqb_spec c 39); [discriminate |]. cbn [negb].
  intros E F. destruct (Z.eqb_spec c 92) as [-> | NC].
  - rewrite character_escape in E.
    destruct (numeric_escape p) as [[v r] | m | |] eqn:NE; try discriminate.
    + cbn [obind] in E. destruct r as [| d r]; [discriminate |]. cbn [deref obind next tl] in E. destruct (Z.eqb_spec d 39) as [-> |]; [| discriminate]. injection E as <- <-.
      destruct (numeric_escape_inv _ _ _ NE) as (t & -> & BE). exists (92 :: t), v. split; [reflexivity |]. split; [constructor; auto |].
      destruct (byte_escape_cons _ _ _ BE) as (_ & _ & _ & _ & V). apply wrap8_as_byte; auto.
    + destruct p as [| e p]; [discriminate |]. destruct (_ || _) in E; discriminate.
  - cbn [obind] in E. destruct p as [| d r]; [discriminate |]. cbn [deref obind next tl] in E. destruct (Z.eqb_spec d 39) as [-> |]; [| discriminate]. injection E as <- <-.
    exists [c], c. split; [reflexivity |]. split; [constructor; auto |]. inversion F; subst. apply wrap8_as_byte; auto.
Qed.

(** ** Single quotes *)
Lemma find_quote_ok t bs rest fuel : single t bs -> (length t < fuel)%nat -> find_quote fuel (t ++ 39 :: rest) = Ret (39 :: rest).
Proof.
  intros S. revert fuel. induction S as [| c t bs C1 C2 C3 S IH | c t bs C S IH]; intros fuel L; (destruct fuel; [cbn in L; lia |]); cbn [find_quote app deref obind next tl].
  - reflexivity.
  - destruct (Z.eqb_spec c 39); [lia |]. destruct (Z.eqb_spec c 0); [lia |]. destruct (Z.eqb_spec c 92); [lia |]. apply IH. cbn in L; lia.
  - change (92 =? 39) with false. change (92 =? 0) with false. change (92 =? 92) with true. cbn iota. apply IH. cbn in L; lia.
Qed.
Lemma single_len t bs : single t bs -> zlen bs <= zlen t.
Proof. induction 1; rewrite ?zlen_cons in *; try lia. Qed.
Lemma quote_loop_ok t bs rest : single t bs -> forall size buf fuel, zlen buf + zlen bs <= size -> (length t < fuel)%nat ->
  quote_loop fuel size (t ++ 39 :: rest) (39 :: rest) buf = Ret (buf ++ bs).
Proof.
  induction 1 as [| c t bs C1 C2 C3 S IH | c t bs C S IH]; intros size buf fuel SZ L; (destruct fuel; [cbn in L; lia |]); cbn [quote_loop].
  - cbn [app]. rewrite Nat.eqb_refl, app_nil_r. reflexivity.
  - rewrite app_length. cbn [length]. destruct (Nat.eqb_spec (Datatypes.S (length t) + Datatypes.S (length rest)) (Datatypes.S (length rest))); [lia |].
    cbn [app deref obind next tl]. destruct (Z.eqb_spec c 92); [lia |]. cbn [obind]. unfold store. rewrite zlen_cons in SZ. pose proof (zlen_nonneg bs).
    change (zlen [c]) with 1. destruct (Z.leb_spec (zlen buf + 1) size); [| lia]. cbn [obind]. rewrite IH; [rewrite <- app_assoc; reflexivity | rewrite zlen_app; change (zlen [c]) with 1; lia | cbn in L; lia].
  - rewrite app_length. cbn [length]. destruct (Nat.eqb_spec (Datatypes.S (Datatypes.S (length t)) + Datatypes.S (length rest)) (Datatypes.S (length rest))); [lia |].
    cbn [app deref obind next tl]. change (92 =? 92) with true. cbn iota. assert (CC : (c =? 92) || (c =? 39) = true) by (destruct C as [-> | ->]; reflexivity). rewrite CC.
    cbn [obind]. unfold store. rewrite zlen_cons in SZ. pose proof (zlen_nonneg bs).
    change (zlen [c]) with 1. destruct (Z.leb_spec (zlen buf + 1) size); [| lia]. cbn [obind]. rewrite IH; [rewrite <- app_assoc; reflexivity | rewrite zlen_app; change (zlen [c]) with 1; lia | cbn in L; lia].
Qed.
Lemma single_quoted_ok t bs rest fuel : single t bs -> (length t < fuel)%nat -> single_quoted fuel (t ++ 39 :: rest) = Ret (bs, rest).
Proof.
  intros S L. unfold single_quoted. pose proof (find_quote_ok _ _ rest fuel S L) as FQ. pose proof (single_len _ _ S).
  assert (GO : (let! stop := find_quote fuel (t ++ 39 :: rest) in
    let! bs := quote_loop fuel (zlen (t ++ 39 :: rest) - zlen stop) (t ++ 39 :: rest) stop [] in Ret (bs, next stop)) = Ret (bs, rest)).
  { rewrite FQ. cbn [obind]. rewrite (quote_loop_ok _ _ _ S); [reflexivity | | auto]. rewrite zlen_app. change (@zlen Z []) with 0. lia. }
  inversion S as [| c t' bs' C1 C2 C3 S' | c t' bs' C S']; subst; cbn [app deref obind] in *.
  - reflexivity.
  - destruct (Z.eqb_spec c 39); [lia |]. exact GO.
  - exact GO.
Qed.
Lemma quote_loop_inv g : forall f size p stop buf b, find_quote f p = Ret stop -> quote_loop g size p stop buf = Ret b -> exists t bs, p = t ++ stop /\ single t bs /\ b = buf ++ bs.
Proof.
  assert (SUF : forall f p stop, find_quote f p = Ret stop -> exists u, p = u ++ stop).
  { induction f as [| f IH]; intros p stop E; [discriminate |]. cbn [find_quote] in E. destruct p as [| c p]; [discriminate |]. cbn [deref obind next tl] in E.
    destruct (c =? 39); [injection E as <-; exists []; reflexivity |]. destruct (c =? 0); [discriminate |]. destruct (c =? 92).
    - destruct (IH _ _ E) as [u EU]. destruct p as [| e p]; [exists (c :: u); cbn in *; rewrite EU; auto |]. exists (c :: e :: u). cbn in *. congruence.
    - destruct (IH _ _ E) as [u EU]. exists (c :: u). cbn. congruence. }
  induction g as [| g IH]; intros f size p stop buf b FQ QL; [discriminate |]. cbn [quote_loop] in QL.
  destruct (Nat.eqb_spec (length p) (length stop)) as [EL | NL].
  - injection QL as <-. destruct (SUF _ _ _ FQ) as [u ->]. rewrite app_length in EL. destruct u; [| cbn in EL; lia].
    exists [], []. repeat split; [constructor | rewrite app_nil_r; auto].
  - destruct f; [discriminate |]. cbn [find_quote] in FQ. destruct p as [| c p]; [discriminate |]. cbn [deref obind next tl] in *.
    destruct (Z.eqb_spec c 39) as [-> | N39]; [injection FQ as <-; congruence |]. destruct (Z.eqb_spec c 0) as [| N0]; [discriminate |].
    destruct (Z.eqb_spec c 92) as [-> | N92].
    + destruct p as [| e p]; [discriminate |]. cbn [deref obind next tl] in *. destruct ((e =? 92) || (e =? 39)) eqn:EE; [| discriminate]. cbn [obind] in QL.
      destruct (store size buf [e]) as [buf' | | |] eqn:ST; try discriminate. cbn [obind] in QL.
      assert (BE : buf' = buf ++ [e]) by (unfold store in ST; destruct (_ <=? _); [injection ST; auto | discriminate]). subst buf'.
      destruct (IH _ _ _ _ _ _ FQ QL) as (t & bs & -> & S & ->). exists (92 :: e :: t), (e :: bs). split; [reflexivity |]. split; [constructor; auto; lia | rewrite <- app_assoc; reflexivity].
    + cbn [obind] in QL. destruct (store size buf [c]) as [buf' | | |] eqn:ST; try discriminate. cbn [obind] in QL.
      assert (BE : buf' = buf ++ [c]) by (unfold store in ST; destruct (_ <=? _); [injection ST; auto | discriminate]). subst buf'.
      destruct (IH _ _ _ _ _ _ FQ QL) as (t & bs & -> & S & ->). exists (c :: t), (c :: bs). split; [reflexivity |]. split; [constructor; auto | rewrite <- app_assoc; reflexivity].
Qed.
Lemma find_quote_stop f p stop : find_quote f p = Ret stop -> starts (eq 39) stop.
Proof.
  revert p. induction f as [| f IH]; intros p E; [discriminate |]. cbn [find_quote] in E. destruct p as [| c p]; [discriminate |]. cbn [deref obind next tl] in E.
  destruct (Z.eqb_spec c 39) as [-> |]; [injection E as <-; reflexivity |]. destruct (c =? 0); [discriminate |]. destruct (c =? 92); eauto.
Qed.
Lemma single_quoted_inv fuel p bs q : single_quoted fuel p = Ret (bs, q) -> exists t, p = t ++ 39 :: q /\ single t bs.
Proof.
  unfold single_quoted. destruct p as [| c p]; [discriminate |]. cbn [deref obind next tl]. destruct (Z.eqb_spec c 39) as [-> | NC]; intros E.
  - injection E as <- <-. exists []. split; [reflexivity | constructor].
  - destruct (find_quote fuel (c :: p)) as [stop | | |] eqn:FQ; try discriminate. cbn [obind] in E.
    destruct (quote_loop fuel _ (c :: p) stop []) as [b | | |] eqn:QL; try discriminate. cbn [obind] in E. injection E as <- <-.
    destruct (quote_loop_inv _ _ _ _ _ _ _ FQ QL) as (t & b' & EP & S & ->). pose proof (find_quote_stop _ _ _ FQ) as ST.
    destruct stop as [| s stop]; [destruct ST |]. cbn [starts] in ST. subst s. exists t. auto.
Qed.

(** ** A "}" behind a variable is never passed *)
Lemma skip_name_hang fuel p : skip_name fuel false (125 :: p) = Fuel.
Proof. induction fuel as [| fuel IH]; [reflexivity |]. cbn [skip_name deref obind next tl]. exact IH. Qed.
Lemma skip_name_hang' n fuel p : Forall word n -> skip_name fuel false (n ++ 125 :: p) = Fuel.
Proof.
  intros F. revert fuel. induction F as [| c n W F IH]; intros fuel; [apply skip_name_hang |]. destruct fuel; [reflexivity |].
  cbn [skip_name app deref obind next tl]. apply word_iff in W. unfold wordb in W. rewrite W. apply IH.
Qed.
