(** * How sprintf reads a specifier *)
From Verif Require Import Base StM CLib Dec Array_model FnMem_model FnStr_model FnStr_spec FnStr_proofs Format_model Format_spec.

Local Notation is_digit := Dec.is_digit.

(** The position [i] in [s] with the rest [l] to read. *)
Definition at_pos (s : list Z) (i : Z) (l : list Z) : Prop := 0 <= i <= zlen s /\ zdrop i s = l.

Lemma at_len s i l : at_pos s i l -> i + zlen l = zlen s.
Proof. intros [B <-]. rewrite zlen_drop. lia. Qed.
Lemma at_nil s i : at_pos s i [] -> (i <? zlen s) = false.
Proof. intros A. apply at_len in A. rewrite zlen_nil in A. apply Z.ltb_ge. lia. Qed.
Lemma at_cons s i c l : is_string s -> at_pos s i (c :: l) ->
  (i <? zlen s) = true /\ char_at s i = Ret (wrap8 c) /\ wrap32 (i + 1) = i + 1 /\ at_pos s (i + 1) l /\ 0 <= c <= 255.
Proof.
  intros S A. pose proof (at_len _ _ _ A) as L. rewrite zlen_cons in L. pose proof (zlen_nonneg l). destruct A as [B E]. pose proof S as [_ LS].
  assert (Z0 : znth s i = Some c).
  { pose proof (znth_drop i s 0) as X. rewrite E in X. cbn in X. rewrite Z.add_0_r, Z.max_r in X by lia. auto. }
  split; [apply Z.ltb_lt; lia |]. split; [apply char_at_ok; auto |]. split; [apply wrap32_id; unfold in_i32; lia |].
  split; [| eapply string_byte; eauto]. split; [lia |].
  pose proof (zdrop_cons _ _ _ Z0) as Y. rewrite E in Y. injection Y as ->. reflexivity.
Qed.

(** Comparing a character. *)
Lemma char_eqb c k : 0 <= c <= 255 -> 0 <= k < 128 -> (wrap8 c =? k) = (c =? k).
Proof.
  intros. rewrite wrap8_byte by auto. destruct (Z.ltb_spec c 128); [reflexivity |].
  rewrite (proj2 (Z.eqb_neq (c - 256) k)), (proj2 (Z.eqb_neq c k)) by lia. reflexivity.
Qed.
Definition flagb (c : Z) : bool := (c =? 48) || (c =? 43) || (c =? 45).
Definition digb (c : Z) : bool := (48 <=? c) && (c <=? 57).
Lemma char_digb c : 0 <= c <= 255 -> (wrap8 c <? 48) || (57 <? wrap8 c) = negb (digb c).
Proof.
  intros. rewrite wrap8_byte by auto. unfold digb. destruct (Z.ltb_spec c 128); destruct (Z.leb_spec 48 c); destruct (Z.leb_spec c 57); cbn [andb negb];
    repeat match goal with |- context [?a <? ?b] => destruct (Z.ltb_spec a b) end; try reflexivity; lia.
Qed.
Lemma digb_digit c : digb c = true <-> is_digit c.
Proof. unfold digb, is_digit. lia. Qed.

Fixpoint takew (f : Z -> bool) (l : list Z) : list Z :=
  match l with c :: l' => if f c then c :: takew f l' else [] | [] => [] end.
Fixpoint dropw (f : Z -> bool) (l : list Z) : list Z :=
  match l with c :: l' => if f c then dropw f l' else l | [] => [] end.
Lemma take_drop f l : takew f l ++ dropw f l = l.
Proof. induction l as [| c l IH]; cbn; auto. destruct (f c); cbn; [rewrite IH |]; auto. Qed.
Lemma takew_all f l : Forall (fun c => f c = true) (takew f l).
Proof. induction l as [| c l IH]; cbn; auto. destruct (f c) eqn:E; auto. Qed.
Definition stops (f : Z -> bool) (l : list Z) : Prop := match l with [] => True | c :: _ => f c = false end.
Lemma dropw_stops f l : stops f (dropw f l).
Proof. induction l as [| c l IH]; cbn; auto. destruct (f c) eqn:E; cbn; auto. Qed.
Lemma takew_app f a b : Forall (fun c => f c = true) a -> stops f b -> takew f (a ++ b) = a /\ dropw f (a ++ b) = b.
Proof.
  intros F ST. induction F as [| c a FC F [IH1 IH2]]; cbn [app].
  - destruct b as [| c b]; cbn in *; auto. rewrite ST. auto.
  - cbn [takew dropw]. rewrite FC, IH1, IH2. auto.
Qed.

Lemma read_flags_ok s : is_string s -> forall l fuel i pad plus left,
  at_pos s i l -> (length l < fuel)%nat ->
  read_flags fuel s i pad plus left =
    Ret (i + zlen (takew flagb l), (if has 48 (takew flagb l) then 48 else pad),
         plus || has 43 (takew flagb l), left || has 45 (takew flagb l)) /\
  at_pos s (i + zlen (takew flagb l)) (dropw flagb l).
Proof.
  intros S. induction l as [| c l IH]; intros fuel i pad plus left A L; (destruct fuel as [| fuel]; [cbn in L; lia |]); cbn [read_flags].
  - rewrite (at_nil _ _ A). cbn. rewrite !orb_false_r, Z.add_0_r. auto.
  - destruct (at_cons _ _ _ _ S A) as (E1 & E2 & E3 & A' & BC). rewrite E1, E2, obind_ret, E3. cbn [takew dropw].
    rewrite !char_eqb by lia.
    assert (L' : (length l < fuel)%nat) by (cbn in L; lia).
    destruct (Z.eqb_spec c 48) as [-> |]; [| destruct (Z.eqb_spec c 43) as [-> |]; [| destruct (Z.eqb_spec c 45) as [-> |]]]; cbn iota.
    + change (flagb 48) with true. cbn iota. destruct (IH fuel (i + 1) 48 plus left A' L') as [-> AT]. rewrite zlen_cons, Z.add_assoc. split; auto.
      unfold has. cbn [existsb]. change (48 =? 48) with true. change (43 =? 48) with false. change (45 =? 48) with false. cbn [orb].
      destruct (existsb (Z.eqb 48) _); reflexivity.
    + change (flagb 43) with true. cbn iota. destruct (IH fuel (i + 1) pad true left A' L') as [-> AT]. rewrite zlen_cons, Z.add_assoc. split; auto.
      unfold has. cbn [existsb]. change (48 =? 43) with false. change (43 =? 43) with true. change (45 =? 43) with false. cbn [orb].
      rewrite orb_true_r. reflexivity.
    + change (flagb 45) with true. cbn iota. destruct (IH fuel (i + 1) pad plus true A' L') as [-> AT]. rewrite zlen_cons, Z.add_assoc. split; auto.
      unfold has. cbn [existsb]. change (48 =? 45) with false. change (43 =? 45) with false. change (45 =? 45) with true. cbn [orb].
      rewrite orb_true_r. reflexivity.
    + assert (FB : flagb c = false) by (unfold flagb; lia). rewrite FB. cbn. rewrite !orb_false_r, Z.add_0_r. auto.
Qed.

Lemma dval_mono ds : Forall is_digit ds -> forall a, 0 <= a -> a <= dval a ds.
Proof.
  unfold dval, is_digit. induction 1 as [| d ds D F IH]; intros a A; cbn [fold_left]; [lia |].
  specialize (IH (a * 10 + (d - 48))). lia.
Qed.

Lemma read_number_ok s : is_string s -> forall l fuel i v seen,
  at_pos s i l -> (length l < fuel)%nat -> 0 <= v -> dval v (takew digb l) <= INT32_MAX ->
  read_number fuel s i v seen =
    Ret (i + zlen (takew digb l), dval v (takew digb l), match takew digb l with [] => seen | _ => true end) /\
  at_pos s (i + zlen (takew digb l)) (dropw digb l).
Proof.
  intros S. induction l as [| c l IH]; intros fuel i v seen A L V M; (destruct fuel as [| fuel]; [cbn in L; lia |]); cbn [read_number].
  - rewrite (at_nil _ _ A). cbn. rewrite Z.add_0_r. auto.
  - destruct (at_cons _ _ _ _ S A) as (E1 & E2 & E3 & A' & BC). rewrite E1, E2, obind_ret, E3, char_digb by auto.
    cbn [takew dropw] in *. assert (L' : (length l < fuel)%nat) by (cbn in L; lia).
    destruct (digb c) eqn:DC; cbn [negb].
    + assert (D : is_digit c) by (apply digb_digit; auto). unfold is_digit in D.
      unfold dval in M |- *. cbn [fold_left] in M |- *. fold (dval (v * 10 + (c - 48)) (takew digb l)) in M |- *.
      assert (F : Forall is_digit (takew digb l)) by (eapply Forall_impl; [| apply takew_all]; intros; apply digb_digit; auto).
      pose proof (dval_mono _ F (v * 10 + (c - 48)) ltac:(lia)) as MM.
      assert (EV : wrap32 (wrap32 (wrap32 (v * 10) + wrap8 c) - 48) = v * 10 + (c - 48)).
      { rewrite (wrap8_id c) by (unfold in_i8; lia). rewrite (wrap32_id (v * 10)) by (unfold in_i32; lia).
        unfold wrap32, wrap. Z.div_mod_to_equations. lia. }
      rewrite EV. destruct (IH fuel (i + 1) (v * 10 + (c - 48)) true A' L') as [-> AT]; [lia | lia |].
      rewrite zlen_cons, Z.add_assoc. split; auto. destruct (takew digb l); reflexivity.
    + change (zlen (@nil Z)) with 0. rewrite Z.add_0_r. auto.
Qed.

(** ** The grammar as a function *)
Definition short_conv (c : Z) : option conv :=
  if c =? 88 then Some CX else if c =? 99 then Some Cc else if c =? 100 then Some Cd else if c =? 102 then Some Cf
  else if c =? 103 then Some Cg else if c =? 112 then Some Cp else if c =? 115 then Some Cs else if c =? 117 then Some Cu
  else if c =? 120 then Some Cx else None.
Definition long_conv (c : Z) : option conv :=
  if c =? 88 then Some ClX else if c =? 100 then Some Cld else if c =? 117 then Some Clu else if c =? 120 then Some Clx else None.
Definition parse_conv (l : list Z) : option conv * list Z :=
  match l with
  | [] => (None, [])
  | c :: l' =>
      if c =? 108 then
        match l' with
        | [] => (None, [])
        | d :: r => match long_conv d with Some k => (Some k, r) | None => (None, l') end
        end
      else (short_conv c, l')
  end.
Definition parse_precision (l : list Z) : option Z * list Z :=
  match l with
  | [] => (None, [])
  | c :: r =>
      if c =? 46 then (match takew digb r with [] => None | ds => Some (digits_value ds) end, dropw digb r)
      else (None, l)
  end.
Definition parse (l : list Z) : option (list Z * Z * option Z * option conv * list Z) :=
  let fl := takew flagb l in
  let l1 := dropw flagb l in
  let w := digits_value (takew digb l1) in
  let (p, l3) := parse_precision (dropw digb l1) in
  match l3 with
  | [] => None
  | _ => let (c, r) := parse_conv l3 in Some (fl, w, p, c, r)
  end.

Definition spec_of (fl : list Z) (w : Z) (p : option Z) (c : option conv) : spec :=
  mk_spec (if has 45 fl then 32 else if has 48 fl then 48 else 32) (has 43 fl) (has 45 fl) w
    (match p with Some n => n | None => -1 end) (match p with Some _ => true | None => false end) c.

Lemma read_conv_ok s i l : is_string s -> at_pos s i l -> l <> [] ->
  read_conv s i = Ret (i + (zlen l - zlen (snd (parse_conv l))), fst (parse_conv l)) /\
  at_pos s (i + (zlen l - zlen (snd (parse_conv l)))) (snd (parse_conv l)).
Proof.
  intros S A NE. destruct l as [| c l]; [congruence |]. destruct (at_cons _ _ _ _ S A) as (_ & E2 & E3 & A' & BC).
  unfold read_conv. rewrite E2, obind_ret, E3, !char_eqb by lia. cbn [parse_conv].
  assert (ONE : forall r : option conv, Ret (i + 1, r) = Ret (i + (zlen (c :: l) - zlen l), r)).
  { intros r. do 2 f_equal. rewrite zlen_cons. lia. }
  assert (ONEA : at_pos s (i + (zlen (c :: l) - zlen l)) l).
  { replace (i + (zlen (c :: l) - zlen l)) with (i + 1); auto. rewrite zlen_cons. lia. }
  destruct (Z.eqb_spec c 108) as [-> | N108].
  - cbn [Z.eqb Pos.eqb]. destruct l as [| d l].
    + rewrite (at_nil _ _ A'). cbn [fst snd]. rewrite ONE. auto.
    + destruct (at_cons _ _ _ _ S A') as (F1 & F2 & F3 & A2 & BD). rewrite F1, F2, obind_ret, F3, !char_eqb by lia.
      unfold long_conv.
      assert (TWO : forall r : option conv, Ret (i + 1 + 1, r) = Ret (i + (zlen (108 :: d :: l) - zlen l), r)).
      { intros r. do 2 f_equal. rewrite !zlen_cons. lia. }
      assert (TWOA : at_pos s (i + (zlen (108 :: d :: l) - zlen l)) l).
      { replace (i + (zlen (108 :: d :: l) - zlen l)) with (i + 1 + 1); auto. rewrite !zlen_cons. lia. }
      repeat match goal with |- context [d =? ?k] => destruct (d =? k); [cbn [fst snd]; rewrite TWO; auto |] end.
      cbn [fst snd]. rewrite ONE. auto.
  - unfold short_conv. cbn [fst snd].
    repeat match goal with |- context [c =? ?k] => destruct (c =? k); [rewrite ONE; auto |] end.
    rewrite ONE. auto.
Qed.

Lemma number_part s i l : at_pos s i l -> numbers_small s -> dval 0 (takew digb l) <= INT32_MAX.
Proof.
  intros [B E] N. apply (N (ztake i s) _ (dropw digb l)).
  - rewrite take_drop, <- E, ztake_zdrop. reflexivity.
  - eapply Forall_impl; [| apply takew_all]. intros a A. apply digb_digit; auto.
Qed.

Lemma parse_ok s i l : is_string s -> numbers_small s -> at_pos s i (37 :: l) ->
  match parse l with
  | None => exists e, read_spec s i = Die e
  | Some (fl, w, p, c, r) => read_spec s i = Ret (zlen s - zlen r, spec_of fl w p c) /\ at_pos s (zlen s - zlen r) r
  end.
Proof.
  intros S N A. destruct (at_cons _ _ _ _ S A) as (_ & _ & E3 & A1 & _). unfold read_spec, parse. rewrite E3.
  assert (FU : forall i l, at_pos s i l -> (length l < Datatypes.S (length s))%nat).
  { intros i' l' A'. pose proof (at_len _ _ _ A'). destruct A' as [? _]. unfold zlen in *. lia. }
  destruct (read_flags_ok s S _ _ _ 32 false false A1 (FU _ _ A1)) as [-> A2]. rewrite obind_ret. cbn [orb].
  set (fl := takew flagb l) in *. set (l1 := dropw flagb l) in *.
  destruct (read_number_ok s S _ _ _ 0 false A2 (FU _ _ A2) ltac:(lia) (number_part _ _ _ A2 N)) as [-> A3]. rewrite obind_ret.
  set (l2 := dropw digb l1) in *. set (i2 := i + 1 + zlen fl + zlen (takew digb l1)) in *.
  assert (PR : exists i3 v h,
    (if i2 <? zlen s then let! c := char_at s i2 in
        if c =? 46 then read_number (Datatypes.S (length s)) s (wrap32 (i2 + 1)) 0 false else Ret (i2, 0, false)
     else Ret (i2, 0, false)) = Ret (i3, v, h) /\ at_pos s i3 (snd (parse_precision l2)) /\
    (if h : bool then v else -1) = match fst (parse_precision l2) with Some n => n | None => -1 end /\
    h = match fst (parse_precision l2) with Some n => true | None => false end).
  { clearbody l2. destruct l2 as [| c l2].
    - rewrite (at_nil _ _ A3). do 3 eexists. split; [reflexivity |]. cbn. auto.
    - destruct (at_cons _ _ _ _ S A3) as (F1 & F2 & F3 & A4 & BD). rewrite F1, F2, obind_ret, F3, char_eqb by lia.
      cbn [parse_precision]. destruct (Z.eqb_spec c 46); [| do 3 eexists; split; [reflexivity |]; cbn; auto].
      destruct (read_number_ok s S _ _ _ 0 false A4 (FU _ _ A4) ltac:(lia) (number_part _ _ _ A4 N)) as [-> A5].
      do 3 eexists. split; [reflexivity |]. cbn [fst snd]. split; auto. destruct (takew digb l2); auto. }
  destruct PR as (i3 & v & h & -> & A4 & EV & EH). rewrite obind_ret. rewrite EV, EH.
  destruct (parse_precision l2) as [p l3]. cbn [fst snd] in *. destruct l3 as [| c l3].
  - rewrite (at_nil _ _ A4). eauto.
  - destruct (at_cons _ _ _ _ S A4) as (F1 & _ & _ & _ & _). rewrite F1.
    destruct (read_conv_ok s i3 (c :: l3) S A4) as [ER AR]; [discriminate |].
    assert (EI : i3 + (zlen (c :: l3) - zlen (snd (parse_conv (c :: l3)))) = zlen s - zlen (snd (parse_conv (c :: l3)))).
    { pose proof (at_len _ _ _ A4). lia. }
    rewrite EI in ER, AR. destruct (parse_conv (c :: l3)) as [k r]. cbn [fst snd] in *. rewrite ER, obind_ret.
    split; auto.
Qed.

Lemma conv_stops c r : stops flagb (conv_text c ++ r) /\ stops digb (conv_text c ++ r) /\ hd 0 (conv_text c ++ r) <> 46 /\ conv_text c <> [].
Proof. destruct c; cbn; repeat split; auto; discriminate. Qed.
Lemma parse_conv_text c r : parse_conv (conv_text c ++ r) = (Some c, r).
Proof. destruct c; reflexivity. Qed.

Lemma digits_flags ds l : Forall is_digit ds -> hd 0 ds <> 48 -> stops flagb l -> stops flagb (ds ++ l).
Proof.
  intros F H ST. destruct F as [| d ds D F]; auto. cbn in *. unfold is_digit in D. unfold flagb. lia.
Qed.

Lemma parse_complete t fl w p c r : spec_text t fl w p c -> exists t', t = 37 :: t' /\ parse (t' ++ r) = Some (fl, w, p, Some c, r).
Proof.
  intros [flags ds pt q k FF FD HD PT]. eexists. split; [reflexivity |]. unfold parse.
  destruct (conv_stops k r) as (SF & SD & S46 & NE).
  assert (PS : stops flagb (pt ++ conv_text k ++ r) /\ stops digb (pt ++ conv_text k ++ r) /\
    parse_precision (pt ++ conv_text k ++ r) = (q, conv_text k ++ r)).
  { inversion PT as [| | es EN EF]; subst; cbn [app].
    - split; auto. split; auto. unfold parse_precision. destruct (conv_text k ++ r) as [| x y]; auto. cbn [hd] in S46.
      destruct (Z.eqb_spec x 46); [lia | reflexivity].
    - split; [reflexivity |]. split; [reflexivity |]. cbn [parse_precision]. change (46 =? 46) with true. cbn iota.
      destruct (takew_app digb [] (conv_text k ++ r)) as [ET ED]; auto. cbn [app] in *. rewrite ET, ED. reflexivity.
    - split; [reflexivity |]. split; [reflexivity |]. cbn [parse_precision]. change (46 =? 46) with true. cbn iota.
      destruct (takew_app digb es (conv_text k ++ r)) as [ET ED]; auto.
      { eapply Forall_impl; [| apply EF]. intros. apply digb_digit; auto. }
      rewrite ET, ED. destruct es; [congruence | reflexivity]. }
  destruct PS as (P1 & P2 & P3). rewrite <- !app_assoc.
  destruct (takew_app flagb flags (ds ++ pt ++ conv_text k ++ r)) as [ET ED].
  { eapply Forall_impl; [| apply FF]. cbn. unfold flagb. intros. lia. }
  { apply digits_flags; auto. }
  rewrite ET, ED.
  destruct (takew_app digb ds (pt ++ conv_text k ++ r)) as [ET2 ED2]; auto.
  { eapply Forall_impl; [| apply FD]. intros. apply digb_digit; auto. }
  rewrite ET2, ED2, P3, parse_conv_text. destruct (conv_text k) eqn:EK; [congruence |]. cbn [app]. reflexivity.
Qed.

Lemma parse_conv_sound l c r : parse_conv l = (Some c, r) -> l = conv_text c ++ r.
Proof.
  destruct l as [| x l]; [discriminate |]. cbn [parse_conv]. destruct (Z.eqb_spec x 108) as [-> |].
  - destruct l as [| d l]; [discriminate |]. unfold long_conv.
    repeat match goal with |- context [d =? ?k] => destruct (Z.eqb_spec d k) as [-> |]; [intros [= <- <-]; reflexivity |] end. discriminate.
  - unfold short_conv.
    repeat match goal with |- context [x =? ?k] => destruct (Z.eqb_spec x k) as [-> |]; [intros [= <- <-]; reflexivity |] end. discriminate.
Qed.

Lemma parse_sound l fl w p c r : parse l = Some (fl, w, p, Some c, r) -> exists t, spec_text (37 :: t) fl w p c /\ l = t ++ r.
Proof.
  unfold parse. destruct (parse_precision (dropw digb (dropw flagb l))) as [q l3] eqn:EP. destruct l3 as [| x l3]; [discriminate |].
  destruct (parse_conv (x :: l3)) as [k r'] eqn:EC. intros [= <- <- <- -> ->]. apply parse_conv_sound in EC.
  set (fl := takew flagb l). set (l1 := dropw flagb l) in *. set (l2 := dropw digb l1) in *. set (ds := takew digb l1).
  assert (PT : exists pt, precision_text pt q /\ l2 = pt ++ conv_text c ++ r).
  { clearbody l2. destruct l2 as [| y l2]; cbn [parse_precision] in EP; [discriminate |]. destruct (Z.eqb_spec y 46) as [-> |].
    - injection EP as <- E3. exists (46 :: takew digb l2). split.
      + destruct (takew digb l2) as [| z zs] eqn:ET; [constructor |]. rewrite <- ET. constructor; [rewrite ET; discriminate |].
        eapply Forall_impl; [| apply takew_all]. intros. apply digb_digit; auto.
      + cbn [app]. rewrite <- EC, <- E3, take_drop. reflexivity.
    - injection EP as <- -> ->. exists []. split; [constructor |]. cbn [app]. exact EC. }
  destruct PT as (pt & PT & E2). exists (fl ++ ds ++ pt ++ conv_text c). split.
  - constructor; auto.
    + eapply Forall_impl; [| apply takew_all]. cbn. unfold flagb. intros. lia.
    + eapply Forall_impl; [| apply takew_all]. intros. apply digb_digit; auto.
    + pose proof (dropw_stops flagb l) as ST. unfold ds, l1. destruct (dropw flagb l) as [| z zs]; cbn; [lia |].
      cbn in ST. destruct (digb z) eqn:Z1; cbn; [| lia]. unfold flagb in ST. lia.
  - rewrite <- !app_assoc, <- E2. unfold l2, ds. rewrite take_drop. unfold fl, l1. rewrite take_drop. reflexivity.
Qed.

(** A specifier is read in one way. *)
Lemma spec_text_det t fl w p c r t' fl' w' p' c' r' :
  spec_text t fl w p c -> spec_text t' fl' w' p' c' -> t ++ r = t' ++ r' -> r = r' /\ fl = fl' /\ w = w' /\ p = p' /\ c = c'.
Proof.
  intros H H' E. destruct (parse_complete _ _ _ _ _ r H) as (u & -> & P). destruct (parse_complete _ _ _ _ _ r' H') as (u' & -> & P').
  cbn [app] in E. injection E as E. rewrite E, P' in P. injection P as -> -> -> -> ->. auto.
Qed.
