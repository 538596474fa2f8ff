(** * Proofs about the code point functions *)
From Verif Require Import Base StM CLib Array_model Utf8_model Utf8_spec Utf8_proofs FnMem_model FnStr_model FnStr_spec FnStr_proofs.
From Verif Require Import StrBuf_model StrBuf_spec StrBuf_proofs FnSplit_model FnSplit_spec FnSplit_proofs FnUtf8_model FnUtf8_spec.

Definition e_invalid : string := "An invalid UTF-8 is gotten.".
Definition no_char (r : list Z) : Prop := r <> [] /\ ~ exists c cp t, r = c ++ t /\ wf_char c cp.

(** ** Decoding *)
Lemma char_dec r : Forall in_u8 r -> r = [] \/ (exists c cp t, r = c ++ t /\ wf_char c cp) \/ no_char r.
Proof.
  intros B. destruct r as [| b r']; [auto |]. right. remember (b :: r') as r eqn:ER.
  assert (L : 0 < zlen r) by (subst; rewrite zlen_cons; pose proof (zlen_nonneg r'); lia).
  destruct (iterate_total r 0 (zlen r)) as (k & c & E & K); auto; try lia.
  assert (D : k <= 0 \/ 0 < k) by lia. destruct D as [D | D].
  - right. split; [subst; discriminate |]. intros (ch & cp & t & E2 & W).
    destruct (iterate_exact r 0 (zlen r) B ltac:(lia) ltac:(lia) ltac:(lia)) as [X _].
    assert (Q : zsub r 0 (zlen r) = r) by zext. rewrite Q in X.
    rewrite (X ch cp t E2 W) in E. injection E as E _. pose proof (wf_char_len _ _ W). lia.
  - left. destruct (iterate_sound r 0 (zlen r) k c B ltac:(lia) ltac:(lia) E D) as [W KL].
    exists (zsub r 0 k), c, (zdrop k r). split; auto. unfold zsub. rewrite zdrop_0 by lia. symmetry. apply ztake_zdrop.
Qed.

Lemma decode s : Forall in_u8 s -> exists t cps rest, s = t ++ rest /\ wf_utf8 t cps /\ (rest = [] \/ no_char rest).
Proof.
  intros B. remember (length s) as n eqn:EN. assert (N : (length s <= n)%nat) by lia. clear EN. revert s B N.
  induction n as [| n IH]; intros s B N.
  - destruct s; [| cbn in N; lia]. exists [], [], []. repeat split; auto. constructor.
  - destruct (char_dec s B) as [-> | [(c & cp & t & -> & W) | NC]].
    + exists [], [], []. repeat split; auto. constructor.
    + pose proof (wf_char_len _ _ W) as WL. apply Forall_app in B as [_ B].
      destruct (IH t B) as (u & cps & rest & -> & WU & R).
      { rewrite app_length in N. unfold zlen in WL. lia. }
      exists (c ++ u), (cp :: cps), rest. rewrite app_assoc. repeat split; auto. constructor; auto.
    + exists [], [], s. repeat split; auto. constructor.
Qed.

Lemma wf_utf8_bytes s cps : wf_utf8 s cps -> Forall in_u8 s.
Proof. induction 1; [constructor |]. apply Forall_app. split; auto. eapply wf_char_bytes; eauto. Qed.

Lemma wf_utf8_app s cps t cps' : wf_utf8 s cps -> wf_utf8 t cps' -> wf_utf8 (s ++ t) (cps ++ cps').
Proof. induction 1; intros T; cbn [app]; auto. rewrite <- app_assoc. constructor; auto. Qed.

Lemma wf_utf8_fun_rest s cps rest : wf_utf8 s cps -> forall s' cps' rest', wf_utf8 s' cps' -> s ++ rest = s' ++ rest' ->
  (rest = [] \/ no_char rest) -> (rest' = [] \/ no_char rest') -> cps = cps' /\ rest = rest'.
Proof.
  intros W. induction W as [| c cp s cps WC W IH]; intros s' cps' rest' W' E R R'.
  - destruct W' as [| c' cp' s' cps' WC' W']; [auto |]. exfalso. cbn [app] in E.
    destruct R as [-> | [_ N]].
    + symmetry in E. apply app_eq_nil in E as [E _]. apply app_eq_nil in E as [-> _]. inversion WC'.
    + apply N. exists c', cp', (s' ++ rest'). rewrite <- app_assoc in E. auto.
  - destruct W' as [| c' cp' s' cps' WC' W'].
    + exfalso. cbn [app] in E. destruct R' as [-> | [_ N]].
      * apply app_eq_nil in E as [E _]. apply app_eq_nil in E as [-> _]. inversion WC.
      * apply N. exists c, cp, (s ++ rest). rewrite <- app_assoc in E. auto.
    + rewrite <- !app_assoc in E. destruct (wf_char_prefix_free _ _ _ _ _ _ WC WC' E) as (-> & ->). apply app_inv_head in E as E'.
      destruct (IH _ _ _ W' E' R R') as [-> ->]. auto.
Qed.

Lemma wf_utf8_fun s cps cps' : wf_utf8 s cps -> wf_utf8 s cps' -> cps = cps'.
Proof. intros A B. eapply (wf_utf8_fun_rest s cps []); eauto. Qed.

Lemma wf_utf8_invalid t cps rest : wf_utf8 t cps -> no_char rest -> ~ valid_utf8 (t ++ rest).
Proof.
  intros W N (cps' & W'). destruct (wf_utf8_fun_rest t cps rest W (t ++ rest) cps' []) as [_ E]; auto.
  - rewrite app_nil_r. auto.
  - destruct N. auto.
Qed.

Lemma wf_utf8_inj s t cps : wf_utf8 s cps -> wf_utf8 t cps -> s = t.
Proof.
  intros W. revert t. induction W as [| c cp s cps WC W IH]; intros t T; inversion T; subst; auto.
  f_equal; [eapply wf_char_inj; eauto | auto].
Qed.

(** ** The loop *)
Fixpoint fold_body {A} (body : Z -> A -> outcome (A * bool)) (cps : list Z) (a : A) : outcome (A * bool) :=
  match cps with
  | [] => Ret (a, false)
  | cp :: cps => let! (a, last) := body cp a in if last : bool then Ret (a, true) else fold_body body cps a
  end.

Lemma cp_loop_ok {A} (body : Z -> A -> outcome (A * bool)) s t cps rest : Forall in_u8 s ->
  wf_utf8 t cps -> (rest = [] \/ no_char rest) -> forall fuel off a,
  0 <= off <= zlen s -> zdrop off s = t ++ rest -> zlen t < Z.of_nat fuel ->
  cp_loop fuel s body off a =
    let! (a', last) := fold_body body cps a in
    if last : bool then Ret a' else match rest with [] => Ret a' | _ => Die e_invalid end.
Proof.
  intros B W R. induction W as [| c cp t cps WC W IH]; intros fuel off a O E F.
  - destruct fuel as [| fuel]; [rewrite zlen_nil in F; lia |]. cbn [cp_loop fold_body obind app] in *.
    destruct (Z.ltb_spec off (zlen s)) as [L | L].
    + destruct R as [-> | N].
      * exfalso. assert (Z0 : zlen (zdrop off s) = 0) by (rewrite E; reflexivity). rewrite zlen_drop in Z0. lia.
      * destruct (get_code_point_spec s off B ltac:(lia)) as [_ X]. rewrite X by (rewrite E; apply N).
        destruct rest; [destruct N; congruence | reflexivity].
    + rewrite zdrop_all in E by lia. subst rest. reflexivity.
  - destruct fuel as [| fuel]; [pose proof (zlen_nonneg (c ++ t)); lia |].
    pose proof (wf_char_len _ _ WC) as WL. pose proof (zlen_nonneg t). pose proof (zlen_nonneg rest). rewrite zlen_app in F.
    assert (L : zlen s = off + zlen c + zlen t + zlen rest).
    { assert (Z0 : zlen (zdrop off s) = zlen ((c ++ t) ++ rest)) by (rewrite E; reflexivity).
      rewrite !zlen_app, zlen_drop in Z0. lia. }
    cbn [cp_loop fold_body]. destruct (Z.ltb_spec off (zlen s)) as [LT | LT]; [| lia].
    rewrite <- app_assoc in E.
    destruct (get_code_point_spec s off B ltac:(lia)) as [X _]. rewrite (X _ _ _ E WC). cbn [obind].
    destruct (body cp a) as [[a' []] | | |]; cbn [obind]; auto.
    apply IH; [lia | | lia].
    assert (ED : zdrop (off + zlen c) s = zdrop (zlen c) (zdrop off s)) by (rewrite zdrop_zdrop; f_equal; lia).
    rewrite ED, E.
    rewrite zdrop_app_r, Z.sub_diag, zdrop_0 by lia. reflexivity.
Qed.

Lemma cp_while_ok {A} (body : Z -> A -> outcome (A * bool)) t cps rest a :
  Forall in_u8 (t ++ rest) -> wf_utf8 t cps -> (rest = [] \/ no_char rest) ->
  cp_while (t ++ rest) body a =
    let! (a', last) := fold_body body cps a in
    if last : bool then Ret a' else match rest with [] => Ret a' | _ => Die e_invalid end.
Proof.
  intros B W R. unfold cp_while. pose proof (zlen_nonneg rest). pose proof (zlen_nonneg t).
  apply (cp_loop_ok body (t ++ rest) t cps rest B W R).
  - rewrite zlen_app. lia.
  - apply zdrop_0. lia.
  - rewrite zlen_app. lia.
Qed.

Lemma fold_pure {A} (f : Z -> A -> A) cps a :
  fold_body (fun cp a => Ret (f cp a, false)) cps a = Ret (fold_left (fun a cp => f cp a) cps a, false).
Proof. revert a. induction cps as [| cp cps IH]; intros a; [reflexivity |]. cbn [fold_body obind fold_left]. apply IH. Qed.

Lemma cp_while_pure {A} (f : Z -> A -> A) s a :
  Forall in_u8 s ->
  match cp_while s (fun cp a => Ret (f cp a, false)) a with
  | Ret a' => exists cps, wf_utf8 s cps /\ a' = fold_left (fun a cp => f cp a) cps a
  | Die _ => ~ valid_utf8 s
  | _ => False
  end.
Proof.
  intros B. destruct (decode s B) as (t & cps & rest & -> & W & R). rewrite (cp_while_ok _ t cps rest a B W R).
  rewrite fold_pure. cbn [obind]. destruct rest as [| b r].
  - exists cps. rewrite app_nil_r. auto.
  - apply (wf_utf8_invalid t cps); auto. destruct R; [discriminate | auto].
Qed.

Lemma fold_snoc {B} (g : Z -> B) cps (l : list B) : fold_left (fun l cp => l ++ [g cp]) cps l = l ++ map g cps.
Proof.
  revert l. induction cps as [| cp cps IH]; intros l; cbn [fold_left map]; [rewrite app_nil_r; auto |].
  rewrite IH, <- app_assoc. reflexivity.
Qed.

Lemma wf_utf8_count s cps : wf_utf8 s cps -> zlen cps <= zlen s.
Proof.
  induction 1 as [| c cp s cps WC W IH]; [lia |]. rewrite zlen_cons, zlen_app. pose proof (wf_char_len _ _ WC). lia.
Qed.

Lemma fold_count (cps : list Z) n : 0 <= n -> n + zlen cps <= INT32_MAX -> fold_left (fun n _ => wrap32 (n + 1)) cps n = n + zlen cps.
Proof.
  revert n. induction cps as [| cp cps IH]; intros n N L; cbn [fold_left]; [rewrite zlen_nil; lia |].
  rewrite zlen_cons in *. pose proof (zlen_nonneg cps). rewrite wrap32_id by (unfold in_i32; lia). rewrite IH by lia. lia.
Qed.

(** ** chr *)
Lemma chr_ok cp : match chr cp with Some c => wf_char c cp | None => ~ scalar cp end.
Proof.
  unfold chr. destruct (is_unicode_scalar_value cp) eqn:E.
  - apply encode_wf, is_scalar_spec. auto.
  - rewrite <- is_scalar_spec, E. discriminate.
Qed.

Lemma chr_wf c cp : wf_char c cp -> chr cp = Some c.
Proof.
  intros W. pose proof (chr_ok cp) as H. destruct (chr cp) as [c' |].
  - f_equal. eapply wf_char_inj; eauto.
  - exfalso. apply H. eapply wf_char_scalar; eauto.
Qed.

Lemma char_string c cp : wf_char c cp -> is_string c.
Proof. intros W. split; [exact (wf_char_bytes _ _ W) | pose proof (wf_char_len _ _ W); lia]. Qed.

Lemma push_chr_ok a b cp :
  Inv a b -> zlen (bs a) + 4 <= max_length ->
  match chr cp with
  | Some c => exists b', push_chr cp b = Ret b' /\ Inv (mk_bytestr (bs a ++ c) (stale a) (room a)) b'
  | None => exists e, push_chr cp b = Die e
  end.
Proof.
  intros I L. pose proof (chr_ok cp) as H. unfold push_chr. destruct (chr cp) as [c |].
  - pose proof (wf_char_len _ _ H). destruct (push_whole a b c I (char_string _ _ H) ltac:(lia)) as (b' & -> & I'). eauto.
  - eexists. reflexivity.
Qed.

(** ** utf8_substr *)
Definition in_range (off n i : Z) : bool := (off <=? i) && ((n <? 0) || (i <? off + n)).


(** The code points at the places [cur], [cur + 1], ... that are in the range. *)
Fixpoint selected (off n cur : Z) (cps : list Z) : list Z :=
  match cps with
  | [] => []
  | cp :: cps => (if in_range off n cur then [cp] else []) ++ selected off n (cur + 1) cps
  end.

Lemma selected_after off n cur cps : 0 <= n -> off + n <= cur -> selected off n cur cps = [].
Proof.
  revert cur. induction cps as [| cp cps IH]; intros cur N L; [reflexivity |]. cbn [selected].
  rewrite IH by lia. unfold in_range. destruct (Z.ltb_spec n 0); [lia |]. destruct (Z.ltb_spec cur (off + n)); [lia |].
  rewrite andb_false_r. reflexivity.
Qed.

Lemma selected_range off n cps : 0 <= off -> selected off n 0 cps = cp_range cps off n.
Proof.
  intros O.
  assert (G1 : forall cps cur, n < 0 -> selected off n cur cps = zdrop (off - cur) cps).
  { clear. induction cps as [| cp cps IH]; intros cur N; cbn [selected]; [zext |].
    rewrite IH by auto. unfold in_range. destruct (Z.ltb_spec n 0); [| lia]. cbn [orb]. rewrite andb_true_r.
    destruct (Z.leb_spec off cur); cbn [app].
    - rewrite !zdrop_0 by lia. reflexivity.
    - change (cp :: cps) with ([cp] ++ cps). rewrite zdrop_app_r by (rewrite zlen_cons, zlen_nil; lia).
      rewrite zlen_cons, zlen_nil. f_equal. lia. }
  assert (G2 : forall cps cur, 0 <= n -> selected off n cur cps = zsub cps (off - cur) (off + n - Z.max cur off)).
  { clear. induction cps as [| cp cps IH]; intros cur N; cbn [selected]; [zext |].
    rewrite IH by auto. unfold in_range. destruct (Z.ltb_spec n 0); [lia |]. cbn [orb].
    change (cp :: cps) with ([cp] ++ cps). assert (L1 : zlen [cp] = 1) by reflexivity.
    destruct (Z.leb_spec off cur); cbn [andb]; [destruct (Z.ltb_spec cur (off + n)) |]; cbn [app]; unfold zsub.
    - change (cp :: cps) with ([cp] ++ cps). rewrite !zdrop_0 by lia. rewrite ztake_app_r by lia. rewrite L1.
      cbn [app]. f_equal. f_equal. lia.
    - rewrite !ztake_0 by lia. reflexivity.
    - change (cp :: cps) with ([cp] ++ cps). rewrite zdrop_app_r by lia. rewrite L1. f_equal; [lia |]. f_equal. lia. }
  unfold cp_range. destruct (Z.ltb_spec n 0).
  - rewrite G1 by auto. f_equal. lia.
  - rewrite G2 by auto. f_equal; lia.
Qed.

Lemma fold_substr off n cps t : wf_utf8 t cps -> forall a b cur,
  Inv a b -> 0 <= cur -> 0 <= off -> in_i32 off -> in_i32 n -> off + n <= INT32_MAX ->
  cur + zlen cps <= INT32_MAX -> zlen (bs a) + 4 * zlen cps <= max_length ->
  exists a' b' cur' last u, fold_body (utf8_substr_body off n) cps (b, cur) = Ret (b', cur', last) /\ Inv a' b' /\
    bs a' = bs a ++ u /\ wf_utf8 u (selected off n cur cps) /\
    (last = false -> cur' = cur + zlen cps) /\
    (last = true -> 0 <= n /\ off + n <= cur' < cur + zlen cps).
Proof.
  intros W. induction W as [| c cp t cps WC W IH]; intros a b cur I C O OI NI S CL BL.
  - exists a, b, cur, false, []. rewrite app_nil_r, zlen_nil. cbn [fold_body selected].
    split; [reflexivity |]. split; [exact I |]. split; [reflexivity |]. split; [constructor |]. split; [lia | discriminate].
  - cbn [fold_body selected]. unfold utf8_substr_body at 1. rewrite zlen_cons in *. pose proof (zlen_nonneg cps).
    unfold in_i32 in OI, NI. unfold in_range.
    assert (PUSH : exists a' b' cur' last u,
      (let! (a0, last0) := (let! b0 := push_chr cp b in Ret (b0, wrap32 (cur + 1), false)) in
       if last0 : bool then Ret (a0, true) else fold_body (utf8_substr_body off n) cps a0) = Ret (b', cur', last) /\ Inv a' b' /\
      bs a' = bs a ++ u /\ wf_utf8 u ([cp] ++ selected off n (cur + 1) cps) /\
      (last = false -> cur' = cur + (1 + zlen cps)) /\ (last = true -> 0 <= n /\ off + n <= cur' < cur + (1 + zlen cps))).
    { pose proof (push_chr_ok a b cp I ltac:(lia)) as P. rewrite (chr_wf _ _ WC) in P. destruct P as (b1 & -> & I1).
      cbn [obind]. rewrite wrap32_id by (unfold in_i32; lia). pose proof (wf_char_len _ _ WC).
      destruct (IH _ _ (cur + 1) I1) as (a' & b' & cur' & last & u & E & I' & EB & WU & L1 & L2);
        try lia; try (unfold in_i32; lia); [cbn [bs]; rewrite zlen_app; lia |].
      exists a', b', cur', last, (c ++ u). split; [exact E |]. split; [exact I' |].
      split; [rewrite EB; cbn [bs]; rewrite app_assoc; reflexivity |]. split; [constructor; auto |].
      split; intros X; [specialize (L1 X) | specialize (L2 X)]; lia. }
    destruct (Z.ltb_spec cur off) as [CO | CO].
    + destruct (Z.leb_spec off cur); [lia |]. cbn [andb app]. change (-1 =? 0) with false. change (-1 =? 1) with false.
      cbn iota. cbn [obind]. rewrite wrap32_id by (unfold in_i32; lia).
      destruct (IH a b (cur + 1) I) as (a' & b' & cur' & last & u & E & I' & EB & WU & L1 & L2);
        try lia; try (unfold in_i32; lia).
      exists a', b', cur', last, u. split; [exact E |]. split; [exact I' |]. split; [exact EB |]. split; [exact WU |].
      split; intros X; [specialize (L1 X) | specialize (L2 X)]; lia.
    + destruct (Z.leb_spec off cur); [| lia]. cbn [andb]. destruct (Z.ltb_spec n 0) as [N0 | N0]; cbn [orb].
      * change (0 =? 0) with true. cbn iota. exact PUSH.
      * rewrite wrap32_id by (unfold in_i32; lia). destruct (Z.ltb_spec cur (off + n)) as [CN | CN].
        -- change (0 =? 0) with true. cbn iota. exact PUSH.
        -- change (1 =? 0) with false. change (1 =? 1) with true. cbn iota. cbn [obind app].
           exists a, b, cur, true, []. rewrite app_nil_r, selected_after by lia.
           split; [reflexivity |]. split; [exact I |]. split; [reflexivity |]. split; [constructor |]. split; [discriminate | lia].
Qed.

Lemma utf8_substr_ok s cps off n :
  wf_utf8 s cps -> in_i32 off -> in_i32 n -> off + n <= INT32_MAX -> 4 * zlen s <= max_length ->
  match utf8_substr (Some s) off n with
  | Ret u => 0 <= off /\ (0 <= n -> off + n <= zlen cps) /\ wf_utf8 u (cp_range cps off n)
  | Die _ => off < 0 \/ (0 <= n /\ zlen cps < off + n)
  | _ => False
  end.
Proof.
  intros W OI NI SM L. unfold utf8_substr. destruct (Z.geb_spec off 0) as [O | O]; [| lia].
  destruct (new_ok None (-1)) as (b & -> & I); [exact Logic.I | unfold max_capacity; lia |]. cbn [obind].
  pose proof (wf_utf8_bytes _ _ W) as B. pose proof (wf_utf8_count _ _ W) as CN. unfold max_length in L.
  pose proof (cp_while_ok (utf8_substr_body off n) s cps [] (b, 0)) as E. rewrite app_nil_r in E.
  rewrite E by auto. clear E.
  destruct (fold_substr off n cps s W _ b 0 I) as (a' & b' & cur & last & u & E & I' & EB & WU & L1 & L2);
    try lia; auto.
  { cbn [bs given]. rewrite zlen_nil. unfold max_length. lia. }
  rewrite E. cbn [obind].
  assert (EI : (if last then Ret (b', cur) else Ret (b', cur)) = Ret (b', cur)) by (destruct last; reflexivity).
  rewrite EI. cbn [obind]. rewrite (to_string_ok _ _ I'). cbn [snd]. rewrite selected_range in WU by auto.
  rewrite Z.geb_leb. destruct (Z.leb_spec 0 n) as [N | N]; cbn [negb orb].
  - rewrite wrap32_id by (unfold in_i32 in *; lia). destruct (Z.leb_spec (off + n) cur) as [K | K].
    + rewrite EB. cbn [bs given app]. split; auto. split; auto. intros _.
      destruct last; [specialize (L2 eq_refl) | specialize (L1 eq_refl)]; lia.
    + right. split; auto. destruct last; [specialize (L2 eq_refl) | specialize (L1 eq_refl)]; lia.
  - rewrite EB. cbn [bs given app]. split; auto. split; [lia | auto].
Qed.

(** ** _parse_range *)
Lemma fold_parse_tail cps mn mx i : 3 <= i -> i + zlen cps <= INT32_MAX ->
  fold_body parse_range_body cps (mn, mx, i) = Ret (mn, mx, i + zlen cps, false).
Proof.
  revert i. induction cps as [| cp cps IH]; intros i I L; [cbn; rewrite zlen_nil; f_equal; f_equal; f_equal; lia |].
  rewrite zlen_cons in *. pose proof (zlen_nonneg cps). cbn [fold_body]. unfold parse_range_body at 1.
  destruct (Z.eqb_spec i 0); [lia |]. destruct (Z.eqb_spec i 1); [lia |]. destruct (Z.eqb_spec i 2); [lia |].
  cbn [obind]. rewrite wrap32_id by (unfold in_i32; lia). rewrite IH by lia. f_equal. f_equal. f_equal. lia.
Qed.

Lemma parse_range_ok p :
  is_string p ->
  match parse_range p with
  | Ret (lo, hi) => (wf_utf8 p [lo] /\ lo = hi) \/ (exists more, wf_utf8 p (lo :: 45 :: hi :: more) /\ lo <= hi)
  | Die _ => ~ exists lo hi, (wf_utf8 p [lo] /\ lo = hi) \/ (exists more, wf_utf8 p (lo :: 45 :: hi :: more) /\ lo <= hi)
  | _ => False
  end.
Proof.
  intros [B LP]. unfold parse_range. destruct (decode p B) as (t & cps & rest & E & W & R). subst p.
  rewrite (cp_while_ok _ t cps rest _ B W R).
  assert (CL : zlen cps < INT32_MAX).
  { pose proof (wf_utf8_count _ _ W). rewrite zlen_app in LP. pose proof (zlen_nonneg rest). lia. }
  assert (INV : rest <> [] -> ~ exists lo hi, (wf_utf8 (t ++ rest) [lo] /\ lo = hi) \/ (exists more, wf_utf8 (t ++ rest) (lo :: 45 :: hi :: more) /\ lo <= hi)).
  { intros N. destruct R as [R | R]; [congruence |]. pose proof (wf_utf8_invalid t cps rest W R) as V.
    intros (lo & hi & [[X _] | (more & X & _)]); apply V; eexists; exact X. }
  assert (UNI : rest = [] -> forall l, wf_utf8 (t ++ rest) l -> l = cps).
  { intros -> l X. rewrite app_nil_r in X. eapply wf_utf8_fun; eauto. }
  destruct cps as [| c0 [| c1 [| c2 more]]].
  - cbn. destruct rest; cbn.
    + intros (lo & hi & [[X _] | (more & X & _)]); apply UNI in X; auto; discriminate.
    + apply INV. discriminate.
  - cbn. destruct rest.
    + cbn [obind]. pose proof (wf_utf8_count _ _ W).
      assert (S0 : 0 <= c0). { inversion W; subst. match goal with H : wf_char _ c0 |- _ => apply wf_char_scalar in H; unfold scalar in H; lia end. }
      change (wrap32 (0 + 1)) with 1. change (1 =? 3) with false. change (1 =? 1) with true. cbn [negb]. cbn iota.
      destruct (Z.ltb_spec c0 0); [lia |]. cbn [negb obind]. destruct (Z.leb_spec c0 c0); [| lia]. left. rewrite app_nil_r. auto.
    + apply INV. discriminate.
  - cbn [fold_body]. unfold parse_range_body at 1. change (0 =? 0) with true. cbn iota. cbn [obind].
    change (wrap32 (0 + 1)) with 1. unfold parse_range_body. change (1 =? 0) with false. change (1 =? 1) with true. cbn iota.
    destruct (Z.eqb_spec c1 45) as [-> | N]; cbn [obind].
    + destruct rest.
      * cbn. intros (lo & hi & [[X _] | (more & X & _)]); apply UNI in X; auto; discriminate.
      * apply INV. discriminate.
    + intros (lo & hi & [[X _] | (more & X & _)]).
      * destruct rest as [| r0 rest]; [apply UNI in X; auto; discriminate |].
        destruct R as [R | R]; [discriminate |]. apply (wf_utf8_invalid t _ _ W R). eexists. exact X.
      * destruct rest as [| r0 rest]; [apply UNI in X; auto; discriminate |].
        destruct R as [R | R]; [discriminate |]. apply (wf_utf8_invalid t _ _ W R). eexists. exact X.
  - cbn [fold_body]. unfold parse_range_body at 1. change (0 =? 0) with true. cbn iota. cbn [obind].
    change (wrap32 (0 + 1)) with 1. unfold parse_range_body at 1. change (1 =? 0) with false. change (1 =? 1) with true. cbn iota.
    destruct (Z.eqb_spec c1 45) as [-> | N]; cbn [obind].
    2: { intros (lo & hi & [[X _] | (more' & X & _)]).
      * destruct rest; [apply UNI in X; auto; discriminate |]. destruct R as [R | R]; [discriminate |].
        apply (wf_utf8_invalid t _ _ W R). eexists. exact X.
      * destruct rest as [| r0 rest].
        { apply UNI in X; auto. congruence. }
        destruct R as [R | R]; [discriminate |]. apply (wf_utf8_invalid t _ _ W R). eexists. exact X. }
    change (wrap32 (1 + 1)) with 2. unfold parse_range_body at 1. change (2 =? 0) with false. change (2 =? 1) with false.
    change (2 =? 2) with true. cbn iota. cbn [obind]. change (wrap32 (2 + 1)) with 3.
    rewrite !zlen_cons in CL. rewrite fold_parse_tail by lia. cbn [obind].
    destruct rest; [| apply INV; discriminate]. cbn [obind].
    assert (S2 : 0 <= c2).
    { clear - W. inversion W as [| ? ? ? ? _ W1]; subst. inversion W1 as [| ? ? ? ? _ W2]; subst.
      inversion W2 as [| ? ? ? ? W3 _]; subst. apply wf_char_scalar in W3. unfold scalar in W3. lia. }
    pose proof (zlen_nonneg more).
    assert (EM : (if negb (3 + zlen more =? 3)
       then check! negb ((if 3 + zlen more =? 1 then c0 else c2) <? 0)
            else "The range format of the argument name $arg_name must be 1 or 3 characters." in Ret (if 3 + zlen more =? 1 then c0 else c2)
       else Ret c2) = Ret c2).
    { destruct (Z.eqb_spec (3 + zlen more) 3); cbn [negb]; auto. destruct (Z.eqb_spec (3 + zlen more) 1); [lia |].
      destruct (Z.ltb_spec c2 0); [lia | reflexivity]. }
    rewrite EM. cbn [obind]. destruct (Z.leb_spec c0 c2).
    + right. exists more. rewrite app_nil_r. auto.
    + intros (lo & hi & [[X _] | (more' & X & LE)]); apply UNI in X; auto; [discriminate |]. injection X as -> -> _. lia.
Qed.

(** ** tr *)
Lemma fold_tr lo hi to cps t : wf_utf8 t cps -> 0 <= lo -> 0 <= to <= 0x10FFFF -> forall a b,
  Inv a b -> zlen (bs a) + 4 * zlen cps <= max_length ->
  (exists b' a' u, fold_body (tr_body lo hi to) cps b = Ret (b', false) /\ Inv a' b' /\ bs a' = bs a ++ u /\
     wf_utf8 u (map (translated lo hi to) cps)) \/
  ((exists cp, In cp cps /\ ~ scalar (translated lo hi to cp)) /\ exists e, fold_body (tr_body lo hi to) cps b = Die e).
Proof.
  intros W LO TO. induction W as [| c cp t cps WC W IH]; intros a b I L.
  - left. exists b, a, []. rewrite app_nil_r. split; [reflexivity |]. split; [exact I |]. split; [reflexivity | constructor].
  - rewrite zlen_cons in L. pose proof (zlen_nonneg cps). cbn [fold_body map].
    assert (SC : 0 <= cp <= 0x10FFFF) by (apply wf_char_scalar in WC; unfold scalar in WC; lia).
    assert (EB : tr_body lo hi to cp b = let! b := push_chr (translated lo hi to cp) b in Ret (b, false)).
    { unfold tr_body, translated. rewrite Z.geb_leb. destruct (Z.leb_spec lo cp); cbn [andb]; [| reflexivity].
      destruct (Z.leb_spec cp hi); cbn [andb]; [| reflexivity].
      rewrite (wrap32_id (cp - lo)) by (unfold in_i32; lia). rewrite wrap32_id by (unfold in_i32; lia). reflexivity. }
    rewrite EB. set (cp' := translated lo hi to cp). pose proof (push_chr_ok a b cp' I ltac:(lia)) as P.
    pose proof (chr_ok cp') as CO. destruct (chr cp') as [c' |].
    + destruct P as (b1 & -> & I1). cbn [obind]. pose proof (wf_char_len _ _ CO).
      destruct (IH _ _ I1) as [(b' & a' & u & E & I' & EU & WU) | [(x & IN & NS) (e & E)]]; [cbn [bs]; rewrite zlen_app; lia | |].
      * left. exists b', a', (c' ++ u). split; [exact E |]. split; [exact I' |].
        split; [rewrite EU; cbn [bs]; rewrite app_assoc; reflexivity |]. constructor; auto.
      * right. split; [exists x; split; [right; auto | auto] | exists e; exact E].
    + destruct P as (e & ->). cbn [obind]. right. split; [exists cp; split; [left; auto | exact CO] | exists e; reflexivity].
Qed.
