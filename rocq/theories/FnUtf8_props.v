(** * C45, C46: code points of strings, tr *)
From Verif Require Import Base StM CLib Utf8_model Utf8_spec Utf8_proofs FnStr_model FnStr_spec StrBuf_model StrBuf_spec StrBuf_proofs.
From Verif Require Import FnSplit_model FnSplit_spec FnSplit_proofs FnUtf8_model FnUtf8_spec FnUtf8_proofs.

(** ** C45 *)

(** A string is the UTF-8 form of at most one list of code points, and the
    other way round. *)
Theorem C45_utf8_unique s t cps cps' :
  (wf_utf8 s cps -> wf_utf8 s cps' -> cps = cps') /\ (wf_utf8 s cps -> wf_utf8 t cps -> s = t).
Proof. split; [apply wf_utf8_fun | apply wf_utf8_inj]. Qed.
Print Assumptions C45_utf8_unique.

Theorem C45_to_code_points s :
  is_string s ->
  match to_code_points (Some s) with
  | Ret cps => wf_utf8 s cps
  | Die _ => ~ valid_utf8 s
  | _ => False
  end.
Proof.
  intros [B _]. pose proof (cp_while_pure (fun cp l => l ++ [cp]) s [] B) as H. unfold to_code_points.
  destruct (cp_while s _ _); auto. destruct H as (cps & W & ->). rewrite (fold_snoc (fun cp => cp)), map_id. auto.
Qed.
Print Assumptions C45_to_code_points.

Theorem C45_utf8_length s :
  is_string s ->
  match utf8_length (Some s) with
  | Ret n => exists cps, wf_utf8 s cps /\ n = zlen cps
  | Die _ => ~ valid_utf8 s
  | _ => False
  end.
Proof.
  intros [B L]. pose proof (cp_while_pure (fun _ n => wrap32 (n + 1)) s 0 B) as H. unfold utf8_length.
  destruct (cp_while s _ _); auto. destruct H as (cps & W & ->). exists cps. split; auto.
  pose proof (wf_utf8_count _ _ W). rewrite fold_count by lia. lia.
Qed.
Print Assumptions C45_utf8_length.

(** to_utf8_chars: the UTF-8 forms of the code points, which make up the string. *)
Theorem C45_to_utf8_chars s :
  is_string s ->
  match to_utf8_chars (Some s) with
  | Ret l => exists cps chars, wf_utf8 s cps /\ l = map Some chars /\ Forall2 wf_char chars cps /\ List.concat chars = s
  | Die _ => ~ valid_utf8 s
  | _ => False
  end.
Proof.
  intros [B _]. pose proof (cp_while_pure (fun cp l => l ++ [chr cp]) s [] B) as H. unfold to_utf8_chars.
  destruct (cp_while s _ _); auto. destruct H as (cps & W & ->). rewrite (fold_snoc chr). cbn [app].
  assert (G : exists chars, map chr cps = map Some chars /\ Forall2 wf_char chars cps /\ List.concat chars = s).
  { clear B. induction W as [| c cp s cps WC W (chars & E & F & C)]; [exists []; auto |].
    exists (c :: chars). cbn [map List.concat]. rewrite (chr_wf _ _ WC), E, C. auto. }
  destruct G as (chars & E & F & C). exists cps, chars. auto.
Qed.
Print Assumptions C45_to_utf8_chars.

(** chr: the UTF-8 form of a Unicode scalar value, undef for other numbers.
    ord: the first code point. *)
Theorem C45_chr cp :
  match chr cp with Some c => scalar cp /\ wf_char c cp | None => ~ scalar cp end.
Proof. pose proof (chr_ok cp) as H. destruct (chr cp); auto. split; auto. eapply wf_char_scalar; eauto. Qed.
Print Assumptions C45_chr.

Theorem C45_ord s :
  is_string s ->
  match ord (Some s) with
  | Ret cp => exists c t, s = c ++ t /\ wf_char c cp
  | Die _ => ~ exists c t cp, s = c ++ t /\ wf_char c cp
  | _ => False
  end.
Proof.
  intros [B _]. unfold ord. destruct (char_dec s B) as [-> | [(c & cp & t & -> & W) | [N NC]]].
  - cbn. intros (c & t & cp & E & W). symmetry in E. apply app_eq_nil in E as [-> _]. inversion W.
  - pose proof (wf_char_len _ _ W). pose proof (zlen_nonneg t).
    destruct (get_code_point_spec (c ++ t) 0 B) as [X _]; [rewrite zlen_app; lia |].
    rewrite (X c cp t) by (auto; apply zdrop_0; lia). cbn [obind]. eauto.
  - assert (0 < zlen s) by (destruct s; [congruence |]; rewrite zlen_cons; pose proof (zlen_nonneg s); lia).
    destruct (get_code_point_spec s 0 B ltac:(lia)) as [_ X]. rewrite X by (rewrite zdrop_0 by lia; auto). cbn [obind].
    intros (c & t & cp & E & W). apply NC. eauto.
Qed.
Print Assumptions C45_ord.

(** look_code_point leaves the offset. *)
Theorem C45_look_code_point s off :
  match look_code_point s off, get_code_point s off with
  | Ret (off', cp), Ret (_, cp') => off' = off /\ cp = cp'
  | Die e, Die e' => e = e'
  | Ret _, _ | _, Ret _ | Die _, _ | _, Die _ => False
  | _, _ => True
  end.
Proof. unfold look_code_point. destruct (get_code_point s off) as [[o c] | | |]; cbn [obind]; auto. Qed.
Print Assumptions C45_look_code_point.

(** chr on every code point, joined, gives the string back. *)
Theorem C45_round_trip s :
  is_string s -> valid_utf8 s -> zlen s <= max_length ->
  exists cps, to_code_points (Some s) = Ret cps /\ join (Some []) (Some (map chr cps)) = Ret s.
Proof.
  intros S (cps & W) L. pose proof (C45_to_code_points s S) as H.
  destruct (to_code_points (Some s)) as [l | | |]; try tauto; [| exfalso; apply H; exists cps; exact W].
  assert (l = cps) by (eapply wf_utf8_fun; eauto). subst l. exists cps. split; auto.
  assert (EJ : joined [] (map text (map chr cps)) = s).
  { clear - W. induction W as [| c cp s cps WC W IH]; [reflexivity |].
    cbn [map joined]. rewrite (chr_wf _ _ WC). cbn [text]. destruct (map text (map chr cps)) eqn:E.
    - cbn in IH. subst s. rewrite app_nil_r. reflexivity.
    - cbn [app]. f_equal. exact IH. }
  rewrite join_ok, EJ; auto.
  - split; [constructor | reflexivity].
  - apply Forall_forall. intros x X. apply in_map_iff in X as (cp & <- & IN). pose proof (chr_ok cp) as C.
    destruct (chr cp); cbn; auto. eapply char_string; eauto.
  - pose proof (wf_utf8_count _ _ W). unfold zlen in *. rewrite map_length. unfold max_length in L. lia.
  - rewrite EJ. auto.
Qed.
Print Assumptions C45_round_trip.

(** utf8_substr: the code points of the range.  Missing: an offset and a length
    whose sum is no int (below). *)
Theorem C45_utf8_substr_partial s cps off n :
  wf_utf8 s cps -> in_i32 off -> in_i32 n -> off + n <= INT32_MAX -> 4 * zlen s <= max_length ->
  match utf8_substr (Some s) off n with
  | Ret u => 0 <= off /\ (0 <= n -> off + n <= zlen cps) /\ wf_utf8 u (cp_range cps off n)
  | Die _ => off < 0 \/ (0 <= n /\ zlen cps < off + n)
  | _ => False
  end.
Proof. apply utf8_substr_ok. Qed.
Print Assumptions C45_utf8_substr_partial.

(** An invalid string throws if the invalid place is before the end of the
    range or right behind it. *)
Theorem C45_utf8_substr_invalid_partial t cps rest off n :
  is_string (t ++ rest) -> wf_utf8 t cps -> rest <> [] -> (~ exists c cp u, rest = c ++ u /\ wf_char c cp) ->
  in_i32 off -> in_i32 n -> off + n <= INT32_MAX -> 4 * zlen t <= max_length ->
  n < 0 \/ zlen cps <= off + n -> exists e, utf8_substr (Some (t ++ rest)) off n = Die e.
Proof.
  intros [B SL] W NE NC OI NI SM L C. unfold utf8_substr. destruct (Z.geb_spec off 0) as [O | O]; [| eauto].
  destruct (new_ok None (-1)) as (b & -> & I); [exact Logic.I | unfold max_capacity; lia |]. cbn [obind].
  pose proof (wf_utf8_count _ _ W) as CN. unfold max_length in L.
  rewrite (cp_while_ok _ t cps rest _ B W) by (right; split; auto).
  destruct (fold_substr off n cps t W _ b 0 I) as (a' & b' & cur & last & u & E & I' & EB & WU & L1 & L2); try lia; auto.
  { cbn [bs given]. rewrite zlen_nil. unfold max_length. lia. }
  rewrite E. cbn [obind]. destruct last; [specialize (L2 eq_refl); lia |].
  destruct rest; [congruence |]. cbn [obind]. eauto.
Qed.
Print Assumptions C45_utf8_substr_invalid_partial.

(** Invalid bytes behind the range are not noticed, though documented to throw:
    "ab\xFF", 0, 1. *)
Theorem C45_utf8_substr_invalid_refuted :
  exists s, is_string s /\ ~ valid_utf8 s /\ utf8_substr (Some s) 0 1 = Ret [97].
Proof.
  exists [97; 98; 255]. split; [split; [repeat constructor; lia | reflexivity] |]. split; [| reflexivity].
  change [97; 98; 255] with ([97; 98] ++ [255]). apply (wf_utf8_invalid _ [97; 98]).
  - change [97; 98] with ([97] ++ [98] ++ []) at 1. repeat constructor; unfold byte_in; lia.
  - split; [discriminate |]. intros (c & cp & t & E & W).
    inversion W; subst; cbn [app] in E; inversion E; subst; unfold byte_in in *; lia.
Qed.
Print Assumptions C45_utf8_substr_invalid_refuted.

(** An offset and a length beyond the string do not throw if their sum wraps
    around: "ab", 1, INT_MAX. *)
Theorem C45_utf8_substr_overflow_refuted :
  exists s cps, wf_utf8 s cps /\ zlen cps < 1 + INT32_MAX /\ utf8_substr (Some s) 1 INT32_MAX = Ret [].
Proof.
  exists [97; 98], [97; 98]. split; [| split; reflexivity].
  change [97; 98] with ([97] ++ [98] ++ []) at 1. repeat constructor; unfold byte_in; lia.
Qed.
Print Assumptions C45_utf8_substr_overflow_refuted.

Theorem C45_undef off n :
  (exists e, to_code_points None = Die e) /\ (exists e, to_utf8_chars None = Die e) /\ (exists e, utf8_length None = Die e) /\
  (exists e, utf8_substr None off n = Die e) /\ exists e, ord None = Die e.
Proof. repeat split; eexists; reflexivity. Qed.
Print Assumptions C45_undef.

(** ** C46 *)

(** tr: every code point between the ends of the pattern range is replaced by
    the one with the same distance from the start of the replacement range; the
    others stay.  An exception exactly if a string is invalid, a range is
    malformed, or a replacement is no Unicode scalar value.  Missing: range
    texts of more than three characters (below). *)
Theorem C46_tr_partial s p r :
  is_string s -> is_string p -> is_string r -> 4 * zlen s <= max_length ->
  (forall cps, wf_utf8 p cps \/ wf_utf8 r cps -> zlen cps <= 3) ->
  match tr (Some s) (Some p) (Some r) with
  | Ret t => exists lo hi to to_hi cps, range_text p lo hi /\ range_text r to to_hi /\ wf_utf8 s cps /\
      wf_utf8 t (map (translated lo hi to) cps)
  | Die _ => ~ exists lo hi to to_hi cps, range_text p lo hi /\ range_text r to to_hi /\ wf_utf8 s cps /\
      Forall (fun cp => scalar (translated lo hi to cp)) cps
  | _ => False
  end.
Proof.
  intros [B SL] P R L SHORT.
  assert (RT : forall q, is_string q -> (q = p \/ q = r) ->
    match parse_range q with
    | Ret (lo, hi) => range_text q lo hi /\ 0 <= lo <= 0x10FFFF /\ forall lo' hi', range_text q lo' hi' -> lo' = lo /\ hi' = hi
    | Die _ => ~ exists lo hi, range_text q lo hi
    | _ => False
    end).
  { intros q Q PR. pose proof (parse_range_ok q Q) as H.
    assert (SC : forall lo l, wf_utf8 q (lo :: l) -> 0 <= lo <= 0x10FFFF).
    { intros lo l W. inversion W as [| ? ? ? ? WC _]; subst. apply wf_char_scalar in WC. unfold scalar in WC. lia. }
    destruct (parse_range q) as [[lo hi] | e | |]; auto.
    - destruct H as [[W ->] | (more & W & LE)].
      + split; [right; auto |]. split; [eapply SC; eauto |].
        intros lo' hi' [[W' _] | [W' ->]]; pose proof (wf_utf8_fun _ _ _ W W') as X; [discriminate | injection X as ->; auto].
      + assert (more = []).
        { specialize (SHORT (lo :: 45 :: hi :: more)). destruct more as [| m more]; auto. exfalso.
          assert (zlen (lo :: 45 :: hi :: m :: more) <= 3) by (apply SHORT; destruct PR as [-> | ->]; auto).
          rewrite !zlen_cons in H. pose proof (zlen_nonneg more). lia. }
        subst more. split; [left; auto |]. split; [eapply SC; eauto |].
        intros lo' hi' [[W' _] | [W' ->]]; pose proof (wf_utf8_fun _ _ _ W W') as X; [injection X as -> ->; auto | discriminate].
    - intros (lo & hi & X). apply H. exists lo, hi. destruct X as [[W LE] | X]; [right; exists []; auto | left; auto]. }
  unfold tr. pose proof (RT p P (or_introl eq_refl)) as HP. destruct (parse_range p) as [[lo hi] | e | |]; try tauto.
  2: { cbn [obind]. intros (lo & hi & to & to_hi & cps & X & _). apply HP. eauto. }
  cbn [obind]. pose proof (RT r R (or_intror eq_refl)) as HR. destruct (parse_range r) as [[to to_hi] | e | |]; try tauto.
  2: { cbn [obind]. intros (lo' & hi' & to' & to_hi' & cps & _ & X & _). apply HR. eauto. }
  cbn [obind]. destruct HP as (TP & LO & UP). destruct HR as (TR & TO & UR).
  destruct (new_ok None (-1)) as (b & -> & I); [exact Logic.I | unfold max_capacity; lia |]. cbn [obind].
  destruct (decode s B) as (t & cps & rest & -> & W & RS). rewrite (cp_while_ok _ t cps rest _ B W RS).
  assert (CN : 4 * zlen cps <= max_length).
  { pose proof (wf_utf8_count _ _ W). rewrite zlen_app in L. pose proof (zlen_nonneg rest). lia. }
  assert (INV : rest <> [] -> ~ valid_utf8 (t ++ rest)).
  { intros N. apply (wf_utf8_invalid t cps); auto. destruct RS; [congruence | auto]. }
  destruct (fold_tr lo hi to cps t W ltac:(lia) TO _ b I) as [(b' & a' & u & E & I' & EU & WU) | [(cp & IN & NS) (e & E)]].
  - cbn [bs given]. rewrite zlen_nil. lia.
  - rewrite E. cbn [obind]. destruct rest as [| r0 rest].
    + cbn [obind]. rewrite (to_string_ok _ _ I'). cbn [snd]. rewrite EU. cbn [bs given app]. rewrite app_nil_r.
      exists lo, hi, to, to_hi, cps. auto.
    + cbn [obind]. intros (lo' & hi' & to' & to_hi' & cps' & _ & _ & X & _). apply INV; [discriminate |]. exists cps'. exact X.
  - rewrite E. cbn [obind]. intros (lo' & hi' & to' & to_hi' & cps' & X1 & X2 & X & F).
    destruct rest as [| r0 rest]; [| apply INV; [discriminate |]; exists cps'; exact X].
    rewrite app_nil_r in X. assert (cps' = cps) by (eapply wf_utf8_fun; eauto). subst cps'.
    destruct (UP _ _ X1) as [-> ->]. destruct (UR _ _ X2) as [-> ->].
    rewrite Forall_forall in F. exact (NS (F cp IN)).
Qed.
Print Assumptions C46_tr_partial.

(** A range text of more than three characters is documented to throw; what
    follows the third character is ignored: tr("b", "a-zX", "A"). *)
Theorem C46_long_range_refuted :
  exists s p r, is_string s /\ is_string p /\ (forall lo hi, ~ range_text p lo hi) /\
    exists t, tr (Some s) (Some p) (Some r) = Ret t.
Proof.
  exists [98], [97; 45; 122; 88], [65]. split; [split; [repeat constructor; lia | reflexivity] |].
  split; [split; [repeat constructor; lia | reflexivity] |]. split; [| eexists; reflexivity].
  assert (W : wf_utf8 [97; 45; 122; 88] [97; 45; 122; 88]).
  { change [97; 45; 122; 88] with ([97] ++ [45] ++ [122] ++ [88] ++ []) at 1. repeat constructor; unfold byte_in; lia. }
  intros lo hi [[W' _] | [W' _]]; pose proof (wf_utf8_fun _ _ _ W W'); discriminate.
Qed.
Print Assumptions C46_long_range_refuted.

Theorem C46_undef s p r :
  s = None \/ p = None \/ r = None -> exists e, tr s p r = Die e.
Proof. intros [-> | [-> | ->]]; [| destruct s | destruct s, p]; eexists; reflexivity. Qed.
Print Assumptions C46_undef.

(** "aéb" *)
Example C45_ex :
  wf_utf8 [97; 0xC3; 0xA9; 98] [97; 0xE9; 98] /\
  to_code_points (Some [97; 0xC3; 0xA9; 98]) = Ret [97; 0xE9; 98] /\
  utf8_length (Some [97; 0xC3; 0xA9; 98]) = Ret 3 /\
  utf8_substr (Some [97; 0xC3; 0xA9; 98]) 1 1 = Ret [0xC3; 0xA9] /\
  utf8_length (Some [97; 0xC3]) = Die "An invalid UTF-8 is gotten.".
Proof.
  split; [| repeat split].
  change [97; 0xC3; 0xA9; 98] with ([97] ++ [0xC3; 0xA9] ++ [98] ++ []).
  constructor; [constructor; unfold byte_in; lia |].
  constructor; [change 0xE9 with ((0xC3 - 0xC0) * 64 + (0xA9 - 0x80)); constructor; unfold tail_byte, byte_in; lia |].
  repeat constructor; unfold byte_in; lia.
Qed.
Example C46_ex :
  range_text [97; 45; 122] 97 122 /\ range_text [65] 65 65 /\
  tr (Some [97; 98; 33]) (Some [97; 45; 122]) (Some [65]) = Ret [65; 66; 33].
Proof.
  split; [left; split; [| lia] | split; [right; split; [| auto] | reflexivity]].
  - change [97; 45; 122] with ([97] ++ [45] ++ [122] ++ []) at 1. repeat constructor; unfold byte_in; lia.
  - change [65] with ([65] ++ []) at 1. repeat constructor; unfold byte_in; lia.
Qed.
