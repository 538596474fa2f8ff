(** * C50: numbers written in strings *)
From Verif Require Import Base CLib CStrto Dec FnStr_spec FnNum_model FnNum_spec FnNum_proofs VmConv_model VmConv_props.

(** A text writes at most one number. *)
Theorem C50_one_number base s v w : In base bases -> denotes base s v -> denotes base s w -> v = w.
Proof. apply denotes_fun. Qed.
Print Assumptions C50_one_number.

(** to_int_with_base, on strings that are not empty and contain no NUL, for a
    long of 64 or of 32 bits.  Missing: the empty string and strings with a NUL
    (below). *)
Theorem C50_to_int_partial long64 s base :
  s <> [] -> ~ In 0 s ->
  match to_int_with_base long64 (Some s) base with
  | Ret v => In base bases /\ denotes base s v /\ in_i32 v
  | Die _ => ~ In base bases \/ forall v, denotes base s v -> ~ in_i32 v
  | _ => False
  end.
Proof.
  intros NE NN. pose proof (to_int_spec long64 s base) as H. rewrite (c_str_no_nul s NN) in H.
  destruct (to_int_with_base long64 (Some s) base); tauto.
Qed.
Print Assumptions C50_to_int_partial.

Theorem C50_to_long_partial s base :
  s <> [] -> ~ In 0 s ->
  match to_long_with_base (Some s) base with
  | Ret v => In base bases /\ denotes base s v /\ in_i64 v
  | Die _ => ~ In base bases \/ forall v, denotes base s v -> ~ in_i64 v
  | _ => False
  end.
Proof.
  intros NE NN. pose proof (to_long_spec s base) as H. rewrite (c_str_no_nul s NN) in H.
  destruct (to_long_with_base (Some s) base); tauto.
Qed.
Print Assumptions C50_to_long_partial.

(** All strings: what counts is the text before the first NUL, and an empty text
    is taken for 0. *)
Theorem C50_before_nul long64 t u base :
  ~ In 0 t ->
  to_int_with_base long64 (Some (t ++ 0 :: u)) base = to_int_with_base long64 (Some t) base /\
  to_long_with_base (Some (t ++ 0 :: u)) base = to_long_with_base (Some t) base.
Proof.
  intros N. assert (E : c_str (t ++ 0 :: u) = c_str t).
  { induction t as [| c t IH]; [reflexivity |]. cbn [app c_str].
    destruct (c =? 0); [reflexivity |]. rewrite IH; auto. intros H. apply N. right. auto. }
  unfold to_int_with_base, to_long_with_base. rewrite E. auto.
Qed.
Print Assumptions C50_before_nul.

Theorem C50_undef long64 base :
  (exists e, to_int_with_base long64 None base = Die e) /\ (exists e, to_long_with_base None base = Die e) /\
  exists e, hex None = Die e.
Proof. repeat split; eexists; reflexivity. Qed.
Print Assumptions C50_undef.

(** The empty string is no number, but gives 0. *)
Theorem C50_empty_refuted :
  (forall base v, In base bases -> ~ denotes base [] v) /\
  forall long64, to_int long64 (Some []) = Ret 0 /\ to_long (Some []) = Ret 0.
Proof.
  split; [| intros []; auto].
  intros base v IB (ws & sign & pre & ds & m & E & _ & _ & N & _).
  symmetry in E. apply app_eq_nil in E as [_ E]. apply app_eq_nil in E as [_ E]. apply app_eq_nil in E as [_ ->].
  inversion N as [| ds n c w N' D E]. destruct ds; discriminate.
Qed.
Print Assumptions C50_empty_refuted.

(** "12\0abc" is no number, but gives 12. *)
Theorem C50_nul_refuted :
  exists s, (forall v, ~ denotes 10 s v) /\ forall long64, to_int long64 (Some s) = Ret 12.
Proof.
  exists [49; 50; 0; 97; 98; 99]. split; [| intros []; reflexivity].
  intros v D. destruct (strto_denotes (Z.min 0 v) (Z.max 0 v) 10 _ v ltac:(lia) ltac:(right; right; left; auto) D) as (e & E & _).
  assert (U : forall lo hi, snd (fst (strto lo hi 10 [49; 50; 0; 97; 98; 99])) = 2).
  { intros lo hi. change (strto lo hi 10 [49; 50; 0; 97; 98; 99]) with
      (if 12 <? lo then (lo, 2, true) else if hi <? 12 then (hi, 2, true) else (12, 2, false)).
    destruct (12 <? lo); [reflexivity |]. destruct (hi <? 12); reflexivity. }
  specialize (U (Z.min 0 v) (Z.max 0 v)). rewrite E in U. discriminate.
Qed.
Print Assumptions C50_nul_refuted.

(** The string of an int gives the int again. *)
Theorem C50_round_trip long64 v :
  (in_i32 v -> to_int long64 (Some (int_to_string v)) = Ret v) /\
  (in_i64 v -> to_long (Some (int_to_string v)) = Ret v).
Proof.
  assert (G : in_i64 v -> int_to_string v <> [] /\ ~ In 0 (int_to_string v) /\ denotes 10 (int_to_string v) v).
  { intros R. rewrite int_to_string_text by auto.
    assert (U : forall n, 0 <= n -> udec n <> [] /\ ~ In 0 (udec n) /\ number 10 (udec n) n).
    { intros n N. destruct (udec_spec n N) as (F & V & NE & _). split; auto. split.
      - intros IN. rewrite Forall_forall in F. specialize (F 0 IN). unfold is_digit in F. lia.
      - apply number_value; [lia |]. split; auto. split.
        + eapply Forall_impl; [| exact F]. intros c C. unfold isdig. apply digit_of_dec. exact C.
        + rewrite <- V at 1. unfold digits_value, value. clear - F. generalize 0. induction F as [| c ds C F IH]; intros a; [reflexivity |].
          cbn [fold_left]. rewrite (digit_of_value c C). apply IH. }
    unfold print_dec. destruct (Z.ltb_spec v 0).
    - destruct (U (- v) ltac:(lia)) as (NE & NN & N). split; [discriminate |]. split; [intros [X | X]; [discriminate | auto] |].
      exists [], [45], [], (udec (- v)), (- v). repeat split; auto. left. split; auto. lia.
    - destruct (U v ltac:(lia)) as (NE & NN & N). split; auto. split; auto.
      exists [], [], [], (udec v), v. repeat split; auto. }
  assert (IB : In 10 bases) by (right; right; left; auto).
  split; intros R.
  - destruct G as (NE & NN & D); [unfold in_i32, in_i64 in *; lia |].
    pose proof (C50_to_int_partial long64 _ 10 NE NN) as H. unfold to_int.
    destruct (to_int_with_base long64 (Some (int_to_string v)) 10) as [w | | |]; try tauto.
    + destruct H as (_ & D' & _). f_equal. exact (denotes_fun _ _ _ _ IB D' D).
    + destruct H as [H | H]; [tauto |]. exfalso. exact (H v D R).
  - destruct (G R) as (NE & NN & D).
    pose proof (C50_to_long_partial _ 10 NE NN) as H. unfold to_long.
    destruct (to_long_with_base (Some (int_to_string v)) 10) as [w | | |]; try tauto.
    + destruct H as (_ & D' & _). f_equal. exact (denotes_fun _ _ _ _ IB D' D).
    + destruct H as [H | H]; [tauto |]. exfalso. exact (H v D R).
Qed.
Print Assumptions C50_round_trip.

(** hex: one to eight hexadecimal digits; the number, as an int. *)
Theorem C50_hex s :
  is_string s ->
  match hex (Some s) with
  | Ret v => 1 <= zlen s <= 8 /\ in_i32 v /\ exists m, number 16 s m /\ v mod 2 ^ 32 = m mod 2 ^ 32
  | Die _ => ~ (1 <= zlen s <= 8 /\ exists m, number 16 s m)
  | _ => False
  end.
Proof.
  intros S. unfold hex. destruct ((zlen s >=? 1) && (zlen s <=? 8)) eqn:L.
  - apply andb_true_iff in L as [L1 L2]. apply Z.geb_le in L1. apply Z.leb_le in L2.
    destruct (hex_loop_ok (Z.to_nat (zlen s)) s 0 0 S) as [(m & M & E) | ((b & IN & ND) & e & E)]; try lia.
    + change (wrap32 0) with 0 in E. rewrite E. destruct M as [[M _] | M]; [lia |].
      rewrite Z2Nat.id, ztake_all in M by lia. split; [lia |]. split; [apply wrap32_range |]. exists m. split; auto.
      change (2 ^ 32) with (2 * 2147483648). unfold wrap32. rewrite wrap_mod_eq by lia. f_equal. lia.
    + change (wrap32 0) with 0 in E. rewrite E. intros (_ & m & N). rewrite Z2Nat.id, ztake_all in IN by lia.
      destruct (number_digits _ _ _ N b IN) as (v & D). exact (ND v D).
  - intros (L1 & _). apply andb_false_iff in L. rewrite Z.geb_leb, !Z.leb_gt in L. lia.
Qed.
Print Assumptions C50_hex.

(** powi and powl: the power, with the upper bits lost.  powl: only for an
    exponent that is an int. *)
Theorem C50_powi base e :
  match powi base e with
  | Ret v => 0 <= e /\ (base <> 0 \/ e <> 0) /\ in_i32 v /\ v mod 2 ^ 32 = (base ^ e) mod 2 ^ 32
  | Die _ => e < 0 \/ (base = 0 /\ e = 0)
  | _ => False
  end.
Proof.
  pose proof (powi_ok base e) as H. destruct (powi base e); auto. destruct H as (A & B & ->).
  split; auto. split; auto. split; [apply wrap32_range |].
  change (2 ^ 32) with (2 * 2147483648). unfold wrap32. apply wrap_mod_eq. lia.
Qed.
Print Assumptions C50_powi.

Theorem C50_powl_partial base e :
  e <= INT32_MAX -> exists enough, forall fuel, (enough <= fuel)%nat ->
  match powl fuel base e with
  | Ret v => 0 <= e /\ (base <> 0 \/ e <> 0) /\ in_i64 v /\ v mod 2 ^ 64 = (base ^ e) mod 2 ^ 64
  | Die _ => e < 0 \/ (base = 0 /\ e = 0)
  | _ => False
  end.
Proof.
  intros L. exists (Z.to_nat (e + 1)). intros fuel F. unfold powl.
  destruct (Z.geb_spec e 0); [| lia].
  assert (E : powl_loop fuel base e 0 1 = Ret (wrap64 (base ^ e))).
  { rewrite powl_loop_ok by (try lia; unfold in_i64; lia). f_equal. f_equal. rewrite Z.sub_0_r. lia. }
  rewrite E. change (2 ^ 64) with (2 * 9223372036854775808).
  destruct (Z.eqb_spec base 0); destruct (Z.eqb_spec e 0); cbn [negb orb]; auto;
    (split; [lia |]; split; [lia |]; split; [apply wrap64_range |]; unfold wrap64; apply wrap_mod_eq; lia).
Qed.
Print Assumptions C50_powl_partial.

(** With a larger exponent powl never returns: its counter is an int. *)
Theorem C50_powl_refuted base e fuel : INT32_MAX < e -> powl fuel base e = Fuel.
Proof.
  intros L. unfold powl. destruct (Z.geb_spec e 0); [| lia]. destruct (Z.eqb_spec e 0); [lia |].
  rewrite orb_true_r. apply powl_loop_fuel; auto. unfold in_i32. lia.
Qed.
Print Assumptions C50_powl_refuted.

(** abs and labs, except for the least number, which has no absolute value. *)
Theorem C50_abs_partial v :
  (in_i32 v -> v <> INT32_MIN -> abs v = Z.abs v) /\ (in_i64 v -> v <> INT64_MIN -> labs v = Z.abs v).
Proof.
  unfold abs, labs, in_i32, in_i64. rewrite Z.gtb_ltb. destruct (Z.ltb_spec 0 v).
  - split; lia.
  - split; intros; [rewrite wrap32_id by (unfold in_i32; lia) | rewrite wrap64_id by (unfold in_i64; lia)]; lia.
Qed.
Print Assumptions C50_abs_partial.
Theorem C50_abs_refuted : abs INT32_MIN < 0 /\ labs INT64_MIN < 0.
Proof. split; reflexivity. Qed.
Print Assumptions C50_abs_refuted.

Example C50_ex_to_int :
  to_int true (Some [32; 45; 49; 50]) = Ret (-12) /\
  to_int_with_base true (Some [48; 120; 70; 70]) 16 = Ret 255 /\
  to_int true (Some [50; 49; 52; 55; 52; 56; 51; 54; 52; 56]) = Die "The string $string must be a 32-bit integer in correct range." /\
  to_long (Some [50; 49; 52; 55; 52; 56; 51; 54; 52; 56]) = Ret 2147483648 /\
  hex (Some [102; 70]) = Ret 255 /\ powi 3 4 = Ret 81 /\ powl 10 3 4 = Ret 81.
Proof. repeat split. Qed.
Example C50_ex_denotes : denotes 10 [32; 45; 49; 50] (-12) /\ denotes 16 [48; 120; 70] 15.
Proof.
  assert (D : forall b c v, digit b c v -> digit b c v) by auto. split.
  - exists [32], [45], [], [49; 50], 12. repeat split; auto; [constructor; [right; auto | constructor] |].
    apply (More 10 [49] 1 50 2); [apply (One 10 49 1) |]; unfold digit; lia.
  - exists [], [], [48; 120], [70], 15. repeat split; auto. apply One. unfold digit. lia.
Qed.
