(** * pack of hex strings *)
From Verif Require Import Base StM CLib Dec Array_model Bytes FnMem_model FnMem_spec FnMem_proofs FnRev_proofs FnMem_props
  FnStr_model FnStr_spec FnStr_proofs FnNum_model FnNum_spec FnNum_proofs FnNum_props FnUtf8_model StrBuf_model StrBuf_spec StrBuf_proofs
  Format_model Format_proofs Packer_model Packer_spec FormatParse_proofs PackerParse_proofs Packer_proofs.

Definition hexd (c : Z) : Prop := exists d, digit 16 c d.
Lemma digit_range c d : digit 16 c d -> 0 <= d < 16 /\ 48 <= c <= 102.
Proof. unfold digit. lia. Qed.
Lemma digit_one c d d' : digit 16 c d -> digit 16 c d' -> d = d'.
Proof. unfold digit. lia. Qed.
Lemma number_two c c' d d' : digit 16 c d -> digit 16 c' d' -> number 16 [c; c'] (16 * d + d').
Proof. intros D D'. rewrite Z.mul_comm. apply (More 16 [c] d c' d'); auto. constructor. auto. Qed.
Lemma number_inv base ds n : number base ds n -> Forall (fun c => exists v, digit base c v) ds.
Proof. induction 1; [repeat constructor; eauto |]. apply Forall_app. split; [auto | repeat constructor; eauto]. Qed.

Lemma hex_two c c' : 0 <= c <= 255 -> 0 <= c' <= 255 ->
  (exists d d', digit 16 c d /\ digit 16 c' d' /\ hex (Some [c; c']) = Ret (16 * d + d')) \/
  ((~ hexd c \/ ~ hexd c') /\ exists e, hex (Some [c; c']) = Die e).
Proof.
  intros C C'. assert (S : is_string [c; c']) by (split; [repeat constructor; auto; lia | reflexivity]).
  pose proof (C50_hex [c; c'] S) as H. change (zlen [c; c']) with 2 in H.
  destruct (hex_digit_dec c C) as [[D _] | [ND _]]; [destruct (hex_digit_dec c' C') as [[D' _] | [ND' _]] |].
  - left. exists (hex_digit_value (wrap8 c)), (hex_digit_value (wrap8 c')). split; auto. split; auto.
    pose proof (number_two _ _ _ _ D D') as N. apply digit_range in D as R. apply digit_range in D' as R'.
    destruct (hex (Some [c; c'])) as [v | e | |]; try tauto.
    + destruct H as (_ & I & m & M & E). f_equal. apply number_value in M as (_ & _ & M); [| lia]. apply number_value in N as (_ & _ & N); [| lia].
      rewrite <- N in M. subst m. change (2 ^ 32) with 4294967296 in E. unfold in_i32 in I. 
      rewrite (Z.mod_small (16 * _ + _)) in E by lia. revert E. Z.div_mod_to_equations. lia.
    + exfalso. apply H. split; [lia | eauto].
  - right. split; [right; intros (d & X); eapply ND'; eauto |]. destruct (hex (Some [c; c'])) as [v | e | |]; try tauto; eauto.
    destruct H as (_ & _ & m & M & _). apply number_inv in M. inversion M as [| ? ? _ M']; subst. inversion M' as [| ? ? (x & X) _]; subst. exfalso. eapply ND'; eauto.
  - right. split; [left; intros (d & X); eapply ND; eauto |]. destruct (hex (Some [c; c'])) as [v | e | |]; try tauto; eauto.
    destruct H as (_ & _ & m & M & _). apply number_inv in M. inversion M as [| ? ? (x & X) _]; subst. exfalso. eapply ND; eauto.
Qed.

Lemma hexd_ascii c : hexd c -> 0 <= c < 128.
Proof. intros (d & D). apply digit_range in D. lia. Qed.
Lemma concat_two c c' : concat_opt (Some [c]) (Some [c']) = Ret [c; c'].
Proof. reflexivity. Qed.
Lemma chr_byte c : 0 <= c <= 255 -> chr (wrap8 c) = if c <? 128 then Some [c] else None.
Proof.
  intros C. rewrite wrap8_byte by auto. destruct (Z.ltb_spec c 128); [apply chr_ascii; lia |].
  unfold chr, Utf8_model.is_unicode_scalar_value. replace (c - 256 >=? 0) with false by lia. reflexivity.
Qed.

Lemma pair_ok (high : bool) c c' : hexd c -> 0 <= c' <= 255 ->
  let m := let! two := if high then concat_opt (chr c) (chr (wrap8 c')) else concat_opt (chr (wrap8 c')) (chr c) in hex (Some two) in
  (exists d d', digit 16 c d /\ digit 16 c' d' /\ m = Ret (if high then 16 * d + d' else 16 * d' + d)) \/
  (~ hexd c' /\ exists e, m = Die e).
Proof.
  intros HC C'. pose proof (hexd_ascii c HC) as A. rewrite (chr_ascii c A), (chr_byte c' C').
  destruct (Z.ltb_spec c' 128).
  - destruct high; rewrite concat_two, obind_ret; cbn zeta.
    + destruct (hex_two c c') as [(d & d' & D & D' & E) | ([N | N] & e & E)]; try lia; [left; eauto | tauto | right; eauto].
    + destruct (hex_two c' c) as [(d & d' & D & D' & E) | ([N | N] & e & E)]; try lia; [left; exists d', d; auto | right; eauto | tauto].
  - right. split; [intros X; apply hexd_ascii in X; lia |]. destruct high; eexists; reflexivity.
Qed.

Lemma hex_pack_ok high s : is_string s -> forall n l i b out,
  at_pos s i l -> Z.of_nat n = (zlen l + 1) / 2 -> holds b out -> zlen out + Z.of_nat n <= max_length ->
  (Forall hexd l /\ exists b' bs, hex_pack_loop n high s i b = Ret b' /\ holds b' (out ++ bs) /\ hex_bytes high l bs /\ zlen bs = Z.of_nat n) \/
  (~ Forall hexd l /\ exists e, hex_pack_loop n high s i b = Die e).
Proof.
  intros S. induction n as [| n IH]; intros l i b out A N H L.
  - assert (l = []) as -> by (apply zlen_0_nil; pose proof (zlen_nonneg l); Z.div_mod_to_equations; lia).
    left. split; [constructor |]. exists b, []. cbn [hex_pack_loop]. rewrite app_nil_r. repeat split; auto. constructor.
  - destruct l as [| c l]; [change (zlen (@nil Z)) with 0 in N; change ((0 + 1) / 2) with 0 in N; lia |].
    destruct (at_cons _ _ _ _ S A) as (E1 & E2 & E3 & A' & BC). cbn [hex_pack_loop]. rewrite E2, obind_ret.
    destruct (hex_digit_dec c BC) as [[D HD] | [ND HD]]; rewrite HD; cbn [Z.eqb negb].
    2: { right. split; [| eexists; reflexivity]. intros F. inversion F as [| ? ? (x & X) _]; subst. eapply ND; eauto. }
    assert (HC : hexd c) by (eexists; eauto). pose proof (hexd_ascii c HC) as AC. rewrite E3.
    assert (WC : wrap8 c = c) by (apply wrap8_id; unfold in_i8; lia). rewrite WC in *.
    destruct l as [| c' l].
    + rewrite (at_nil _ _ A'). rewrite obind_ret.
      assert (N1 : n = O) by (rewrite zlen_cons in N; change (zlen (@nil Z)) with 0 in N; change ((1 + 0 + 1) / 2) with 1 in N; lia). subst n.
      destruct (pair_ok high c 48 HC ltac:(lia)) as [(d & d' & D1 & D2 & E) | (X & _)].
      2: { exfalso. apply X. exists 0. unfold digit. lia. }
      change (wrap8 48) with 48 in E. cbn zeta in E.
      assert (d' = 0) by (eapply digit_one; [exact D2 | unfold digit; lia]). subst d'.
      apply digit_range in D1 as RD.
      destruct (if high then concat_opt (chr c) (chr 48) else concat_opt (chr 48) (chr c)) as [two | | |]; try discriminate.
      cbn [obind] in E |- *. rewrite E. cbn [obind].
      assert (RV : 0 <= (if high then 16 * d + 0 else 16 * 0 + d) <= 255) by (destruct high; lia).
      destruct (push_ch_ok b out _ H RV) as (b' & -> & H'); [lia |]. rewrite obind_ret. cbn [hex_pack_loop].
      left. split; [repeat constructor; auto |]. exists b', [if high then 16 * d else d]. split; [reflexivity |]. split.
      { replace (if high then 16 * d else d) with (if high then 16 * d + 0 else 16 * 0 + d) by (destruct high; lia). exact H'. }
      split; [constructor; auto | reflexivity].
    + destruct (at_cons _ _ _ _ S A') as (F1 & F2 & F3 & A2 & BC'). rewrite F1, F2, obind_ret. cbn [obind].
      destruct (pair_ok high c c' HC BC') as [(d & d' & D1 & D2 & E) | (X & e & E)]; cbn zeta in E.
      2: { right. split; [intros F; inversion F as [| ? ? _ F']; subst; inversion F'; subst; auto |].
           destruct (if high then concat_opt (chr c) (chr (wrap8 c')) else concat_opt (chr (wrap8 c')) (chr c)) as [two | e' | |]; cbn [obind] in E |- *; try discriminate; [| eauto].
           rewrite E. eexists. reflexivity. }
      apply digit_range in D1 as RD. apply digit_range in D2 as RD'.
      destruct (if high then concat_opt (chr c) (chr (wrap8 c')) else concat_opt (chr (wrap8 c')) (chr c)) as [two | | |]; try discriminate.
      cbn [obind] in E |- *. rewrite E. cbn [obind].
      assert (RV : 0 <= (if high then 16 * d + d' else 16 * d' + d) <= 255) by (destruct high; lia).
      destruct (push_ch_ok b out _ H RV) as (b' & -> & H'); [lia |]. rewrite obind_ret.
      assert (WI : wrap32 (i + 2) = i + 1 + 1).
      { rewrite wrap32_id; [lia |]. destruct A2 as [B2 _]. destruct S as [_ LS]. unfold in_i32. lia. }
      rewrite WI.
      assert (N2 : Z.of_nat n = (zlen l + 1) / 2) by (rewrite !zlen_cons in N; clear - N; Z.div_mod_to_equations; lia).
      assert (L2 : zlen (out ++ [if high then 16 * d + d' else 16 * d' + d]) + Z.of_nat n <= max_length).
      { rewrite zlen_app. change (zlen [if high then 16 * d + d' else 16 * d' + d]) with 1. lia. }
      destruct (IH l (i + 1 + 1) b' _ A2 N2 H' L2) as [(F & b2 & bs & E' & H2 & HB & LB) | (NF & e & E')].
      * left. split; [constructor; [auto | constructor; [eexists; eauto | auto]] |]. exists b2, ((if high then 16 * d + d' else 16 * d' + d) :: bs).
        split; [exact E' |]. rewrite <- app_assoc in H2. split; [exact H2 |]. split; [constructor; auto |]. rewrite zlen_cons. lia.
      * right. split; [| eauto]. intros F. apply NF. inversion F as [| ? ? _ F']; subst. inversion F'; auto.
Qed.

Lemma hex_bytes_all high l bs : hex_bytes high l bs -> Forall hexd l /\ zlen bs = (zlen l + 1) / 2 /\ Forall is_byte bs.
Proof.
  induction 1 as [| c d D | c c' d d' s out D D' HB (F & L & B)].
  - repeat split; constructor.
  - split; [repeat constructor; eexists; eauto |]. split; [reflexivity |]. apply digit_range in D. repeat constructor; unfold is_byte; destruct high; lia.
  - split; [repeat constructor; auto; eexists; eauto |]. split.
    + rewrite !zlen_cons, L. Z.div_mod_to_equations. lia.
    + apply digit_range in D, D'. constructor; auto. unfold is_byte. destruct high; lia.
Qed.
Lemma hex_bytes_take high s bs : hex_bytes high s bs -> forall n, n mod 2 = 0 -> 0 <= n -> hex_bytes high (ztake n s) (ztake (n / 2) bs).
Proof.
  assert (T0 : forall A (l : list A), ztake 0 l = []) by reflexivity.
  induction 1 as [| c d D | c c' d d' s out D D' HB IH]; intros n M N.
  - unfold ztake. rewrite !firstn_nil. constructor.
  - destruct (Z.eq_dec n 0) as [-> |]; [rewrite !T0; constructor |].
    assert (2 <= n) by (Z.div_mod_to_equations; lia). assert (1 <= n / 2) by (Z.div_mod_to_equations; lia).
    rewrite !ztake_all by (change (zlen [c]) with 1 || change (zlen [if high then 16 * d else d]) with 1; lia). constructor; auto.
  - destruct (Z.eq_dec n 0) as [-> |]; [rewrite !T0; constructor |].
    assert (2 <= n) by (Z.div_mod_to_equations; lia).
    assert (E : n / 2 = 1 + (n - 2) / 2) by (Z.div_mod_to_equations; lia).
    specialize (IH (n - 2) ltac:(Z.div_mod_to_equations; lia) ltac:(lia)).
    assert (1 <= n / 2) by (Z.div_mod_to_equations; lia).
    unfold ztake in *. replace (Z.to_nat n) with (Datatypes.S (Datatypes.S (Z.to_nat (n - 2)))) by lia.
    replace (Z.to_nat (n / 2)) with (Datatypes.S (Z.to_nat ((n - 2) / 2))) by (Z.div_mod_to_equations; lia). cbn [firstn]. constructor; auto.
Qed.
Lemma hex_bytes_fun high s bs : hex_bytes high s bs -> forall bs', hex_bytes high s bs' -> bs = bs'.
Proof.
  induction 1 as [| c d D | c c' d d' s out D D' HB IH]; intros bs' H'; inversion H'; subst; auto.
  - rewrite (digit_one c d d0); auto.
  - match goal with A : digit 16 c ?x, B : digit 16 c' ?y |- context [16 * ?x + ?y] =>
      first [rewrite (digit_one c d x), (digit_one c' d' y) by auto] end. f_equal. auto.
Qed.
