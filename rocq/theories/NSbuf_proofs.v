From Verif Require Import Base CLib Dec NSbuf_model NSbuf_spec.

(** The bytes from the length on are zero, and there is at least one. *)
Record nb_inv (b : nsbuf) (t : list Z) : Prop := {
  nbi_cap : 0 < nb_capacity b <= INT32_MAX;
  nbi_len : nb_length b = zlen t;
  nbi_fit : zlen t < nb_capacity b;
  nbi_abs : nb_string b = t ++ zrep (nb_capacity b - zlen t) 0
}.

Lemma extend_loop_spec f : forall b t n,
  nb_inv b t -> 0 <= n <= 1073741822 -> n + 1 <= nb_capacity b * 2 ^ Z.of_nat f ->
  exists b', nb_extend_loop f b n = Ret b' /\ nb_inv b' t /\ n < nb_capacity b'.
Proof.
  induction f as [| f IH]; intros b t n I N B; cbn [nb_extend_loop];
    rewrite wrap32_id by (unfold in_i32; lia); rewrite Z.gtb_ltb.
  - replace (nb_capacity b <? n + 1) with false by (change (2 ^ Z.of_nat 0) with 1 in B; lia).
    exists b; split; auto. split; auto. change (2 ^ Z.of_nat 0) with 1 in B; lia.
  - destruct (Z.ltb_spec (nb_capacity b) (n + 1)).
    + destruct I as [C L F A]. zlen_facts.
      rewrite wrap32_id by (unfold in_i32; lia).
      replace (nb_capacity b * 2 <=? 0) with false by lia.
      assert (LB : zlen (nb_string b) = nb_capacity b) by (rewrite A, zlen_app, zlen_rep; lia).
      unfold block_copy. rewrite zlen_rep, LB. replace (_ && _) with true by lia. cbn [obind].
      apply IH; auto.
      * split; cbn; auto; try lia. rewrite A, L. zext.
      * cbn. rewrite Nat2Z.inj_succ, Z.pow_succ_r in B by lia. lia.
    + exists b; split; auto. split; auto. lia.
Qed.

Lemma maybe_extend_spec b t n :
  nb_inv b t -> 0 <= n <= 1073741822 ->
  exists b', nb_maybe_extend b n = Ret b' /\ nb_inv b' t /\ n < nb_capacity b'.
Proof.
  intros I N. apply extend_loop_spec; auto.
  destruct I as [C L F A]. change (2 ^ Z.of_nat 32) with 4294967296. lia.
Qed.

(** Writing [x] (followed by zeros) at the end. *)
Lemma write_end b t x :
  nb_inv b t -> zlen t + zlen x < nb_capacity b ->
  nb_inv {| nb_length := zlen t + zlen x; nb_capacity := nb_capacity b;
            nb_string := zblit (nb_string b) (zlen t) x |} (t ++ x).
Proof.
  intros [C L F A] B. zlen_facts. split; cbn; rewrite ?zlen_app; auto; try lia.
  rewrite A. zext.
Qed.

Lemma write_end_nul b t x :
  nb_inv b t -> zlen t + zlen x < nb_capacity b ->
  zblit (nb_string b) (zlen t) (x ++ [0]) = zblit (nb_string b) (zlen t) x.
Proof.
  intros [C L F A] B. zlen_facts. rewrite A. zext.
Qed.

Lemma add_len_spec b t str n :
  nb_inv b t -> 0 <= n <= zlen str -> zlen t + n <= 1073741800 ->
  exists b', nb_add_len b str n = Ret (b', zlen t) /\ nb_inv b' (t ++ ztake n str).
Proof.
  intros I N B. unfold nb_add_len. zlen_facts. rewrite (nbi_len _ _ I).
  rewrite wrap32_id by (unfold in_i32; lia).
  destruct (maybe_extend_spec b t (zlen t + n) I) as (b1 & E & I1 & C1); [lia |].
  rewrite E. cbn [obind]. rewrite (nbi_len _ _ I1).
  assert (LB : zlen (nb_string b1) = nb_capacity b1).
  { rewrite (nbi_abs _ _ I1), zlen_app, zlen_rep; pose proof (nbi_fit _ _ I1); lia. }
  unfold block_copy. rewrite LB. replace (_ && _) with true by lia. cbn [obind].
  eexists; split; [reflexivity |].
  assert (zlen (ztake n str) = n) as Q by (rewrite zlen_take; lia).
  unfold zsub. rewrite zdrop_0 by lia. rewrite <- Q at 1. apply write_end; auto. lia.
Qed.

Lemma sprintf_spec b t x :
  nb_inv b t -> zlen t + zlen x < nb_capacity b ->
  nb_sprintf b x = Ret (zblit (nb_string b) (zlen t) x).
Proof.
  intros I B. unfold nb_sprintf, block_copy. rewrite (nbi_len _ _ I). zlen_facts.
  assert (LB : zlen (nb_string b) = nb_capacity b).
  { rewrite (nbi_abs _ _ I), zlen_app, zlen_rep; pose proof (nbi_fit _ _ I); lia. }
  autorewrite with zlen. rewrite LB. replace (_ && _) with true by lia.
  f_equal. rewrite <- (write_end_nul b t x I B). f_equal. zext.
Qed.

Lemma add_text_spec b t m x :
  nb_inv b t -> zlen x <= m -> m <= 22 -> zlen t + zlen x <= 1073741800 ->
  exists b', nb_add_text b m x = Ret (b', zlen t) /\ nb_inv b' (t ++ x).
Proof.
  intros I N M B. unfold nb_add_text. zlen_facts. rewrite (nbi_len _ _ I).
  rewrite wrap32_id by (unfold in_i32; lia).
  destruct (maybe_extend_spec b t (zlen t + m) I) as (b1 & E & I1 & C1); [lia |].
  rewrite E. cbn [obind]. rewrite (sprintf_spec b1 t x I1) by lia. cbn [obind].
  rewrite (nbi_len _ _ I1). rewrite wrap32_id by (unfold in_i32; lia).
  eexists; split; [reflexivity |]. apply write_end; auto. lia.
Qed.

Lemma print_dec_length v k :
  1 <= k -> - 10 ^ k < v < 10 ^ k -> zlen (print_dec v) <= k + 1.
Proof.
  intros K B. unfold print_dec. destruct (Z.ltb_spec v 0).
  - rewrite zlen_cons. pose proof (udec_length (- v) k). lia.
  - pose proof (udec_length v k). lia.
Qed.

Lemma hex_char_digit n : 0 <= n < 16 -> hex_digit n = hex_char n.
Proof.
  intros B. assert (C : n = 0 \/ n = 1 \/ n = 2 \/ n = 3 \/ n = 4 \/ n = 5 \/ n = 6 \/ n = 7 \/ n = 8 \/ n = 9 \/
    n = 10 \/ n = 11 \/ n = 12 \/ n = 13 \/ n = 14 \/ n = 15) by lia.
  repeat destruct C as [C | C]; subst n; reflexivity.
Qed.

Lemma step_spec b t op t' out :
  nb_inv b t -> text_step t op t' out ->
  exists b', nb_step b op = Ret (b', out) /\ nb_inv b' t'.
Proof.
  intros I S. zlen_facts. inversion S as [op' x A B | off s O H | off s O H |]; subst.
  - pose proof (zlen_nonneg x).
    destruct op as [s | s n | s n | ch | v | v | v | v | off s |]; cbn [added_text nb_step] in *;
      try discriminate.
    + inversion A; subst. unfold nb_add.
      destruct (add_len_spec b t (c_str s) (zlen (c_str s)) I) as (b' & E & I'); try lia.
      rewrite E. cbn. exists b'; split; auto. rewrite ztake_all in I' by lia. auto.
    + destruct ((0 <=? n) && (n <=? zlen s)) eqn:Hb; inversion A; subst. rewrite zlen_take in B.
      destruct (add_len_spec b t s n I) as (b' & E & I'); try lia.
      rewrite E. cbn. eauto.
    + destruct ((0 <=? n) && (n <=? zlen s)) eqn:Hb; inversion A; subst.
      rewrite zlen_app, zlen_take, zlen_cons in B; zlen_nils.
      unfold nb_add_len_nullstr. rewrite (nbi_len _ _ I). zlen_facts.
      rewrite (wrap32_id (zlen t + n)) by (unfold in_i32; lia).
      rewrite wrap32_id by (unfold in_i32; lia).
      destruct (maybe_extend_spec b t (zlen t + n + 1) I) as (b1 & E & I1 & C1); [lia |].
      rewrite E. cbn [obind]. rewrite (nbi_len _ _ I1).
      assert (LB : zlen (nb_string b1) = nb_capacity b1).
      { rewrite (nbi_abs _ _ I1), zlen_app, zlen_rep; pose proof (nbi_fit _ _ I1); lia. }
      unfold block_copy. rewrite LB. replace (_ && _) with true by lia. cbn [obind].
      rewrite zlen_blit by (rewrite ?zlen_sub; lia). rewrite LB, zlen_cons; zlen_nils.
      replace (_ && _) with true by lia. cbn [obind].
      eexists; split; [reflexivity |].
      replace (zlen t + n + 1) with (zlen t + zlen (ztake n s ++ [0]))
        by (rewrite zlen_app, zlen_take, zlen_cons; zlen_nils; lia).
      replace (zblit (zblit _ _ _) _ _) with (zblit (nb_string b1) (zlen t) (ztake n s ++ [0])).
      * apply write_end; auto. rewrite zlen_app, zlen_take, zlen_cons; zlen_nils; lia.
      * rewrite zsub_0 by lia. rewrite <- zblit_blit; rewrite ?zlen_take; zlen_nils; rewrite ?zlen_cons; zlen_nils; try lia.
        f_equal. lia.
    + inversion A; subst. unfold nb_add_hex_char. rewrite (nbi_len _ _ I).
      assert (X : u8 ch mod 16 = ch mod 16).
      { unfold u8. symmetry. apply Znumtheory.Zmod_div_mod; try lia. exists 16; lia. }
      cbn [app] in B. repeat rewrite zlen_cons in B. zlen_facts.
      rewrite wrap32_id by (unfold in_i32; lia).
      destruct (maybe_extend_spec b t (zlen t + 4) I) as (b1 & E & I1 & C1); [lia |].
      rewrite E. cbn [obind].
      assert (Q : zlen (hex_escape (u8 ch)) = 4) by reflexivity.
      rewrite (sprintf_spec b1 t) by (auto; lia). cbn [obind].
      eexists; split; [reflexivity |].
      rewrite <- Q. rewrite <- X. rewrite <- !hex_char_digit.
      * apply write_end; auto.
      * apply Z.mod_pos_bound. lia.
      * pose proof (Z.mod_pos_bound ch 256 ltac:(lia)). split; [apply Z.div_pos; lia |].
        apply Z.div_lt_upper_bound; lia.
    + destruct (_ && _) eqn:Hb in A; inversion A; subst.
      pose proof (print_dec_length v 3 ltac:(lia)). change (10 ^ 3) with 1000 in *.
      destruct (add_text_spec b t 20 (print_dec v) I) as (b' & E & I'); try lia.
      unfold nb_add_byte. rewrite E. cbn. eauto.
    + destruct (_ && _) eqn:Hb in A; inversion A; subst.
      pose proof (print_dec_length v 5 ltac:(lia)). change (10 ^ 5) with 100000 in *.
      destruct (add_text_spec b t 20 (print_dec v) I) as (b' & E & I'); try lia.
      unfold nb_add_short. rewrite E. cbn. eauto.
    + unfold nb_add_int. destruct (Z.eqb_spec v (-2147483648)).
      * inversion A; subst.
        destruct (add_text_spec b t 20 (bytes "INT32_MIN") I) as (b' & E & I'); try lia.
        { vm_compute; discriminate. }
        { exact B. }
        rewrite E. cbn [obind]. eauto.
      * destruct (_ && _) eqn:Hb in A; inversion A; subst.
        pose proof (print_dec_length v 10 ltac:(lia)). change (10 ^ 10) with 10000000000 in *.
        destruct (add_text_spec b t 20 (print_dec v) I) as (b' & E & I'); try lia.
        rewrite E. cbn [obind]. eauto.
    + unfold nb_add_long. destruct (Z.eqb_spec v (-9223372036854775808)).
      * inversion A; subst.
        destruct (add_text_spec b t 22 (bytes "INT64_MIN") I) as (b' & E & I'); try lia.
        { vm_compute; discriminate. }
        { exact B. }
        rewrite E. cbn [obind]. eauto.
      * destruct (_ && _) eqn:Hb in A; inversion A; subst.
        pose proof (print_dec_length v 19 ltac:(lia)).
        change (10 ^ 19) with 10000000000000000000 in *.
        assert (zlen (print_dec v ++ bytes "LL") = zlen (print_dec v) + 2)
          by (rewrite zlen_app; reflexivity).
        destruct (add_text_spec b t 22 (print_dec v ++ bytes "LL") I) as (b' & E & I'); try lia.
        { exact B. }
        rewrite E. cbn [obind]. eauto.
  - cbn [nb_step]. unfold nb_contains, c_str_at. pose proof (nbi_fit _ _ I).
    assert (LB : zlen (nb_string b) = nb_capacity b)
      by (rewrite (nbi_abs _ _ I), zlen_app, zlen_rep; lia).
    rewrite LB. replace (_ && _) with true by lia.
    replace (zdrop off (nb_string b))
      with (zdrop off t' ++ 0 :: zrep (nb_capacity b - zlen t' - 1) 0)
      by (rewrite (nbi_abs _ _ I); zext).
    rewrite c_str_scan_nul. cbn [obind].
    replace (strstr _ _) with true by (symmetry; apply strstr_spec; auto).
    eauto.
  - cbn [nb_step]. unfold nb_contains, c_str_at. pose proof (nbi_fit _ _ I).
    assert (LB : zlen (nb_string b) = nb_capacity b)
      by (rewrite (nbi_abs _ _ I), zlen_app, zlen_rep; lia).
    rewrite LB. replace (_ && _) with true by lia.
    replace (zdrop off (nb_string b))
      with (zdrop off t' ++ 0 :: zrep (nb_capacity b - zlen t' - 1) 0)
      by (rewrite (nbi_abs _ _ I); zext).
    rewrite c_str_scan_nul. cbn [obind].
    destruct (strstr (c_str (zdrop off t')) (c_str s)) eqn:Q.
    { exfalso. apply H. apply strstr_spec; auto. }
    eauto.
  - cbn [nb_step]. unfold nb_text. rewrite (nbi_len _ _ I). pose proof (nbi_fit _ _ I).
    rewrite (nbi_abs _ _ I). znorm. zcase.
    exists b; split; auto. cbn [obind]. do 3 f_equal. rewrite ztake_app_l by lia. apply ztake_all; lia.
Qed.

Lemma run_spec t ops outs : text_run t ops outs -> forall b, nb_inv b t -> nb_run b ops = Ret outs.
Proof.
  induction 1 as [| t op t' out ops outs S R IH]; intros b I; cbn [nb_run]; auto.
  destruct (step_spec b t op t' out I S) as (b' & E & I').
  rewrite E. cbn [obind]. rewrite (IH b' I'). reflexivity.
Qed.

Lemma history_spec c ops outs :
  0 <= c <= INT32_MAX -> text_run [] ops outs -> nb_history c ops = Ret outs.
Proof.
  intros C R. unfold nb_history, nb_new.
  set (cap := if c =? 0 then 16 else c).
  assert (0 < cap <= INT32_MAX) by (unfold cap; destruct (Z.eqb_spec c 0); lia).
  replace (cap <? 0) with false by lia. cbn [obind].
  eapply run_spec; eauto. split; cbn; auto; change (zlen (@nil Z)) with 0; try lia.
  f_equal. lia.
Qed.
