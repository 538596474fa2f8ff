From Verif Require Import Base Utf8_model Utf8_spec.

(** ** Bit-level facts *)

Lemma utf_cont_spec b : in_u8 b -> utf_cont b = (0x80 <=? b) && (b <=? 0xBF).
Proof.
  unfold in_u8, utf_cont. intros H.
  assert (E : forallb (fun n => let b := Z.of_nat n in
                Bool.eqb (Z.land b 0xc0 =? 0x80) ((0x80 <=? b) && (b <=? 0xBF)))
              (seq 0 256) = true) by (vm_compute; reflexivity).
  rewrite forallb_forall in E. specialize (E (Z.to_nat b)).
  cbv zeta in E. rewrite Z2Nat.id in E by lia.
  apply Bool.eqb_prop. apply E. apply in_seq. lia.
Qed.

Lemma land_small_mod b n : 0 <= n -> Z.land b (2 ^ n - 1) = b mod 2 ^ n.
Proof.
  intros. rewrite <- Z.land_ones by lia. rewrite Z.ones_equiv. reflexivity.
Qed.
Lemma land_3f b : Z.land b 0x3f = b mod 64.
Proof. apply (land_small_mod b 6); lia. Qed.
Lemma land_1f b : Z.land b 0x1f = b mod 32.
Proof. apply (land_small_mod b 5); lia. Qed.
Lemma land_0f b : Z.land b 0xf = b mod 16.
Proof. apply (land_small_mod b 4); lia. Qed.
Lemma land_07 b : Z.land b 7 = b mod 8.
Proof. apply (land_small_mod b 3); lia. Qed.

Lemma land_shiftl_small a b n :
  0 <= n -> 0 <= b < 2 ^ n -> Z.land (Z.shiftl a n) b = 0.
Proof.
  intros Hn Hb. apply Z.bits_inj'. intros k Hk. rewrite Z.land_spec, Z.bits_0.
  destruct (Z.ltb_spec k n).
  - rewrite Z.shiftl_spec_low by lia. reflexivity.
  - replace (Z.testbit b k) with false. { apply andb_false_r. }
    symmetry. rewrite <- (Z.mod_small b (2 ^ n)) by lia.
    apply Z.mod_pow2_bits_high. lia.
Qed.

Lemma lor_shiftl_add a b n :
  0 <= n -> 0 <= b < 2 ^ n -> Z.lor (Z.shiftl a n) b = a * 2 ^ n + b.
Proof.
  intros Hn Hb. rewrite <- Z.shiftl_mul_pow2 by lia.
  rewrite <- Z.lxor_lor by (apply land_shiftl_small; lia).
  symmetry. apply Z.add_nocarry_lxor. apply land_shiftl_small; lia.
Qed.

(** The three combinations used by the decoder. *)
Lemma comb2 a b : Z.lor (Z.shiftl (Z.land a 0x1f) 6) (Z.land b 0x3f) = (a mod 32) * 64 + b mod 64.
Proof.
  rewrite land_3f, land_1f. rewrite lor_shiftl_add; [reflexivity | lia |].
  apply Z.mod_pos_bound; lia.
Qed.
Lemma comb3 a b c :
  Z.lor (Z.lor (Z.shiftl (Z.land a 0xf) 12) (Z.shiftl (Z.land b 0x3f) 6)) (Z.land c 0x3f)
  = (a mod 16) * 4096 + (b mod 64) * 64 + c mod 64.
Proof.
  rewrite !land_3f, land_0f. rewrite <- Z.lor_assoc.
  pose proof (Z.mod_pos_bound b 64 ltac:(lia)). pose proof (Z.mod_pos_bound c 64 ltac:(lia)).
  rewrite (lor_shiftl_add (b mod 64)) by (change (2 ^ 6) with 64; lia).
  rewrite lor_shiftl_add by (change (2 ^ 6) with 64; change (2 ^ 12) with 4096; lia).
  change (2 ^ 6) with 64; change (2 ^ 12) with 4096; lia.
Qed.
Lemma comb4 a b c d :
  Z.lor (Z.lor (Z.lor (Z.shiftl (Z.land a 7) 18) (Z.shiftl (Z.land b 0x3f) 12))
               (Z.shiftl (Z.land c 0x3f) 6)) (Z.land d 0x3f)
  = (a mod 8) * 262144 + (b mod 64) * 4096 + (c mod 64) * 64 + d mod 64.
Proof.
  rewrite !land_3f, land_07. rewrite <- !Z.lor_assoc.
  pose proof (Z.mod_pos_bound b 64 ltac:(lia)). pose proof (Z.mod_pos_bound c 64 ltac:(lia)).
  pose proof (Z.mod_pos_bound d 64 ltac:(lia)).
  rewrite (lor_shiftl_add (c mod 64)) by (change (2 ^ 6) with 64; lia).
  rewrite (lor_shiftl_add (b mod 64)) by (change (2 ^ 6) with 64; change (2 ^ 12) with 4096; lia).
  rewrite lor_shiftl_add
    by (change (2 ^ 6) with 64; change (2 ^ 12) with 4096; change (2 ^ 18) with 262144; lia).
  change (2 ^ 6) with 64; change (2 ^ 12) with 4096; change (2 ^ 18) with 262144; lia.
Qed.

Lemma u32_id z : 0 <= z < 4294967296 -> u32 z = z.
Proof. intros; unfold u32; apply Z.mod_small; lia. Qed.
Lemma u32_neg z : -4294967296 <= z < 0 -> u32 z = z + 4294967296.
Proof.
  intros; unfold u32. symmetry. apply Z.mod_unique with (-1); lia.
Qed.
Lemma u8_id z : 0 <= z < 256 -> u8 z = z.
Proof. intros; unfold u8; apply Z.mod_small; lia. Qed.

Lemma lead_check uc : 0x80 <= uc <= 0xff ->
  (u32 (uc - 0xc2) >? 0xf4 - 0xc2) = (uc <? 0xc2) || (0xf4 <? uc).
Proof.
  intros. destruct (Z.ltb_spec uc 0xc2).
  - rewrite u32_neg by lia. cbn [orb]. lia.
  - rewrite u32_id by lia. cbn [orb]. lia.
Qed.

Lemma zsub_cons {A} (l : list A) p n x :
  0 <= p -> 0 < n -> znth l p = Some x -> zsub l p n = x :: zsub l (p + 1) (n - 1).
Proof.
  intros Hp Hn E. pose proof (znth_Some _ _ _ E). zext.
  replace (Z.max 0 p + i) with p by lia. congruence.
Qed.
Lemma zsub_0 {A} (l : list A) p n : n <= 0 -> zsub l p n = [].
Proof. intros. zext. Qed.

Lemma rd_Ret mem p b : rd mem p = Ret b -> znth mem p = Some b.
Proof. unfold rd. destruct (znth mem p); congruence. Qed.
Lemma rd_ok mem p b : znth mem p = Some b -> rd mem p = Ret b.
Proof. unfold rd. intros ->; auto. Qed.

Lemma Forall_znth {A} (P : A -> Prop) l i x : Forall P l -> znth l i = Some x -> P x.
Proof. intros H E. apply znth_In in E. rewrite Forall_forall in H. auto. Qed.

Lemma mod_sub a m k : 0 < m -> k * m <= a < (k + 1) * m -> a mod m = a - k * m.
Proof. intros. symmetry. apply Z.mod_unique with k; lia. Qed.

(** ** The decoder, characterised *)

Ltac iter_step :=
  match goal with
  | H : obind (rd ?m ?p) _ = Ret _ |- _ =>
      let E := fresh "E" in destruct (rd m p) eqn:E; cbn [obind] in H; try discriminate;
      apply rd_Ret in E
  | H : (if ?b then _ else _) = Ret _ |- _ =>
      let C := fresh "C" in destruct b eqn:C; try discriminate
  end.

Lemma iterate_sound mem p n r c :
  Forall in_u8 mem -> 0 <= p -> 0 < n ->
  utf8_iterate mem p n = Ret (r, c) -> 0 < r ->
  wf_char (zsub mem p r) c /\ r <= n.
Proof.
  intros HB Hp Hn H Hr. unfold utf8_iterate in H.
  replace (n =? 0) with false in H by lia.
  replace (n <? 0) with false in H by lia.
  unfold INVALIDUTF8 in H.
  iter_step. rename a into uc.
  assert (U : in_u8 uc) by (eapply Forall_znth; eauto). unfold in_u8 in U.
  iter_step.
  { inversion H; subst. split; [| lia].
    rewrite (zsub_cons mem p 1 c), zsub_0 by (auto; lia).
    constructor. unfold byte_in; lia. }
  rewrite lead_check in H by lia.
  iter_step; [inversion H; lia |].
  iter_step; [| iter_step].
  - (* two bytes *)
    iter_step; [inversion H; lia |].
    iter_step. rename a into b1.
    assert (B1 : in_u8 b1) by (eapply Forall_znth; eauto).
    rewrite utf_cont_spec in H by auto.
    iter_step; [inversion H; lia |].
    rewrite comb2 in H. inversion H; subst. split; [| lia].
    rewrite (zsub_cons mem p _ uc), (zsub_cons mem (p + 1) _ b1), zsub_0 by (auto; lia).
    replace (uc mod 32) with (uc - 0xC0) by (rewrite (mod_sub uc 32 6); lia).
    replace (b1 mod 64) with (b1 - 0x80) by (rewrite (mod_sub b1 64 2); lia).
    constructor; unfold tail_byte, byte_in; lia.
  - (* three bytes *)
    iter_step; [inversion H; lia |].
    iter_step. rename a into b1.
    assert (B1 : in_u8 b1) by (eapply Forall_znth; eauto).
    rewrite utf_cont_spec in H by auto.
    iter_step; [inversion H; lia |].
    iter_step. rename a into b2.
    assert (B2 : in_u8 b2) by (eapply Forall_znth; eauto).
    rewrite utf_cont_spec in H by auto.
    iter_step; [inversion H; lia |].
    iter_step; [inversion H; lia |].
    rewrite comb3 in H.
    replace (uc mod 16) with (uc - 0xE0) in H by (rewrite (mod_sub uc 16 14); lia).
    replace (b1 mod 64) with (b1 - 0x80) in H by (rewrite (mod_sub b1 64 2); lia).
    replace (b2 mod 64) with (b2 - 0x80) in H by (rewrite (mod_sub b2 64 2); lia).
    iter_step; [inversion H; lia |].
    inversion H; subst. split; [| lia].
    rewrite (zsub_cons mem p _ uc), (zsub_cons mem (p + 1) _ b1),
      (zsub_cons mem (p + 1 + 1) _ b2), zsub_0 by (auto; lia).
    constructor; unfold tail_byte, byte_in in *; lia.
  - (* four bytes *)
    iter_step; [inversion H; lia |].
    iter_step. rename a into b1.
    assert (B1 : in_u8 b1) by (eapply Forall_znth; eauto).
    rewrite utf_cont_spec in H by auto.
    iter_step; [inversion H; lia |].
    iter_step. rename a into b2.
    assert (B2 : in_u8 b2) by (eapply Forall_znth; eauto).
    rewrite utf_cont_spec in H by auto.
    iter_step; [inversion H; lia |].
    iter_step. rename a into b3.
    assert (B3 : in_u8 b3) by (eapply Forall_znth; eauto).
    rewrite utf_cont_spec in H by auto.
    iter_step; [inversion H; lia |].
    rewrite comb4 in H.
    replace (uc mod 8) with (uc - 0xF0) in H by (rewrite (mod_sub uc 8 30); lia).
    replace (b1 mod 64) with (b1 - 0x80) in H by (rewrite (mod_sub b1 64 2); lia).
    replace (b2 mod 64) with (b2 - 0x80) in H by (rewrite (mod_sub b2 64 2); lia).
    replace (b3 mod 64) with (b3 - 0x80) in H by (rewrite (mod_sub b3 64 2); lia).
    match type of H with (if ?b then _ else _) = _ => destruct b eqn:C7 end;
      [inversion H; lia |].
    inversion H; subst. split; [| lia].
    replace (p + 1 + 2) with (p + 1 + 1 + 1) in * by lia.
    rewrite (zsub_cons mem p _ uc), (zsub_cons mem (p + 1) _ b1),
      (zsub_cons mem (p + 1 + 1) _ b2), (zsub_cons mem (p + 1 + 1 + 1) _ b3), zsub_0
      by (auto; lia).
    constructor; unfold tail_byte, byte_in in *; try lia.
    destruct (Z.eqb_spec uc 0xf0); [left; lia |].
    destruct (Z.eqb_spec uc 0xf4); [right; right; lia |]. right; left; lia.
Qed.

(** The value is 1..4 or the error, never out of bounds of the given length. *)
Lemma iterate_total mem p n :
  Forall in_u8 mem -> 0 <= p -> 0 < n -> p + n <= zlen mem ->
  exists r c, utf8_iterate mem p n = Ret (r, c) /\
              ((1 <= r <= 4) \/ (r = -3 /\ c = -1)).
Proof.
  intros HB Hp Hn HL. unfold utf8_iterate, INVALIDUTF8.
  replace (n =? 0) with false by lia. replace (n <? 0) with false by lia.
  destruct (znth_lt mem p ltac:(lia)) as [uc E0]. rewrite (rd_ok _ _ _ E0). cbn [obind].
  destruct (uc <? 0x80). { do 2 eexists; split; eauto; lia. }
  destruct (u32 (uc - 0xc2) >? 0xf4 - 0xc2). { do 2 eexists; split; eauto; lia. }
  destruct (uc <? 0xe0); [| destruct (uc <? 0xf0)].
  - destruct (Z.geb_spec (p + 1) (p + n)). { do 2 eexists; split; eauto; lia. }
    destruct (znth_lt mem (p + 1) ltac:(lia)) as [b1 E1]. rewrite (rd_ok _ _ _ E1). cbn [obind].
    destruct (negb (utf_cont b1)); do 2 eexists; split; eauto; lia.
  - destruct (Z.geb_spec (p + 1 + 1) (p + n)). { do 2 eexists; split; eauto; lia. }
    destruct (znth_lt mem (p + 1) ltac:(lia)) as [b1 E1]. rewrite (rd_ok _ _ _ E1). cbn [obind].
    destruct (negb (utf_cont b1)). { do 2 eexists; split; eauto; lia. }
    destruct (znth_lt mem (p + 1 + 1) ltac:(lia)) as [b2 E2]. rewrite (rd_ok _ _ _ E2). cbn [obind].
    destruct (negb (utf_cont b2)). { do 2 eexists; split; eauto; lia. }
    destruct ((uc =? 0xed) && (b1 >? 0x9f)). { do 2 eexists; split; eauto; lia. }
    match goal with |- context [if ?b then _ else _] => destruct b end;
      do 2 eexists; split; eauto; lia.
  - destruct (Z.geb_spec (p + 1 + 2) (p + n)). { do 2 eexists; split; eauto; lia. }
    destruct (znth_lt mem (p + 1) ltac:(lia)) as [b1 E1]. rewrite (rd_ok _ _ _ E1). cbn [obind].
    destruct (negb (utf_cont b1)). { do 2 eexists; split; eauto; lia. }
    destruct (znth_lt mem (p + 1 + 1) ltac:(lia)) as [b2 E2]. rewrite (rd_ok _ _ _ E2). cbn [obind].
    destruct (negb (utf_cont b2)). { do 2 eexists; split; eauto; lia. }
    destruct (znth_lt mem (p + 1 + 2) ltac:(lia)) as [b3 E3]. rewrite (rd_ok _ _ _ E3). cbn [obind].
    destruct (negb (utf_cont b3)). { do 2 eexists; split; eauto; lia. }
    match goal with |- context [if ?b then Ret _ else _] => destruct b end;
      do 2 eexists; split; eauto; lia.
Qed.

Lemma znth_of_zsub {A} (mem : list A) p n s i x :
  0 <= p -> zsub mem p n = s -> znth s i = Some x -> 0 <= i < n -> znth mem (p + i) = Some x.
Proof.
  intros Hp <- H Hi. rewrite znth_sub in H.
  replace ((0 <=? i) && (i <? n)) with true in H by lia.
  replace (Z.max 0 p + i) with (p + i) in H by lia. exact H.
Qed.

Lemma iterate_complete mem p n s c :
  0 <= p -> zlen s <= n -> zsub mem p (zlen s) = s -> wf_char s c ->
  utf8_iterate mem p n = Ret (zlen s, c).
Proof.
  intros Hp Hn HS W.
  assert (N : forall i x, znth s i = Some x -> znth mem (p + i) = Some x).
  { intros i x E. eapply znth_of_zsub; eauto. eapply znth_Some; eauto. }
  assert (L : 1 <= zlen s) by (destruct W; rewrite ?zlen_cons; zlen_facts; lia).
  unfold utf8_iterate.
  replace (n =? 0) with false by lia. replace (n <? 0) with false by lia.
  destruct W as [b0 H0 | b0 b1 H0 H1 | b0 b1 b2 H0 H2 | b0 b1 b2 b3 H0 H2 H3];
    unfold tail_byte, byte_in in *;
    (assert (M0 : znth mem p = Some b0)
      by (replace p with (p + 0) by lia; apply N; reflexivity));
    rewrite (rd_ok _ _ _ M0); cbn [obind].
  - replace (b0 <? 0x80) with true by lia. reflexivity.
  - replace (b0 <? 0x80) with false by lia.
    rewrite lead_check by lia.
    replace ((b0 <? 0xc2) || (0xf4 <? b0)) with false by lia.
    replace (b0 <? 0xe0) with true by lia.
    change (zlen [b0; b1]) with 2 in *.
    replace (p + 1 >=? p + n) with false by lia.
    rewrite (rd_ok mem (p + 1) b1) by (apply N; reflexivity). cbn [obind].
    rewrite utf_cont_spec by (unfold in_u8; lia).
    replace (negb ((0x80 <=? b1) && (b1 <=? 0xBF))) with false by lia.
    rewrite comb2. rewrite (mod_sub b0 32 6), (mod_sub b1 64 2) by lia. reflexivity.
  - replace (b0 <? 0x80) with false by lia.
    rewrite lead_check by lia.
    replace ((b0 <? 0xc2) || (0xf4 <? b0)) with false by lia.
    replace (b0 <? 0xe0) with false by lia.
    replace (b0 <? 0xf0) with true by lia.
    change (zlen [b0; b1; b2]) with 3 in *.
    replace (p + 1 + 1 >=? p + n) with false by lia.
    rewrite (rd_ok mem (p + 1) b1) by (apply N; reflexivity). cbn [obind].
    rewrite utf_cont_spec by (unfold in_u8; lia).
    replace (negb ((0x80 <=? b1) && (b1 <=? 0xBF))) with false by lia.
    rewrite (rd_ok mem (p + 1 + 1) b2)
      by (replace (p + 1 + 1) with (p + 2) by lia; apply N; reflexivity). cbn [obind].
    rewrite utf_cont_spec by (unfold in_u8; lia).
    replace (negb ((0x80 <=? b2) && (b2 <=? 0xBF))) with false by lia.
    replace ((b0 =? 0xed) && (b1 >? 0x9f)) with false by lia.
    rewrite comb3. rewrite (mod_sub b0 16 14), (mod_sub b1 64 2), (mod_sub b2 64 2) by lia.
    match goal with |- context [if ?b then _ else _] => replace b with false by lia end.
    do 2 f_equal. 
  - replace (b0 <? 0x80) with false by lia.
    rewrite lead_check by lia.
    replace ((b0 <? 0xc2) || (0xf4 <? b0)) with false by lia.
    replace (b0 <? 0xe0) with false by lia.
    replace (b0 <? 0xf0) with false by lia.
    change (zlen [b0; b1; b2; b3]) with 4 in *.
    replace (p + 1 + 2 >=? p + n) with false by lia.
    rewrite (rd_ok mem (p + 1) b1) by (apply N; reflexivity). cbn [obind].
    rewrite utf_cont_spec by (unfold in_u8; lia).
    replace (negb ((0x80 <=? b1) && (b1 <=? 0xBF))) with false by lia.
    rewrite (rd_ok mem (p + 1 + 1) b2)
      by (replace (p + 1 + 1) with (p + 2) by lia; apply N; reflexivity). cbn [obind].
    rewrite utf_cont_spec by (unfold in_u8; lia).
    replace (negb ((0x80 <=? b2) && (b2 <=? 0xBF))) with false by lia.
    rewrite (rd_ok mem (p + 1 + 2) b3)
      by (replace (p + 1 + 2) with (p + 3) by lia; apply N; reflexivity). cbn [obind].
    rewrite utf_cont_spec by (unfold in_u8; lia).
    replace (negb ((0x80 <=? b3) && (b3 <=? 0xBF))) with false by lia.
    replace (if b0 =? 0xf0 then b1 <? 0x90 else if b0 =? 0xf4 then b1 >? 0x8f else false)
      with false.
    + rewrite comb4.
      rewrite (mod_sub b0 8 30), (mod_sub b1 64 2), (mod_sub b2 64 2), (mod_sub b3 64 2) by lia.
      reflexivity.
    + destruct (Z.eqb_spec b0 0xf0); [lia |]. destruct (Z.eqb_spec b0 0xf4); lia.
Qed.

(** ** The encoder *)

Lemma shiftr_div a n : 0 <= n -> Z.shiftr a n = a / 2 ^ n.
Proof. apply Z.shiftr_div_pow2. Qed.

Lemma encode_wf cp : scalar cp -> wf_char (codepoint_to_utf8 cp) cp.
Proof.
  intros S. unfold scalar in S. unfold codepoint_to_utf8.
  replace (cp <? 0) with false by lia.
  rewrite !shiftr_div, !land_3f by lia.
  change (2 ^ 6) with 64; change (2 ^ 12) with 4096; change (2 ^ 18) with 262144.
  destruct (Z.ltb_spec cp 0x80).
  { rewrite u8_id by lia. constructor; unfold byte_in; lia. }
  destruct (Z.ltb_spec cp 0x800).
  { pose proof (Z.mod_pos_bound cp 64 ltac:(lia)).
    pose proof (Z_div_mod_eq_full cp 64).
    rewrite !u8_id by lia.
    replace (wf_char _ cp) with
      (wf_char [0xC0 + cp / 64; 0x80 + cp mod 64]
         ((0xC0 + cp / 64 - 0xC0) * 64 + (0x80 + cp mod 64 - 0x80)))
      by (f_equal; lia).
    constructor; unfold tail_byte, byte_in; lia. }
  destruct (Z.ltb_spec cp 0x10000).
  { pose proof (Z.mod_pos_bound cp 64 ltac:(lia)).
    pose proof (Z_div_mod_eq_full cp 64).
    pose proof (Z.mod_pos_bound (cp / 64) 64 ltac:(lia)).
    pose proof (Z_div_mod_eq_full (cp / 64) 64).
    assert (E : cp / 4096 = cp / 64 / 64) by (rewrite Z.div_div by lia; reflexivity).
    rewrite E. set (q := cp / 64 / 64) in *. set (m1 := (cp / 64) mod 64) in *.
    set (m0 := cp mod 64) in *.
    rewrite !u8_id by lia.
    replace (wf_char _ cp) with
      (wf_char [0xE0 + q; 0x80 + m1; 0x80 + m0]
         ((0xE0 + q - 0xE0) * 4096 + (0x80 + m1 - 0x80) * 64 + (0x80 + m0 - 0x80)))
      by (f_equal; lia).
    constructor; unfold tail_byte, byte_in; lia. }
  destruct (Z.ltb_spec cp 0x110000); [| lia].
  pose proof (Z.mod_pos_bound cp 64 ltac:(lia)).
  pose proof (Z_div_mod_eq_full cp 64).
  pose proof (Z.mod_pos_bound (cp / 64) 64 ltac:(lia)).
  pose proof (Z_div_mod_eq_full (cp / 64) 64).
  pose proof (Z.mod_pos_bound (cp / 64 / 64) 64 ltac:(lia)).
  pose proof (Z_div_mod_eq_full (cp / 64 / 64) 64).
  assert (E : cp / 4096 = cp / 64 / 64) by (rewrite Z.div_div by lia; reflexivity).
  assert (E' : cp / 262144 = cp / 64 / 64 / 64) by (rewrite !Z.div_div by lia; reflexivity).
  rewrite E, E'. set (q := cp / 64 / 64 / 64) in *. set (m2 := (cp / 64 / 64) mod 64) in *.
  set (m1 := (cp / 64) mod 64) in *. set (m0 := cp mod 64) in *.
  rewrite !u8_id by lia.
  replace (wf_char _ cp) with
    (wf_char [0xF0 + q; 0x80 + m2; 0x80 + m1; 0x80 + m0]
       ((0xF0 + q - 0xF0) * 262144 + (0x80 + m2 - 0x80) * 4096 + (0x80 + m1 - 0x80) * 64
        + (0x80 + m0 - 0x80)))
    by (f_equal; lia).
  constructor; unfold tail_byte, byte_in; lia.
Qed.

Lemma encode_none cp : cp < 0 \/ 0x10FFFF < cp -> codepoint_to_utf8 cp = [].
Proof.
  intros. unfold codepoint_to_utf8.
  destruct (Z.ltb_spec cp 0); auto.
  replace (cp <? 0x80) with false by lia. replace (cp <? 0x800) with false by lia.
  replace (cp <? 0x10000) with false by lia. replace (cp <? 0x110000) with false by lia. auto.
Qed.

Lemma is_scalar_spec cp : is_unicode_scalar_value cp = true <-> scalar cp.
Proof.
  unfold is_unicode_scalar_value, scalar.
  destruct ((cp >=? 0) && (cp <=? 0x10FFFF)) eqn:A;
    [destruct (negb ((cp >=? 0xD800) && (cp <=? 0xDFFF))) eqn:B |]; lia.
Qed.

Lemma wf_char_scalar s c : wf_char s c -> scalar c.
Proof. unfold scalar. destruct 1; unfold tail_byte, byte_in in *; lia. Qed.
Lemma wf_char_len s c : wf_char s c -> 1 <= zlen s <= 4.
Proof. destruct 1; rewrite ?zlen_cons, zlen_nil; lia. Qed.
Lemma wf_char_bytes s c : wf_char s c -> Forall in_u8 s.
Proof.
  destruct 1; unfold tail_byte, byte_in in *; repeat constructor; unfold in_u8; lia.
Qed.

(** A well-formed sequence is determined by its code point. *)
Lemma wf_char_inj s s' c : wf_char s c -> wf_char s' c -> s = s'.
Proof.
  intros H H'. inversion H; subst; inversion H'; subst; unfold tail_byte, byte_in in *;
    try lia; repeat (f_equal; try lia).
Qed.
(** ... and a code point by the sequence; no sequence is a proper prefix of another. *)
Lemma wf_char_prefix_free s c t s' c' t' :
  wf_char s c -> wf_char s' c' -> s ++ t = s' ++ t' -> s = s' /\ c = c'.
Proof.
  intros H H' E. inversion H; subst; inversion H'; subst; unfold tail_byte, byte_in in *;
    cbn [app] in E; inversion E; subst; try lia; auto.
Qed.

(** ** Reading inside a NUL-terminated string *)

Lemma zdrop_bytes s p : Forall in_u8 s -> Forall in_u8 (zdrop p s).
Proof. intros H. unfold zdrop. rewrite Forall_forall in *. intros x Hx. apply H.
  rewrite <- (firstn_skipn (Z.to_nat p) s). apply in_or_app; auto. Qed.

Lemma utf_cont_0 : utf_cont 0 = false.
Proof. reflexivity. Qed.

Lemma iterate_nul s p :
  Forall in_u8 s -> 0 <= p < zlen s ->
  utf8_iterate (s ++ [0]) p (zlen s) = utf8_iterate (zdrop p s) 0 (zlen s - p).
Proof.
  intros HB Hp.
  assert (R : forall i, 0 <= i -> znth (s ++ [0]) (p + i) =
            if i <? zlen s - p then znth (zdrop p s) i
            else if i =? zlen s - p then Some 0 else None).
  { intros i Hi. znorm. zcase; try lia; zfin. }
  unfold utf8_iterate.
  replace (zlen s =? 0) with false by lia. replace (zlen s <? 0) with false by lia.
  replace (zlen s - p =? 0) with false by lia. replace (zlen s - p <? 0) with false by lia.
  assert (R0 : rd (s ++ [0]) p = rd (zdrop p s) 0).
  { unfold rd. specialize (R 0 ltac:(lia)). rewrite Z.add_0_r in R. rewrite R.
    replace (0 <? zlen s - p) with true by lia. reflexivity. }
  rewrite R0. destruct (rd (zdrop p s) 0) eqn:E0; cbn [obind]; auto.
  (* a read that is inside gives the same byte, the read at the end gives NUL *)
  assert (RD : forall i, 0 <= i < zlen s - p -> rd (s ++ [0]) (p + i) = rd (zdrop p s) i).
  { intros i Hi. unfold rd. rewrite R by lia. replace (i <? zlen s - p) with true by lia. auto. }
  assert (RE : rd (s ++ [0]) (p + (zlen s - p)) = Ret 0).
  { unfold rd. rewrite R by lia. replace (zlen s - p <? zlen s - p) with false by lia.
    replace (zlen s - p =? zlen s - p) with true by lia. auto. }
  assert (OK : forall i, 0 <= i < zlen s - p -> exists b, rd (zdrop p s) i = Ret b).
  { intros i Hi. destruct (znth_lt (zdrop p s) i) as [b Hb].
    - autorewrite with zlen. lia.
    - exists b. apply rd_ok; auto. }
  set (k := zlen s - p) in *.
  change (0 + 1) with 1. change (0 + k) with k. change (1 + 1) with 2. change (1 + 2) with 3.
  replace (p + 1 + 1) with (p + 2) by lia. replace (p + 1 + 2) with (p + 3) by lia.
  destruct (a <? 0x80); auto.
  destruct (u32 (a - 0xc2) >? 0xf4 - 0xc2); auto.
  destruct (a <? 0xe0); [| destruct (a <? 0xf0)].
  - destruct (Z.geb_spec (p + 1) (p + zlen s)); destruct (Z.geb_spec 1 k); try lia; auto.
    + replace 1 with k at 1 by lia. rewrite RE. reflexivity.
    + rewrite RD by lia. reflexivity.
  - destruct (Z.geb_spec (p + 2) (p + zlen s)); destruct (Z.geb_spec 2 k); try lia; auto.
    + destruct (Z.eqb_spec k 1).
      * replace 1 with k at 1 by lia. rewrite RE. reflexivity.
      * rewrite RD by lia. destruct (OK 1 ltac:(lia)) as [b1 B1]. rewrite B1. cbn [obind].
        destruct (negb (utf_cont b1)); auto.
        replace 2 with k at 1 by lia. rewrite RE. reflexivity.
    + rewrite !RD by lia. reflexivity.
  - destruct (Z.geb_spec (p + 3) (p + zlen s)); destruct (Z.geb_spec 3 k); try lia; auto.
    + destruct (Z.eqb_spec k 1).
      * replace 1 with k at 1 by lia. rewrite RE. reflexivity.
      * rewrite RD by lia. destruct (OK 1 ltac:(lia)) as [b1 B1]. rewrite B1. cbn [obind].
        destruct (negb (utf_cont b1)); auto.
        destruct (Z.eqb_spec k 2).
        -- replace 2 with k at 1 by lia. rewrite RE. reflexivity.
        -- rewrite RD by lia. destruct (OK 2 ltac:(lia)) as [b2 B2]. rewrite B2. cbn [obind].
           destruct (negb (utf_cont b2)); auto.
           replace 3 with k at 1 by lia. rewrite RE. reflexivity.
    + rewrite !RD by lia. reflexivity.
Qed.

Lemma zsub_app_prefix {A} (mem : list A) p n s t :
  0 <= p -> zsub mem p n = s ++ t -> zsub mem p (zlen s) = s /\ zlen s <= Z.max 0 n.
Proof.
  intros Hp H.
  assert (L : zlen s + zlen t <= Z.max 0 n).
  { rewrite <- zlen_app, <- H, zlen_sub. lia. }
  pose proof (zlen_nonneg t). split; [| lia].
  apply (f_equal (ztake (zlen s))) in H.
  rewrite ztake_app_l, (ztake_all (zlen s) s) in H by lia.
  rewrite <- H at 2. pose proof (zlen_nonneg s). zext.
Qed.

Lemma iterate_exact mem p n :
  Forall in_u8 mem -> 0 <= p -> 0 < n -> p + n <= zlen mem ->
  (forall s cp t, zsub mem p n = s ++ t -> wf_char s cp ->
     utf8_iterate mem p n = Ret (zlen s, cp)) /\
  ((~ exists s cp t, zsub mem p n = s ++ t /\ wf_char s cp) ->
     utf8_iterate mem p n = Ret (-3, -1)).
Proof.
  intros HB Hp Hn HL. split.
  - intros s cp t H W. destruct (zsub_app_prefix _ _ _ _ _ Hp H) as [P Q].
    apply iterate_complete; auto. lia.
  - intros N. destruct (iterate_total mem p n HB Hp Hn HL) as (r & c & E & [R | [-> ->]]); auto.
    exfalso. apply N.
    destruct (iterate_sound mem p n r c HB Hp Hn E ltac:(lia)) as [W Q].
    exists (zsub mem p r), c, (zsub mem (p + r) (n - r)). split; auto. zext.
Qed.

Lemma encode_decode cp rest :
  scalar cp ->
  utf8_iterate (codepoint_to_utf8 cp ++ rest) 0 (zlen (codepoint_to_utf8 cp ++ rest))
  = Ret (zlen (codepoint_to_utf8 cp), cp).
Proof.
  intros S. pose proof (encode_wf cp S) as W. rewrite zlen_app.
  pose proof (zlen_nonneg rest).
  apply iterate_complete; auto; try lia.
  zlen_facts. zext.
Qed.

(** Surrogates are encoded to three bytes that the decoder rejects. *)
Lemma surrogate_rejected cp rest :
  0xD800 <= cp <= 0xDFFF -> Forall in_u8 rest ->
  zlen (codepoint_to_utf8 cp) = 3 /\
  utf8_iterate (codepoint_to_utf8 cp ++ rest) 0 (zlen (codepoint_to_utf8 cp ++ rest))
  = Ret (-3, -1).
Proof.
  intros H HR.
  unfold codepoint_to_utf8.
  replace (cp <? 0) with false by lia. replace (cp <? 0x80) with false by lia.
  replace (cp <? 0x800) with false by lia. replace (cp <? 0x10000) with true by lia.
  rewrite !shiftr_div, !land_3f by lia.
  change (2 ^ 6) with 64; change (2 ^ 12) with 4096.
  pose proof (Z.mod_pos_bound cp 64 ltac:(lia)).
  pose proof (Z_div_mod_eq_full cp 64).
  pose proof (Z.mod_pos_bound (cp / 64) 64 ltac:(lia)).
  pose proof (Z_div_mod_eq_full (cp / 64) 64).
  assert (E : cp / 4096 = cp / 64 / 64) by (rewrite Z.div_div by lia; reflexivity).
  rewrite E. set (q := cp / 64 / 64) in *. set (m1 := (cp / 64) mod 64) in *.
  set (m0 := cp mod 64) in *.
  assert (Q13 : q = 13) by lia. assert (32 <= m1) by lia. clearbody q m1 m0. clear E. rewrite Q13. clear Q13.
  rewrite !u8_id by lia.
  split; [reflexivity |].
  set (mem := [0xE0 + 13; 0x80 + m1; 0x80 + m0] ++ rest).
  assert (HB : Forall in_u8 mem).
  { subst mem. apply Forall_app; split; auto. repeat constructor; unfold in_u8; lia. }
  assert (HL : 0 < zlen mem) by (subst mem; rewrite zlen_app, !zlen_cons; zlen_facts; lia).
  destruct (iterate_exact mem 0 (zlen mem)) as [_ X]; auto; try lia.
  apply X. intros (s & c & t & P & W).
  assert (Q : zsub mem 0 (zlen mem) = mem) by zext.
  rewrite Q in P. subst mem. clear Q HB HL X. cbn [app] in P.
  remember (0x80 + m1) as x1. remember (0x80 + m0) as x0. change (0xE0 + 13) with 0xED in P.
  assert (X1 : 0xA0 <= x1) by lia. clear Heqx1 Heqx0.
  inversion W; subst; cbn [app] in P; inversion P; subst; unfold tail_byte, byte_in in *; lia.
Qed.

Lemma get_code_point_spec s off :
  Forall in_u8 s -> 0 <= off < zlen s ->
  (forall c cp t, zdrop off s = c ++ t -> wf_char c cp ->
     get_code_point (Some s) off = Ret (off + zlen c, cp)) /\
  ((~ exists c cp t, zdrop off s = c ++ t /\ wf_char c cp) ->
     get_code_point (Some s) off = Die "An invalid UTF-8 is gotten.").
Proof.
  intros HB Ho.
  assert (HL : zlen (zdrop off s) = zlen s - off) by (autorewrite with zlen; lia).
  assert (HQ : zsub (zdrop off s) 0 (zlen s - off) = zdrop off s) by zext.
  destruct (iterate_exact (zdrop off s) 0 (zlen s - off)) as [X Y];
    auto using zdrop_bytes; try lia.
  rewrite HQ in X, Y.
  unfold get_code_point.
  replace (negb (off >=? 0)) with false by lia.
  replace (negb (off <? zlen s)) with false by lia.
  rewrite iterate_nul by auto. split.
  - intros c cp t P W. rewrite (X c cp t P W). cbn [obind].
    pose proof (wf_char_len _ _ W). replace (zlen c >? 0) with true by lia. reflexivity.
  - intros N. rewrite (Y N). reflexivity.
Qed.
