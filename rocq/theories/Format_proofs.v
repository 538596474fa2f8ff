(** * Proofs about Format.sprintf *)
From Verif Require Import Base StM CLib Dec Array_model FnMem_model FnRev_proofs FnStr_model FnStr_spec FnStr_proofs
  StrBuf_model StrBuf_spec StrBuf_proofs FnSplit_proofs Utf8_model Utf8_spec Utf8_proofs FnUtf8_model FnUtf8_spec FnUtf8_proofs VmConv_props FnNum_spec
  Format_model Format_spec.

(** ** Numbers in text *)
Lemma hex_char_digit d : 0 <= d < 16 -> digit 16 (hex_char d) d /\ (48 <= hex_char d <= 57 \/ 97 <= hex_char d <= 102).
Proof. intros. unfold digit, hex_char. destruct (Z.ltb_spec d 10); lia. Qed.

Lemma number_nonempty b t v : number b t v -> t <> [].
Proof. intros []; [discriminate |]. destruct ds; discriminate. Qed.

Lemma number_zero v : number 16 [48] v -> v = 0.
Proof.
  intros N. remember [48] as t. destruct N as [c v D | ds n c v N D].
  - injection Heqt as ->. unfold digit in D. lia.
  - destruct ds as [| d ds]; [apply number_nonempty in N; congruence |]. destruct ds; discriminate.
Qed.

Lemma uhex_loop_spec f : forall n acc, 0 <= n -> n < 2 ^ Z.of_nat f -> (0 < f)%nat ->
  exists ds, uhex_loop f n acc = ds ++ acc /\ number 16 ds n /\ Forall (fun c => 48 <= c <= 57 \/ 97 <= c <= 97 + 5) ds /\
    (hd 0 ds = 48 -> ds = [48]) /\ (forall k, 1 <= k -> n < 16 ^ k -> zlen ds <= k).
Proof.
  induction f as [| f IH]; intros n acc N B P; [lia |]. cbn [uhex_loop].
  pose proof (Z.mod_pos_bound n 16 ltac:(lia)) as MB. pose proof (Z_div_mod_eq_full n 16) as DM.
  destruct (hex_char_digit (n mod 16) MB) as [HD HC].
  destruct (Z.eqb_spec (n / 16) 0) as [Q | Q].
  - exists [hex_char (n mod 16)]. split; [reflexivity |]. replace (n mod 16) with n in * by lia. split; [constructor; auto |].
    split; [constructor; [lia | constructor] |]. split; [cbn [hd]; intros ->; reflexivity |]. intros k K _. exact K.
  - assert (0 <= n / 16) by (apply Z.div_pos; lia).
    destruct f as [| f]. { cbn in B. rewrite Z.div_small in Q by lia. lia. }
    destruct (IH (n / 16) (hex_char (n mod 16) :: acc)) as (ds & E & NU & FA & HZ & LE); try lia.
    { assert (2 ^ Z.of_nat (S (S f)) = 2 * 2 ^ Z.of_nat (S f)) by (rewrite <- Z.pow_succ_r by lia; f_equal; lia).
      apply Z.div_lt_upper_bound; lia. }
    exists (ds ++ [hex_char (n mod 16)]). rewrite E, <- app_assoc. split; [reflexivity |]. split.
    { rewrite DM at 2. rewrite (Z.mul_comm 16). constructor; auto. }
    split; [apply Forall_app; split; [auto | constructor; [lia | constructor]] |]. split.
    + intros H0. destruct ds as [| d ds]; [apply number_nonempty in NU; congruence |]. cbn [hd app] in *. specialize (HZ H0).
      injection HZ as -> ->. apply number_zero in NU. lia.
    + intros k K LT. rewrite zlen_app, zlen_cons, zlen_nil.
      assert (1 < k). { destruct (Z.eq_dec k 1); [subst; rewrite Z.pow_1_r in LT; rewrite Z.div_small in Q; lia | lia]. }
      assert (zlen ds <= k - 1); [| lia]. apply LE; [lia |]. apply Z.div_lt_upper_bound; [lia |].
      rewrite <- Z.pow_succ_r by lia. replace (Z.succ (k - 1)) with k by lia. exact LT.
Qed.

Lemma uhex_spec n : 0 <= n -> hexadecimal_of 97 n (uhex n) /\ forall k, 1 <= k -> n < 16 ^ k -> zlen (uhex n) <= k.
Proof.
  intros N. unfold uhex.
  destruct (uhex_loop_spec (S (Z.to_nat (Z.log2 n))) n []) as (ds & E & NU & FA & HZ & LE); try lia.
  { rewrite Nat2Z.inj_succ, Z2Nat.id by apply Z.log2_nonneg. destruct (Z.eq_dec n 0) as [-> |]; [reflexivity |]. apply Z.log2_spec; lia. }
  rewrite E, app_nil_r. split; auto. split; auto.
Qed.

Lemma number_upper t v : number 16 t v -> Forall (fun c => 48 <= c <= 57 \/ 97 <= c <= 97 + 5) t -> number 16 (map upper t) v.
Proof.
  assert (D : forall c v, (48 <= c <= 57 \/ 97 <= c <= 97 + 5) -> digit 16 c v -> digit 16 (upper c) v).
  { intros c x R. unfold digit, upper, small. destruct (Z.leb_spec 97 c); destruct (Z.leb_spec c 122); cbn [andb]; lia. }
  induction 1 as [c x DG | ds n c x NU IH DG]; intros F.
  - inversion F; subst. constructor; auto.
  - apply Forall_app in F as [F1 F2]. inversion F2; subst. rewrite map_app. cbn [map]. constructor; auto.
Qed.
Lemma hex_upper v t : hexadecimal_of 97 v t -> hexadecimal_of 65 v (map upper t).
Proof.
  intros (N & H & F). split; [apply number_upper; auto |]. split.
  - destruct t as [| c t]; [cbn; discriminate |]. inversion F as [| ? ? FC FT]; subst. cbn [map hd] in *. intros E.
    assert (c = 48). { unfold upper, small in E. destruct (Z.leb_spec 97 c); destruct (Z.leb_spec c 122); cbn [andb] in E; lia. }
    specialize (H H0). injection H as -> ->. reflexivity.
  - apply Forall_forall. intros x X. apply in_map_iff in X as (c & <- & I). rewrite Forall_forall in F. specialize (F c I).
    unfold upper, small. destruct (Z.leb_spec 97 c); destruct (Z.leb_spec c 122); cbn [andb]; lia.
Qed.

Lemma dec_ok v : in_i64 v -> decimal_of v (print_dec v).
Proof. intros I. rewrite <- int_to_string_text by auto. apply C19_int_to_string; auto. Qed.
Lemma udec_dec n : 0 <= n -> udec n = print_dec n.
Proof. intros. unfold print_dec. destruct (Z.ltb_spec n 0); [lia | reflexivity]. Qed.
Lemma udec_ok n : 0 <= n -> decimal_of n (udec n).
Proof.
  intros N. destruct (udec_spec n N) as (D & Va & Ne & Hd & Z0). exists (udec n). destruct (Z.ltb_spec n 0); [lia |].
  split; [reflexivity |]. split; auto. split; auto. split; [rewrite Z.abs_eq by lia; auto |]. intros H1. apply Z0.
  destruct (Z.eq_dec n 0); auto. exfalso. apply Hd; auto. lia.
Qed.

Lemma decimal_string v t : decimal_of v t -> Forall (fun b => 0 <= b <= 255) t /\ t <> [].
Proof.
  intros (ds & -> & F & N & _). split.
  - apply Forall_app. split; [destruct (v <? 0); repeat constructor; lia |]. eapply Forall_impl; [| apply F]. intros a A. unfold Dec.is_digit in A. lia.
  - destruct (v <? 0); [discriminate |]. exact N.
Qed.
Lemma hex_string l v t : (l = 97 \/ l = 65) -> hexadecimal_of l v t -> Forall (fun b => 0 <= b <= 255) t /\ t <> [].
Proof.
  intros L (N & _ & F). split; [| eapply number_nonempty; eauto]. eapply Forall_impl; [| apply F]. cbn. intros. lia.
Qed.

Lemma snprintf_new_ok n t : zlen t < n -> snprintf_new n t = Ret t.
Proof. intros. unfold snprintf_new. destruct (Z.ltb_spec (zlen t) n); [reflexivity | lia]. Qed.

Lemma print_dec_len v k : 1 <= k -> - 10 ^ k < v < 10 ^ k -> zlen (print_dec v) <= k + 1.
Proof.
  intros K B. unfold print_dec. destruct (Z.ltb_spec v 0).
  - rewrite zlen_cons. pose proof (udec_length (- v) k). lia.
  - pose proof (udec_length v k). lia.
Qed.
Lemma snprintf_d_ok z : in_i32 z -> snprintf_d z = Ret (print_dec z).
Proof. intros I. apply snprintf_new_ok. pose proof (print_dec_len z 10) as P. change (10 ^ 10) with 10000000000 in P. unfold in_i32 in I. lia. Qed.
Lemma snprintf_ld_ok z : in_i64 z -> snprintf_ld z = Ret (print_dec z).
Proof. intros I. apply snprintf_new_ok. pose proof (print_dec_len z 19) as P. change (10 ^ 19) with 10000000000000000000 in P. unfold in_i64 in I. lia. Qed.
Lemma snprintf_u_ok z : snprintf_u z = Ret (udec (z mod 2 ^ 32)).
Proof.
  apply snprintf_new_ok. change (2 ^ 32) with 4294967296. pose proof (Z.mod_pos_bound z 4294967296 ltac:(lia)).
  pose proof (udec_length (z mod 4294967296) 10) as P. change (10 ^ 10) with 10000000000 in P. lia.
Qed.
Lemma snprintf_lu_ok z : snprintf_lu z = Ret (udec (z mod 2 ^ 64)).
Proof.
  apply snprintf_new_ok. change (2 ^ 64) with 18446744073709551616. pose proof (Z.mod_pos_bound z 18446744073709551616 ltac:(lia)).
  pose proof (udec_length (z mod 18446744073709551616) 20) as P. change (10 ^ 20) with 100000000000000000000 in P. lia.
Qed.
Lemma snprintf_x_ok z : snprintf_x z = Ret (uhex (z mod 2 ^ 32)).
Proof.
  apply snprintf_new_ok. change (2 ^ 32) with 4294967296. pose proof (Z.mod_pos_bound z 4294967296 ltac:(lia)).
  destruct (uhex_spec (z mod 4294967296)) as [_ L]; [lia |]. specialize (L 8). change (16 ^ 8) with 4294967296 in L. lia.
Qed.
Lemma snprintf_lx_ok z : snprintf_lx z = Ret (uhex (z mod 2 ^ 64)).
Proof.
  apply snprintf_new_ok. change (2 ^ 64) with 18446744073709551616. pose proof (Z.mod_pos_bound z 18446744073709551616 ltac:(lia)).
  destruct (uhex_spec (z mod 18446744073709551616)) as [_ L]; [lia |]. specialize (L 16). change (16 ^ 16) with 18446744073709551616 in L. lia.
Qed.
Lemma snprintf_p_ok a : 0 <= a < 2 ^ 64 -> snprintf_p a = Ret ([48; 120] ++ uhex a).
Proof.
  intros A. apply snprintf_new_ok. rewrite zlen_app. destruct (uhex_spec a) as [_ L]; [lia |]. specialize (L 16). change (16 ^ 16) with (2 ^ 64) in L.
  change (zlen [48; 120]) with 2. lia.
Qed.

(** ** The buffer *)
Definition holds (b : sbuf) (out : list Z) : Prop := exists a, Inv a b /\ bs a = out.

Lemma push_str_ok b out s :
  holds b out -> is_string s -> zlen out + zlen s <= max_length -> exists b', push_str s b = Ret b' /\ holds b' (out ++ s).
Proof.
  intros (a & I & <-) S L. destruct (push_whole a b s I S L) as (b' & E & I'). exists b'. unfold push_str, run_buf. rewrite E.
  split; [reflexivity |]. eexists. split; [exact I' | reflexivity].
Qed.
Lemma push_ch_ok b out c :
  holds b out -> 0 <= c <= 255 -> zlen out + 1 <= max_length -> exists b', push_ch c b = Ret b' /\ holds b' (out ++ [c]).
Proof.
  intros (a & I & <-) C L. destruct (push_char_ok a b c I) as (b' & E & I').
  { split; [| exact Logic.I]. cbn [str_op]. intros l1 [= <-]. left. rewrite zlen_app. exact L. }
  exists b'. unfold push_ch, run_buf. rewrite E. split; [reflexivity |]. eexists. split; [exact I' |]. cbn [bs].
  unfold low_byte. rewrite Z.mod_small by lia. reflexivity.
Qed.
Lemma push_pad_ok c n : 0 <= c <= 255 -> forall b out,
  holds b out -> zlen out + Z.of_nat n <= max_length ->
  exists b', push_pad n c b = Ret b' /\ holds b' (out ++ zrep (Z.of_nat n) c).
Proof.
  intros C. induction n as [| n IH]; intros b out H L; cbn [push_pad].
  - exists b. split; [reflexivity |]. rewrite app_nil_r. exact H.
  - destruct (push_ch_ok b out c H C) as (b1 & E1 & H1); [lia |]. rewrite E1, obind_ret.
    destruct (IH b1 _ H1) as (b2 & E2 & H2). { rewrite zlen_app. change (zlen [c]) with 1. lia. }
    exists b2. split; auto. rewrite <- app_assoc in H2. replace (zrep (Z.of_nat (S n)) c) with ([c] ++ zrep (Z.of_nat n) c); auto.
    unfold zrep. rewrite !Nat2Z.id. reflexivity.
Qed.

Lemma push_signed_ok b out fl plus v w :
  holds b out -> is_string v -> v <> [] -> 0 <= w <= INT32_MAX ->
  let body := if has 43 fl && plus && negb (hd 0 v =? 45) then 43 :: v else v in
  zlen out + zlen (padded fl w body) <= max_length ->
  exists b', push_signed (Some v) w (if has 45 fl then 32 else if has 48 fl then 48 else 32) (has 45 fl) (has 43 fl && plus) b = Ret b' /\
    holds b' (out ++ padded fl w body).
Proof.
  intros H S NE W body L. unfold push_signed.
  destruct v as [| c v]; [congruence |]. set (V := c :: v) in *.
  assert (HC : 0 <= c <= 255) by (destruct S as [F _]; inversion F; auto).
  rewrite (char_at_ok V 0 c) by reflexivity. rewrite obind_ret.
  assert (M : (wrap8 c =? 45) = (hd 0 V =? 45)).
  { cbn [hd V]. rewrite wrap8_byte by auto. destruct (Z.ltb_spec c 128); destruct (Z.eqb_spec c 45); destruct (Z.eqb_spec (c - 256) 45); try lia;
      first [apply Z.eqb_eq; lia | apply Z.eqb_neq; lia]. }
  rewrite M. pose proof S as [_ LV]. pose proof (zlen_nonneg V) as NV. pose proof (zlen_nonneg out) as NO.
  set (sg := negb (hd 0 V =? 45) && (has 43 fl && plus)).
  assert (EB : body = (if sg then [43] else []) ++ V).
  { unfold body, sg. destruct (has 43 fl && plus), (hd 0 V =? 45); reflexivity. }
  set (cnt := if sg then wrap32 (wrap32 (w - zlen V) - 1) else wrap32 (w - zlen V)).
  assert (LB : zlen body = (if sg then 1 else 0) + zlen V) by (rewrite EB, zlen_app; destruct sg; reflexivity).
  assert (EC : Z.max 0 cnt = Z.max 0 (w - zlen body) /\ INT32_MIN <= cnt).
  { unfold cnt. rewrite LB. unfold V in *. rewrite zlen_cons in *. pose proof (zlen_nonneg v). destruct sg; rewrite ?wrap32_id by (unfold in_i32; rewrite ?wrap32_id; unfold in_i32; lia); lia. }
  assert (EN : Z.of_nat (Z.to_nat cnt) = Z.max 0 (w - zlen body)) by lia.
  assert (ER : forall x : Z, zrep (Z.of_nat (Z.to_nat cnt)) x = zrep (w - zlen body) x).
  { intros x. unfold zrep. f_equal. lia. }
  assert (S43 : is_string [43]) by (split; [repeat constructor; lia | reflexivity]).
  assert (SIGN : forall b out, holds b out -> zlen out + (if sg then 1 else 0) <= max_length ->
    exists b', (if sg then push_ch 43 b else Ret b) = Ret b' /\ holds b' (out ++ (if sg then [43] else []))).
  { intros b0 o0 HH L0. destruct sg; [apply push_ch_ok; auto; lia |]. exists b0. rewrite app_nil_r. auto. }
  unfold padded in L |- *. destruct (has 45 fl).
  - rewrite zlen_app, zlen_rep in L. destruct (SIGN b out H) as (b1 & E1 & H1); [lia |]. rewrite E1, obind_ret.
    destruct (push_str_ok b1 _ V H1 S) as (b2 & E2 & H2). { rewrite zlen_app. destruct sg; [change (zlen [43]) with 1 | change (zlen (@nil Z)) with 0]; lia. }
    rewrite E2, obind_ret. rewrite <- app_assoc, <- EB in H2.
    destruct (push_pad_ok 32 (Z.to_nat cnt) ltac:(lia) b2 _ H2) as (b3 & E3 & H3). { rewrite zlen_app, EN. lia. }
    exists b3. split; auto. rewrite ER in H3. rewrite app_assoc. exact H3.
  - rewrite zlen_app, zlen_rep in L. set (pc := if has 48 fl then 48 else 32) in *.
    destruct (push_pad_ok pc (Z.to_nat cnt) ltac:(unfold pc; destruct (has 48 fl); lia) b _ H) as (b1 & E1 & H1); [lia |].
    rewrite E1, obind_ret. rewrite ER in H1.
    destruct (SIGN b1 _ H1) as (b2 & E2 & H2). { rewrite zlen_app, zlen_rep. lia. }
    rewrite E2, obind_ret.
    destruct (push_str_ok b2 _ V H2 S) as (b3 & E3 & H3).
    { rewrite !zlen_app, zlen_rep. destruct sg; [change (zlen [43]) with 1 | change (zlen (@nil Z)) with 0]; lia. }
    exists b3. split; auto. rewrite <- !app_assoc, <- EB in H3. exact H3.
Qed.
