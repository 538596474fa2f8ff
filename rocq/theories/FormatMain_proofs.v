(** * The main loop of sprintf *)
From Verif Require Import Base StM CLib Dec Array_model FnMem_model FnStr_model FnStr_spec FnStr_proofs FnStr_props
  StrBuf_model StrBuf_spec StrBuf_proofs FnSplit_proofs Utf8_model Utf8_spec Utf8_proofs FnUtf8_model FnUtf8_spec FnUtf8_proofs VmConv_props FnNum_spec
  Format_model Format_spec Format_proofs FormatParse_proofs.

Local Notation is_digit := Dec.is_digit.

Section Args.
  Context {F D : Type}.
  Variable widen : F -> D.
  Variable text_f text_g : D -> option Z -> list Z.
  Notation converted := (converted widen text_f text_g).
  Notation piece := (piece widen text_f text_g).
  Notation pieces := (pieces widen text_f text_g).
  Notation formats := (formats widen text_f text_g).
  Notation push_arg := (push_arg widen text_f text_g).
  Notation main_loop := (main_loop widen text_f text_g).

  Lemma push_s b out fl w c v :
    signed c = true -> holds b out -> is_string v -> v <> [] -> 0 <= w <= INT32_MAX ->
    zlen out + zlen (padded fl w (with_sign fl c v)) <= max_length ->
    exists b', push_signed (Some v) w (if has 45 fl then 32 else if has 48 fl then 48 else 32) (has 45 fl) (has 43 fl) b = Ret b' /\
      holds b' (out ++ padded fl w (with_sign fl c v)).
  Proof.
    intros C H S N W. unfold with_sign. rewrite C. intros L. destruct (push_signed_ok b out fl true v w H S N W L) as (b' & E & H').
    rewrite andb_true_r in E. exists b'. split; auto.
  Qed.
  Lemma push_u b out fl w c v :
    signed c = false -> holds b out -> is_string v -> v <> [] -> 0 <= w <= INT32_MAX ->
    zlen out + zlen (padded fl w (with_sign fl c v)) <= max_length ->
    exists b', push_unsigned (Some v) w (if has 45 fl then 32 else if has 48 fl then 48 else 32) (has 45 fl) b = Ret b' /\
      holds b' (out ++ padded fl w (with_sign fl c v)).
  Proof.
    intros C H S N W. unfold with_sign. rewrite C. intros L. destruct (push_signed_ok b out fl false v w H S N W L) as (b' & E & H').
    rewrite andb_false_r in E. exists b'. split; auto.
  Qed.

  (** What the claim below says. *)
  Definition arg_result (fl : list Z) (w : Z) (p : option Z) (c : conv) (a : option (arg F D)) (b : sbuf) (out : list Z) : Prop :=
    (exists v, converted c p a v /\
      (handled w p c a v -> zlen out + zlen (padded fl w (with_sign fl c v)) <= max_length ->
       exists b', push_arg (spec_of fl w p (Some c)) a b = Ret b' /\ holds b' (out ++ padded fl w (with_sign fl c v)))) \/
    ((forall v, ~ converted c p a v) /\ exists e, push_arg (spec_of fl w p (Some c)) a b = Die e).

  Lemma string_of_bytes v : Forall (fun b => 0 <= b <= 255) v -> zlen v <= 100 -> is_string v.
  Proof. intros. split; auto. lia. Qed.


  Lemma push_arg_int fl w p c a b out f l :
    holds b out -> 0 <= w <= INT32_MAX -> arg_ok a ->
    (forall z, in_i32 z -> exists v, f z = Ret v /\ converted c p (Some (mk_arg 0 (VInt z))) v /\ Forall (fun b => 0 <= b <= 255) v /\ v <> [] /\ zlen v <= 100) ->
    (forall z v, the_value a = Some (VInt z) -> converted c p (Some (mk_arg 0 (VInt z))) v -> converted c p a v) ->
    (forall v, converted c p a v -> exists z, the_value a = Some (VInt z)) ->
    l = (fun v => if signed c then push_signed (Some v) w (if has 45 fl then 32 else if has 48 fl then 48 else 32) (has 45 fl) (has 43 fl) b
                  else push_unsigned (Some v) w (if has 45 fl then 32 else if has 48 fl then 48 else 32) (has 45 fl) b) ->
    push_arg (spec_of fl w p (Some c)) a b = (let! z := int_arg a in let! v := f z in l v) ->
    arg_result fl w p c a b out.
  Proof.
    intros H W OK FZ CV NC -> EP. unfold arg_result. rewrite EP.
    destruct a as [[ad av] |].
    2: { right. split; [intros v X; destruct (NC v X) as (z & Z1); discriminate | cbn [int_arg obind]; eauto]. }
    destruct av; cbn [int_arg a_val obind];
      try (right; split; [intros v X; destruct (NC v X) as (z' & Z1); discriminate | eauto]).
    destruct OK as [_ OK]. cbn [a_val] in OK. destruct (FZ z OK) as (v & EV & CO & FB & NE & LE). left. exists v. split; [apply (CV z); auto |].
    intros _ L. rewrite EV, obind_ret.
    destruct (signed c) eqn:SC; [apply push_s | apply push_u]; auto using string_of_bytes.
  Qed.

  Lemma push_arg_long fl w p c a b out f l :
    holds b out -> 0 <= w <= INT32_MAX -> arg_ok a ->
    (forall z, in_i64 z -> exists v, f z = Ret v /\ converted c p (Some (mk_arg 0 (VLong z))) v /\ Forall (fun b => 0 <= b <= 255) v /\ v <> [] /\ zlen v <= 100) ->
    (forall z v, the_value a = Some (VLong z) -> converted c p (Some (mk_arg 0 (VLong z))) v -> converted c p a v) ->
    (forall v, converted c p a v -> exists z, the_value a = Some (VLong z)) ->
    l = (fun v => if signed c then push_signed (Some v) w (if has 45 fl then 32 else if has 48 fl then 48 else 32) (has 45 fl) (has 43 fl) b
                  else push_unsigned (Some v) w (if has 45 fl then 32 else if has 48 fl then 48 else 32) (has 45 fl) b) ->
    push_arg (spec_of fl w p (Some c)) a b = (let! z := long_arg a in let! v := f z in l v) ->
    arg_result fl w p c a b out.
  Proof.
    intros H W OK FZ CV NC -> EP. unfold arg_result. rewrite EP.
    destruct a as [[ad av] |].
    2: { right. split; [intros v X; destruct (NC v X) as (z & Z1); discriminate | cbn [long_arg obind]; eauto]. }
    destruct av; cbn [long_arg a_val obind];
      try (right; split; [intros v X; destruct (NC v X) as (z' & Z1); discriminate | eauto]).
    destruct OK as [_ OK]. cbn [a_val] in OK. destruct (FZ z OK) as (v & EV & CO & FB & NE & LE). left. exists v. split; [apply (CV z); auto |].
    intros _ L. rewrite EV, obind_ret.
    destruct (signed c) eqn:SC; [apply push_s | apply push_u]; auto using string_of_bytes.
  Qed.

  Lemma mod_range z k : 0 < k -> 0 <= z mod k < k.
  Proof. intros. apply Z.mod_pos_bound. auto. Qed.

  (** Short texts. *)
  Lemma short_d z : in_i32 z -> exists v, snprintf_d z = Ret v /\ decimal_of z v /\ Forall (fun b => 0 <= b <= 255) v /\ v <> [] /\ zlen v <= 100.
  Proof.
    intros I. exists (print_dec z). split; [apply snprintf_d_ok; auto |].
    assert (DO : decimal_of z (print_dec z)) by (apply dec_ok; unfold in_i32, in_i64 in *; lia).
    split; auto. destruct (decimal_string _ _ DO). split; auto. split; auto.
    pose proof (print_dec_len z 10) as P. change (10 ^ 10) with 10000000000 in P. unfold in_i32 in I. lia.
  Qed.
  Lemma short_ld z : in_i64 z -> exists v, snprintf_ld z = Ret v /\ decimal_of z v /\ Forall (fun b => 0 <= b <= 255) v /\ v <> [] /\ zlen v <= 100.
  Proof.
    intros I. exists (print_dec z). split; [apply snprintf_ld_ok; auto |].
    assert (DO : decimal_of z (print_dec z)) by (apply dec_ok; auto).
    split; auto. destruct (decimal_string _ _ DO). split; auto. split; auto.
    pose proof (print_dec_len z 19) as P. change (10 ^ 19) with 10000000000000000000 in P. unfold in_i64 in I. lia.
  Qed.
  Lemma short_dec n : 0 <= n < 10 ^ 20 -> decimal_of n (udec n) /\ Forall (fun b => 0 <= b <= 255) (udec n) /\ udec n <> [] /\ zlen (udec n) <= 100.
  Proof.
    intros N. assert (DO : decimal_of n (udec n)) by (apply udec_ok; lia). split; auto. destruct (decimal_string _ _ DO). split; auto. split; auto.
    pose proof (udec_length n 20). lia.
  Qed.
  Lemma short_hex n : 0 <= n < 16 ^ 16 -> hexadecimal_of 97 n (uhex n) /\ Forall (fun b => 0 <= b <= 255) (uhex n) /\ uhex n <> [] /\ zlen (uhex n) <= 100.
  Proof.
    intros N. destruct (uhex_spec n) as [HO L]; [lia |]. split; auto. destruct (hex_string 97 _ _ (or_introl eq_refl) HO). split; auto. split; auto.
    specialize (L 16). lia.
  Qed.
  Lemma short_HEX n : 0 <= n < 16 ^ 16 ->
    uc (Some (uhex n)) = Ret (map upper (uhex n)) /\ hexadecimal_of 65 n (map upper (uhex n)) /\
    Forall (fun b => 0 <= b <= 255) (map upper (uhex n)) /\ map upper (uhex n) <> [] /\ zlen (map upper (uhex n)) <= 100.
  Proof.
    intros N. destruct (short_hex n N) as (HO & FB & NE & L). apply hex_upper in HO. split.
    - apply C37_lc_uc. apply string_of_bytes; auto.
    - split; auto. destruct (hex_string 65 _ _ (or_intror eq_refl) HO). rewrite zlen_map. auto.
  Qed.

  Lemma mod32 z : 0 <= z mod 2 ^ 32 < 16 ^ 16 /\ z mod 2 ^ 32 < 10 ^ 20.
  Proof. change (16 ^ 16) with 18446744073709551616. change (10 ^ 20) with 100000000000000000000. change (2 ^ 32) with 4294967296. pose proof (mod_range z 4294967296). lia. Qed.
  Lemma mod64 z : 0 <= z mod 2 ^ 64 < 16 ^ 16 /\ z mod 2 ^ 64 < 10 ^ 20.
  Proof. change (16 ^ 16) with 18446744073709551616. change (10 ^ 20) with 100000000000000000000. change (2 ^ 64) with 18446744073709551616. pose proof (mod_range z 18446744073709551616). lia. Qed.

  Lemma push_arg_float fl w p c g a b out :
    (c = Cf /\ g = text_f) \/ (c = Cg /\ g = text_g) ->
    holds b out -> 0 <= w <= INT32_MAX -> (forall n, p = Some n -> 0 <= n <= INT32_MAX) -> arg_ok a ->
    arg_result fl w p c a b out.
  Proof.
    intros C H W P OK. unfold arg_result.
    assert (CO : forall v, converted c p a v <-> exists d, is_double widen a d /\ v = g d p).
    { intros v. destruct C as [[-> ->] | [-> ->]]; reflexivity. }
    assert (EA : push_arg (spec_of fl w p (Some c)) a b =
      (let! d := double_arg widen a in let! v := snprintf_float g d (match p with Some n => n | None => -1 end) in
       push_signed (Some v) w (if has 45 fl then 32 else if has 48 fl then 48 else 32) (has 45 fl) (has 43 fl) b)).
    { destruct C as [[-> ->] | [-> ->]]; reflexivity. }
    rewrite EA.
    assert (DO : forall d, is_double widen a d -> double_arg widen a = Ret d).
    { destruct a as [[ad av] |]; unfold is_double; cbn; intros d [I | (f & I & ->)]; try discriminate; injection I as ->; reflexivity. }
    assert (DD : match double_arg widen a with Ret d => is_double widen a d | Die _ => True | _ => False end).
    { destruct a as [[ad []] |]; unfold is_double; cbn; eauto. }
    destruct (double_arg widen a) as [d | e | |]; try tauto.
    2: { right. split; [| cbn [obind]; eauto]. intros v X. apply CO in X as (d & I & _). specialize (DO d I). discriminate. }
    left. exists (g d p). split; [apply CO; eauto |]. intros HA L. rewrite obind_ret.
    assert (HA' : g d p <> [] /\ Forall (fun b => 1 <= b <= 255) (g d p) /\
      match p with None => zlen (g d p) <= 20 | Some n => n < INT32_MAX - 21 /\ zlen (g d p) <= 21 + n end).
    { destruct C as [[-> ->] | [-> ->]]; exact HA. }
    destruct HA' as (NE & FB & LE).
    assert (SN : snprintf_float g d (match p with Some n => n | None => -1 end) = Ret (g d p)).
    { unfold snprintf_float. destruct p as [n |].
      - specialize (P n eq_refl). destruct (Z.geb_spec n 0); [| lia]. unfold c_add.
        destruct (Z.leb_spec INT32_MIN (21 + n)); [| lia]. destruct (Z.leb_spec (21 + n) INT32_MAX); [| lia]. cbn [andb]. rewrite obind_ret.
        destruct (Z.ltb_spec (21 + n) 0); [lia |]. destruct (Z.eqb_spec (21 + n) INT32_MAX); [lia |]. apply snprintf_new_ok. lia.
      - apply snprintf_new_ok. lia. }
    rewrite SN, obind_ret. apply push_s; auto; [destruct C as [[-> _] | [-> _]]; reflexivity |].
    split; [eapply Forall_impl; [| apply FB]; cbn; intros; lia |]. destruct p as [n |]; [specialize (P n eq_refl) |]; lia.
  Qed.

  Lemma push_arg_ok fl w p c a b out :
    holds b out -> 0 <= w <= INT32_MAX -> (forall n, p = Some n -> 0 <= n <= INT32_MAX) -> arg_ok a ->
    arg_result fl w p c a b out.
  Proof.
    intros H W P OK. destruct c.
    - (* x *) eapply push_arg_int with (f := snprintf_x); eauto; try reflexivity.
      + intros z _. destruct (mod32 z). destruct (short_hex (z mod 2 ^ 32)) as (A1 & A2 & A3 & A4); [auto |].
        exists (uhex (z mod 2 ^ 32)). split; [apply snprintf_x_ok |]. split; auto. exists z. split; [reflexivity | auto].
      + intros z v E (z' & I & X). cbn in I. injection I as <-. exists z. split; auto.
      + intros v (z & I & _). eauto.
    - (* X *) eapply push_arg_int with (f := fun z => let! v := snprintf_x z in uc (Some v)); eauto; try reflexivity.
      + intros z _. destruct (mod32 z). destruct (short_HEX (z mod 2 ^ 32)) as (A0 & A1 & A2 & A3 & A4); [auto |].
        exists (map upper (uhex (z mod 2 ^ 32))). split; [rewrite snprintf_x_ok; apply A0 |]. split; auto. exists z. split; [reflexivity | auto].
      + intros z v E (z' & I & X). cbn in I. injection I as <-. exists z. split; auto.
      + intros v (z & I & _). eauto.
      + cbn [push_arg spec_of sp_conv]. destruct (int_arg a); cbn [obind]; auto. rewrite obind_assoc. reflexivity.
    - (* c *) unfold arg_result. cbn [Format_model.push_arg spec_of sp_conv sp_width sp_pad sp_left].
      assert (CH : forall z, the_value a = Some (VInt z) \/ the_value a = Some (VByte z) -> char_arg a = Ret z).
      { destruct a as [[ad av] |]; cbn; [| intros z [|]; discriminate]. intros z [[= ->] | [= ->]]; reflexivity. }
      destruct (char_arg a) as [z | e | |] eqn:EZ.
      2: { right. split; [| cbn [obind]; eauto]. intros v (z & I & _). specialize (CH z I). discriminate. }
      2, 3: exfalso; destruct a as [[ad []] |]; cbn in EZ; discriminate.
      left. rewrite obind_ret.
      set (v := match chr z with Some v => v | None => [63] end).
      assert (HV : (scalar z /\ wf_char v z) \/ (~ scalar z /\ v = [63])).
      { unfold v. pose proof (chr_ok z) as C. destruct (chr z); auto. left. split; auto. eapply wf_char_scalar; eauto. }
      assert (SV : is_string v /\ v <> []).
      { destruct HV as [[_ WC] | [_ ->]]; [| split; [split; [repeat constructor; lia | reflexivity] | discriminate]].
        pose proof (wf_char_len _ _ WC) as LC. split; [eapply char_string; eauto | intros ->; rewrite zlen_nil in LC; lia]. }
      exists v. split.
      + exists z. split; auto. destruct a as [[ad []] |]; cbn in EZ; try discriminate; injection EZ as ->; [right | left]; reflexivity.
      + intros _ L. destruct SV. apply push_u; auto.
    - (* d *) eapply push_arg_int with (f := snprintf_d); eauto; try reflexivity.
      + intros z I. destruct (short_d z I) as (v & E & A1 & A2). exists v. split; auto. split; auto. exists z. split; [reflexivity | auto].
      + intros z v E (z' & I & X). cbn in I. injection I as <-. exists z. split; auto.
      + intros v (z & I & _). eauto.
    - (* f *) apply push_arg_float with (g := text_f); auto.
    - (* g *) apply push_arg_float with (g := text_g); auto.
    - (* lX *) eapply push_arg_long with (f := fun z => let! v := snprintf_lx z in uc (Some v)); eauto; try reflexivity.
      + intros z _. destruct (mod64 z). destruct (short_HEX (z mod 2 ^ 64)) as (A0 & A1 & A2 & A3 & A4); [auto |].
        exists (map upper (uhex (z mod 2 ^ 64))). split; [rewrite snprintf_lx_ok; apply A0 |]. split; auto. exists z. split; [reflexivity | auto].
      + intros z v E (z' & I & X). cbn in I. injection I as <-. exists z. split; auto.
      + intros v (z & I & _). eauto.
      + cbn [push_arg spec_of sp_conv]. destruct (long_arg a); cbn [obind]; auto. rewrite obind_assoc. reflexivity.
    - (* ld *) eapply push_arg_long with (f := snprintf_ld); eauto; try reflexivity.
      + intros z I. destruct (short_ld z I) as (v & E & A1 & A2). exists v. split; auto. split; auto. exists z. split; [reflexivity | auto].
      + intros z v E (z' & I & X). cbn in I. injection I as <-. exists z. split; auto.
      + intros v (z & I & _). eauto.
    - (* lu *) eapply push_arg_long with (f := snprintf_lu); eauto; try reflexivity.
      + intros z _. destruct (mod64 z). destruct (short_dec (z mod 2 ^ 64)) as (A1 & A2 & A3 & A4); [lia |].
        exists (udec (z mod 2 ^ 64)). split; [apply snprintf_lu_ok |]. split; auto. exists z. split; [reflexivity | auto].
      + intros z v E (z' & I & X). cbn in I. injection I as <-. exists z. split; auto.
      + intros v (z & I & _). eauto.
    - (* lx *) eapply push_arg_long with (f := snprintf_lx); eauto; try reflexivity.
      + intros z _. destruct (mod64 z). destruct (short_hex (z mod 2 ^ 64)) as (A1 & A2 & A3 & A4); [auto |].
        exists (uhex (z mod 2 ^ 64)). split; [apply snprintf_lx_ok |]. split; auto. exists z. split; [reflexivity | auto].
      + intros z v E (z' & I & X). cbn in I. injection I as <-. exists z. split; auto.
      + intros v (z & I & _). eauto.
    - (* p *) unfold arg_result. cbn [Format_model.push_arg spec_of sp_conv sp_width sp_pad sp_left sp_plus].
      assert (AA : 0 <= the_address a < 2 ^ 64) by (destruct a as [[ad av] |]; [apply OK | cbn; lia]).
      left. exists ([48; 120] ++ uhex (the_address a)). destruct (short_hex (the_address a)) as (A1 & A2 & A3 & A4); [exact AA |].
      split; [exists (uhex (the_address a)); auto |]. intros _ L.
      change (match a with Some a => a_addr a | None => 0 end) with (the_address a). rewrite snprintf_p_ok, obind_ret by auto.
      apply push_s; auto; [| discriminate]. apply string_of_bytes; [apply Forall_app; split; auto; repeat constructor; lia |].
      destruct (uhex_spec (the_address a)) as [_ LL]; [lia |]. specialize (LL 16). change (16 ^ 16) with (2 ^ 64) in LL. rewrite zlen_app. change (zlen [48; 120]) with 2. lia.
    - (* s *) unfold arg_result. cbn [Format_model.push_arg spec_of sp_conv sp_width sp_pad sp_left sp_has_precision sp_precision].
      destruct a as [[ad av] |].
      2: { right. split; [intros v (s & E & _); discriminate |]. cbn [string_arg obind].
           destruct p as [n |]; cbn [andb]; [| eexists; reflexivity]. specialize (P n eq_refl).
           destruct (Z.ltb_spec n 0); [lia |]. eexists; reflexivity. }
      destruct av; cbn [string_arg a_val obind]; try (right; split; [intros v (s' & E & _); discriminate | eauto]).
      destruct OK as [_ OK]. cbn [a_val] in OK. left. eexists. split; [exists s; split; reflexivity |].
      intros [NE HW] L. destruct p as [n |]; cbn [andb]; [| apply push_u; auto].
      specialize (P n eq_refl). destruct (Z.ltb_spec n (zlen s)).
      + specialize (HW n s eq_refl eq_refl ltac:(auto)).
        assert (ES : substr (Some s) 0 n None = Ret (ztake n s)).
        { assert (EL : effective_length s 0 n = n) by (unfold effective_length; destruct (Z.ltb_spec n 0); [lia | reflexivity]).
          unfold substr. rewrite substr0_ok; rewrite ?EL; auto; try lia. }
        rewrite ES, obind_ret.
        assert (EP : padded fl n (with_sign fl Cs (ztake n s)) = padded fl w (with_sign fl Cs (ztake n s))).
        { unfold padded, with_sign. cbn [signed]. rewrite andb_false_r. cbn [andb]. rewrite zlen_take.
          unfold zrep. replace (Z.to_nat (n - Z.min (Z.max 0 n) (zlen s))) with 0%nat by lia.
          replace (Z.to_nat (w - Z.min (Z.max 0 n) (zlen s))) with 0%nat by lia. reflexivity. }
        rewrite <- EP in *. apply push_u; auto.
        destruct OK as [FB LB]. split; [| rewrite zlen_take; lia].
        rewrite <- (ztake_zdrop n s) in FB. apply Forall_app in FB. apply FB.
      + rewrite ztake_all in * by auto. apply push_u; auto.
    - (* u *) eapply push_arg_int with (f := snprintf_u); eauto; try reflexivity.
      + intros z _. destruct (mod32 z). destruct (short_dec (z mod 2 ^ 32)) as (A1 & A2 & A3 & A4); [lia |].
        exists (udec (z mod 2 ^ 32)). split; [apply snprintf_u_ok |]. split; auto. exists z. split; [reflexivity | auto].
      + intros z v E (z' & I & X). cbn in I. injection I as <-. exists z. split; auto.
      + intros v (z & I & _). eauto.
  Qed.
End Args.
