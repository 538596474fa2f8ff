(** * pack of a whole template *)
From Verif Require Import Base StM CLib Dec Array_model Bytes FnMem_model FnMem_spec FnMem_proofs FnRev_proofs FnMem_props
  FnStr_model FnStr_spec FnStr_proofs FnNum_model FnNum_spec FnNum_proofs FnNum_props FnUtf8_model StrBuf_model StrBuf_spec StrBuf_proofs
  Format_model Format_proofs Packer_model Packer_spec FormatParse_proofs PackerParse_proofs Packer_proofs PackerHex_proofs.

Lemma rev_zrep {A} n (x : A) : rev (zrep n x) = zrep n x.
Proof.
  unfold zrep. induction (Z.to_nat n) as [| m IH]; [reflexivity |]. cbn [repeat rev]. rewrite IH. clear IH.
  induction m as [| m IH]; [reflexivity |]. cbn [repeat app]. rewrite IH. reflexivity.
Qed.
Lemma filled_bytes n bs : Forall is_byte bs -> Forall is_byte (filled n bs).
Proof.
  intros B. unfold filled. apply Forall_app. split.
  - rewrite <- (ztake_zdrop n bs) in B. apply Forall_app in B. tauto.
  - apply Forall_forall. intros x X. apply repeat_spec in X. subst. unfold is_byte. lia.
Qed.
Lemma encode_byte_rev v : rev (encode KByte v) = encode KByte v.
Proof. reflexivity. Qed.
Lemma swaps_one n d : swaps n 1 d = d.
Proof. induction n as [| n IH]; [reflexivity |]. change (swap_first 1 (swaps n 1 d) = d). rewrite swap_one. exact IH. Qed.
Lemma flat_little e k l : e <> EBig -> flat_map (bytes_for e k) l = flat_map (encode k) l.
Proof. intros. apply flat_map_ext. intros v. destruct e; congruence || reflexivity. Qed.
Lemma flat_byte e l : flat_map (bytes_for e KByte) l = flat_map (encode KByte) l.
Proof. apply flat_map_ext. intros v. destruct e; reflexivity. Qed.

Lemma ordered_ok e k n l : 0 <= n -> (e = EBig -> k = KByte \/ n <= 1) ->
  ordered e n (ksize k) (filled (ksize k * n) (flat_map (encode k) l)) = filled (ksize k * n) (flat_map (bytes_for e k) (ztake n l)).
Proof.
  intros N H. pose proof (ksize_pos k) as KP.
  assert (E0 : filled (ksize k * n) (flat_map (encode k) (ztake n l)) = filled (ksize k * n) (flat_map (encode k) l)).
  { rewrite <- flat_take by auto. apply filled_take. }
  destruct e; cbn [ordered]; try (rewrite flat_little by discriminate; auto).
  destruct (H eq_refl) as [-> | N1].
  - rewrite flat_byte, E0. change (ksize KByte) with 1. apply swaps_one.
  - rewrite <- E0. assert (NC : n = 0 \/ n = 1) by lia. destruct NC as [-> | ->].
    + reflexivity.
    + rewrite Z.mul_1_r. change (swaps (Z.to_nat 1) (ksize k)) with (swap_first (ksize k)).
      destruct l as [| v l].
      * change (ztake 1 (@nil Z)) with (@nil Z). cbn [flat_map]. unfold filled, swap_first.
        change (ztake (ksize k) (@nil Z)) with (@firstn Z (Z.to_nat (ksize k)) []). rewrite firstn_nil. cbn [app]. change (@zlen Z []) with 0. rewrite Z.sub_0_r.
        rewrite ztake_all, zdrop_all by (rewrite zlen_rep; lia). rewrite app_nil_r. apply rev_zrep.
      * change (ztake 1 (v :: l)) with [v]. cbn [flat_map bytes_for]. rewrite !app_nil_r.
        rewrite !filled_exact by (rewrite ?zlen_rev, zlen_encode; reflexivity). unfold swap_first.
        rewrite ztake_all, zdrop_all by (rewrite zlen_encode; lia). apply app_nil_r.
Qed.

Definition item_valid (it : item) : Prop :=
  (i_type it = PStr -> i_count it <> Single) /\ match i_count it with Count n => 0 < n | _ => True end.
Lemma item_text_valid t it : item_text t it -> item_valid it.
Proof. intros H. inversion H as [c ty te e tc n L TE CT NP]; subst. split; cbn; auto. inversion CT; subst; auto. lia. Qed.
Lemma template_valid t its : template_text t its -> Forall item_valid its.
Proof. induction 1; constructor; auto. eapply item_text_valid; eauto. Qed.

Lemma zlen_filled n bs : 0 <= n -> zlen (filled n bs) = n.
Proof. intros N. unfold filled. rewrite zlen_app, zlen_rep, zlen_take. pose proof (zlen_nonneg bs). lia. Qed.

Lemma count_nonneg it o : item_valid it -> 0 <= spec_count it o.
Proof.
  intros [_ V]. unfold spec_count. destruct (i_count it); try lia. destruct o as [[| | |] |]; try lia; apply zlen_nonneg.
Qed.
Lemma part_size_num it o k : i_type it = PNum k -> part_size it o = ksize k * spec_count it o.
Proof. intros T. unfold part_size, spec_count. rewrite T. reflexivity. Qed.
Lemma part_size_other it o : (forall k, i_type it <> PNum k) -> part_size it o = spec_count it o.
Proof. intros T. unfold part_size, spec_count. destruct (i_type it); try reflexivity. exfalso. eapply T; eauto. Qed.
Lemma part_size_nonneg it o : item_valid it -> 0 <= part_size it o.
Proof.
  intros V. pose proof (count_nonneg it o V). destruct (i_type it) eqn:T.
  - rewrite (part_size_num _ _ _ T). pose proof (ksize_pos k). nia.
  - rewrite part_size_other by congruence. auto.
  - rewrite part_size_other by congruence. auto.
  - rewrite part_size_other by congruence. auto.
Qed.

Lemma pack_hex_ok it o (high : bool) :
  i_type it = (if high then PHexHigh else PHexLow) -> item_valid it -> handled it o -> obj_ok o -> part_size it o <= max_length ->
  match pack_one (spec_of it) o with
  | Ret out => packed it o out /\ zlen out <= part_size it o /\ Forall is_byte out
  | Die _ => forall out, ~ packed it o out
  | _ => False
  end.
Proof.
  intros T V H OK SZ. pose proof (count_nonneg it o V) as CN. rewrite part_size_other in * by (rewrite T; destruct high; discriminate).
  assert (PT : p_type (spec_of it) = if high then PHexHigh else PHexLow) by (unfold spec_of; destruct (i_count it); exact T).
  assert (HX : is_hex (p_type (spec_of it)) = true) by (rewrite PT; destruct high; reflexivity).
  assert (PK : forall out, packed it o out <-> exists s bs, (o = Some (Str s) \/ (o = None /\ s = [])) /\
     let n := digits_used (i_count it) s in hex_bytes high (ztake n s) bs /\ out = filled ((n + 1) / 2) bs).
  { intros out. unfold packed. rewrite T. destruct high; reflexivity. }
  (* the text *)
  assert (TXT : (exists s, (o = Some (Str s) \/ (o = None /\ s = [])) /\ is_string s /\
      to_string_obj o = Ret (match o with Some _ => Some s | None => None end)) \/
     ((forall s, o <> Some (Str s)) /\ o <> None /\ to_string_obj o = Die e_cast)).
  { destruct o as [[k v | k l | s |] |]; cbn [to_string_obj].
    - right. repeat split; congruence.
    - right. repeat split; congruence.
    - left. exists s. split; auto.
    - right. repeat split; congruence.
    - left. exists []. repeat split; auto. }
  destruct TXT as [(s & O & S & TS) | (NS & NN & TS)].
  2: { unfold pack_one, values_of. rewrite PT. destruct high; rewrite TS; cbn [obind]; intros out P; apply PK in P as (s & bs & [E | [E _]] & _); congruence. }
  assert (OS : match o with Some _ => Some s | None => None end = Some s \/ (match o with Some _ => Some s | None => None end = None /\ s = [])).
  { destruct O as [-> | [-> ->]]; auto. }
  pose proof S as [BS LS]. pose proof (zlen_nonneg s) as LN.
  (* the values *)
  assert (VO : values_of (spec_of it) o =
    let! b := sb_new None (-1) in let! b := hex_pack_loop (Z.to_nat ((zlen s + 1) / 2)) high s 0 b in
    let! v := snd (sb_to_string b) in Ret (1, Some (string_blob v))).
  { unfold values_of. rewrite PT. destruct high; rewrite TS, obind_ret; destruct OS as [-> | [-> ->]]; reflexivity. }
  destruct (new_ok None (-1)) as (b & NB & IB); [exact Logic.I | unfold max_capacity; lia |]. rewrite NB, obind_ret in VO.
  assert (HB : holds b []) by (eexists; split; [exact IB | reflexivity]).
  assert (A : at_pos s 0 s) by (split; [lia | apply zdrop_0; lia]).
  assert (N0 : 0 <= (zlen s + 1) / 2 <= max_length) by (unfold max_length; Z.div_mod_to_equations; lia).
  destruct (hex_pack_ok high s S (Z.to_nat ((zlen s + 1) / 2)) s 0 b [] A) as [(F & b' & bs & E & H' & HXB & LB) | (NF & e & E)]; auto; try lia.
  { change (@zlen Z []) with 0. lia. }
  - rewrite E, obind_ret in VO. destruct H' as (a & I & BA). rewrite (to_string_ok _ _ I), BA in VO. cbn [snd obind app] in VO.
    pose proof (hex_bytes_all _ _ _ HXB) as (_ & _ & BB).
    set (p := if p_star (spec_of it) then zlen bs else p_length (spec_of it)).
    set (n := wrap32 (p + 1) ÷ 2).
    assert (PE : match i_count it with Star => p = (zlen s + 1) / 2 | _ => p = digits_used (i_count it) s end).
    { unfold p, spec_of. destruct (i_count it); cbn [p_star p_length digits_used]; try reflexivity. lia. }
    assert (MX : max_length = 1073741823) by reflexivity.
    assert (DU : 0 <= digits_used (i_count it) s <= max_length).
    { unfold spec_count in SZ, CN. destruct (i_count it); cbn [digits_used]; try lia. destruct O as [-> | [-> ->]]; [lia | change (@zlen Z []) with 0; lia]. }
    assert (NE : n = (p + 1) / 2 /\ 0 <= p <= max_length).
    { assert (PR : 0 <= p <= max_length) by (destruct (i_count it); lia). split; auto. unfold n. rewrite wrap32_id by (unfold in_i32; lia).
      rewrite Z.quot_div_nonneg by lia. reflexivity. }
    destruct NE as [NE PR]. assert (NN : 0 <= n <= max_length) by (rewrite NE; Z.div_mod_to_equations; lia).
    assert (PO : pack_one (spec_of it) o = Ret (filled n bs)).
    { rewrite (pack_part (spec_of it) o 1 (string_blob bs) n); auto; try lia.
      - cbn [string_blob b_data]. rewrite Z.mul_1_l. f_equal. unfold ordered. destruct (p_endian (spec_of it)); auto. apply swaps_one.
      - apply string_blob_ok. lia.
      - cbn; lia.
      - rewrite HX. reflexivity. }
    rewrite PO. split.
    + (* the digits used *)
      apply PK. exists s. unfold handled in H. rewrite T in H.
      assert (HH : match o with
        | Some (Str s) => Forall (fun c => exists d, digit 16 c d) (zdrop (digits_used (i_count it) s) s) /\
          match i_count it with Single => zlen s <= 1 | Count n => zlen s <= n \/ n mod 2 = 0 | Star => zlen s <= 2 end
        | _ => True end) by (destruct high; exact H).
      clear H. assert (HH2 : match i_count it with Single => zlen s <= 1 | Count n => zlen s <= n \/ n mod 2 = 0 | Star => zlen s <= 2 end).
      { destruct O as [-> | [-> ->]]; [apply HH | destruct V as [_ V2]; change (@zlen Z []) with 0; destruct (i_count it); try lia; left; lia]. }
      destruct (i_count it) as [| m |] eqn:CT; cbn [digits_used] in *.
      * exists bs. split; auto. rewrite ztake_all by lia. split; auto. rewrite NE, PE. reflexivity.
      * destruct HH2 as [L | M].
        -- exists bs. split; auto. rewrite ztake_all by lia. split; auto. rewrite NE, PE. reflexivity.
        -- exists (ztake (m / 2) bs). split; auto. split; [apply hex_bytes_take; auto; lia |]. rewrite NE, PE.
           replace ((m + 1) / 2) with (m / 2) by (Z.div_mod_to_equations; lia). symmetry. apply filled_take.
      * exists bs. split; auto. rewrite ztake_all by lia. split; auto. rewrite NE, PE. f_equal. Z.div_mod_to_equations. lia.
    + split.
      * rewrite zlen_filled by lia. rewrite NE. unfold spec_count in SZ |- *.
        assert (p <= match i_count it with Single => 1 | Count n0 => n0 | Star => match o with Some (Nums _ l) => zlen l | Some (Str s0) => zlen s0 | _ => 0 end end).
        { destruct (i_count it); cbn [digits_used] in PE; try lia. destruct O as [-> | [-> ->]]; [Z.div_mod_to_equations; lia |]. rewrite PE. reflexivity. }
        Z.div_mod_to_equations. lia.
      * apply filled_bytes; auto.
  - unfold pack_one. rewrite VO, E. cbn [obind]. intros out P. apply PK in P as (s' & bs & O' & HXB & _).
    assert (s' = s) by (destruct O as [-> | [-> ->]], O' as [O' | [O' ->]]; congruence). subst s'.
    apply NF. rewrite <- (ztake_zdrop (digits_used (i_count it) s) s). apply Forall_app. split; [eapply hex_bytes_all; eauto |].
    unfold handled in H. rewrite T in H. destruct O as [-> | [-> ->]]; [destruct high; apply H | rewrite zdrop_all; [constructor |]].
    change (@zlen Z []) with 0. unfold spec_count in CN. destruct (i_count it); cbn [digits_used]; try change (@zlen Z []) with 0; lia.
Qed.

Lemma pack_one_ok it o : item_valid it -> handled it o -> obj_ok o -> part_size it o <= max_length ->
  match pack_one (spec_of it) o with
  | Ret out => packed it o out /\ zlen out <= part_size it o /\ Forall is_byte out
  | Die _ => forall out, ~ packed it o out
  | _ => False
  end.
Proof.
  intros V H OK SZ. pose proof (count_nonneg it o V) as CN. assert (MX : max_length = 1073741823) by reflexivity.
  destruct (i_type it) as [k | | |] eqn:T.
  - rewrite (part_size_num _ _ _ T) in *. pose proof (ksize_pos k) as KP.
    assert (BY : forall e l, Forall is_byte (flat_map (bytes_for e k) l)).
    { intros e l. induction l as [| v l IH]; cbn [flat_map]; [constructor |]. apply Forall_app. split; auto.
      destruct e; cbn [bytes_for]; try apply Forall_rev; apply encode_bytes. }
    assert (FB : forall n bs, Forall is_byte bs -> Forall is_byte (filled n bs)).
    { intros n bs B. apply filled_bytes; auto. }
    assert (GOOD : forall l, (match i_count it with Single => exists v, l = [v] /\ o = Some (Boxed k v) | _ => o = Some (Nums k l) end) ->
      match pack_one (spec_of it) o with
      | Ret out => packed it o out /\ zlen out <= ksize k * spec_count it o /\ Forall is_byte out
      | Die _ => forall out, ~ packed it o out | _ => False end).
    { intros l O. rewrite (pack_num_ok it k l o (i_endian it)); auto; [| lia].
      rewrite ordered_ok; auto.
      2: { intros EB. unfold handled in H. rewrite T in H. destruct (H EB) as [-> | X]; auto. right. unfold spec_count.
           destruct (i_count it); [lia | lia |]. subst o. auto. }
      split; [| split; [rewrite zlen_filled; nia | apply FB, BY]].
      unfold packed. rewrite T. unfold spec_count. destruct (i_count it) as [| n |].
      - destruct O as (v & -> & ->). exists v. split; auto. apply number_bytes_iff. change (ztake 1 [v]) with [v]. cbn [flat_map]. rewrite app_nil_r, Z.mul_1_r.
        apply filled_exact. apply bytes_for_len.
      - exists l, (flat_map (bytes_for (i_endian it) k) (ztake n l)). split; auto. split; [apply elements_bytes_iff; reflexivity | reflexivity].
      - subst o. exists l. split; auto. apply elements_bytes_iff. rewrite ztake_all by lia. apply filled_exact.
        clear. induction l as [| v l IH]; [cbn [flat_map]; change (@zlen Z []) with 0; lia |]. cbn [flat_map]. rewrite zlen_app, bytes_for_len, IH, zlen_cons. lia. }
    assert (BAD : (forall out, ~ packed it o out) -> pack_one (spec_of it) o = Die e_elem ->
      match pack_one (spec_of it) o with
      | Ret out => packed it o out /\ zlen out <= ksize k * spec_count it o /\ Forall is_byte out
      | Die _ => forall out, ~ packed it o out | _ => False end) by (intros X ->; exact X).
    assert (PN : p_type (spec_of it) = PNum k) by (unfold spec_of; destruct (i_count it); exact T).
    assert (NU : p_numeric (spec_of it) = match i_count it with Single => true | _ => false end) by (unfold spec_of; destruct (i_count it); reflexivity).
    destruct (i_count it) as [| n |] eqn:CT.
    + destruct o as [[k' v | | |] |]; try (apply BAD; [unfold packed; rewrite T, CT; intros out (w & X & _); discriminate | unfold pack_one, values_of; rewrite PN, NU; reflexivity]).
      destruct (nkind_eqb k k') eqn:KE.
      * apply nkind_eqb_eq in KE. subst k'. apply (GOOD [v]). eauto.
      * apply BAD; [| unfold pack_one, values_of; rewrite PN, NU, KE; reflexivity].
        unfold packed; rewrite T, CT. intros out (w & X & _). injection X as -> _. rewrite (proj2 (nkind_eqb_eq k k) eq_refl) in KE. discriminate.
    + destruct o as [[| k' l | |] |]; try (apply BAD; [unfold packed; rewrite T, CT; intros out (w & b & X & _); discriminate | unfold pack_one, values_of; rewrite PN, NU; reflexivity]).
      destruct (nkind_eqb k k') eqn:KE.
      * apply nkind_eqb_eq in KE. subst k'. apply (GOOD l). reflexivity.
      * apply BAD; [| unfold pack_one, values_of; rewrite PN, NU, KE; reflexivity].
        unfold packed; rewrite T, CT. intros out (w & b & X & _). injection X as -> _. rewrite (proj2 (nkind_eqb_eq k k) eq_refl) in KE. discriminate.
    + destruct o as [[| k' l | |] |]; try (apply BAD; [unfold packed; rewrite T, CT; intros out (w & X & _); discriminate | unfold pack_one, values_of; rewrite PN, NU; reflexivity]).
      destruct (nkind_eqb k k') eqn:KE.
      * apply nkind_eqb_eq in KE. subst k'. apply (GOOD l). reflexivity.
      * apply BAD; [| unfold pack_one, values_of; rewrite PN, NU, KE; reflexivity].
        unfold packed; rewrite T, CT. intros out (w & X & _). injection X as -> _. rewrite (proj2 (nkind_eqb_eq k k) eq_refl) in KE. discriminate.
  - pose proof V as [V1 _]. rewrite part_size_other in * by congruence.
    assert (PN : p_type (spec_of it) = PStr) by (unfold spec_of; destruct (i_count it); exact T).
    destruct o as [[| | s |] |].
    + unfold pack_one, values_of. rewrite PN. cbn [to_string_obj obind]. unfold packed. rewrite T. intros out (x & X & _). discriminate.
    + unfold pack_one, values_of. rewrite PN. cbn [to_string_obj obind]. unfold packed. rewrite T. intros out (x & X & _). discriminate.
    + destruct (pack_str_ok it s (Some (Str s)) T (V1 T) eq_refl OK) as (n & EN & ->); [lia | lia |].
      split; [| split; [rewrite zlen_filled; lia |]].
      * unfold packed. rewrite T. exists s. split; auto. unfold spec_count in EN. destruct (i_count it); [apply V1; auto | subst n; reflexivity |].
        subst n. apply filled_exact. reflexivity.
      * apply filled_bytes, OK.
    + unfold pack_one, values_of. rewrite PN. cbn [to_string_obj obind]. unfold packed. rewrite T. intros out (x & X & _). discriminate.
    + unfold pack_one, values_of. rewrite PN. cbn [to_string_obj obind option_map]. unfold packed. rewrite T. intros out (x & X & _). discriminate.
  - apply (pack_hex_ok it o false); auto.
  - apply (pack_hex_ok it o true); auto.
Qed.

Lemma pack_loop_ok : forall its objs i b out,
  Forall item_valid its -> Forall obj_ok objs -> Forall2 handled its (firstn (length its) (zdrop i objs)) -> 0 <= i -> i + zlen its <= zlen objs -> zlen objs <= INT32_MAX ->
  holds b out -> zlen out + total_size its (zdrop i objs) <= max_length ->
  match pack_loop (map spec_of its) objs i b with
  | Ret b' => exists out', all_packed its (zdrop i objs) out' /\ holds b' (out ++ out')
  | Die _ => forall out', ~ all_packed its (zdrop i objs) out'
  | _ => False
  end.
Proof.
  induction its as [| it its IH]; intros objs i b out V OK HA I L LO H SZ; cbn [map pack_loop].
  - exists []. rewrite app_nil_r. split; [constructor | auto].
  - rewrite zlen_cons in L. pose proof (zlen_nonneg its). destruct (znth_lt objs i) as [o O]; [lia |].
    rewrite (elem_get_ok _ _ _ O), obind_ret. rewrite (zdrop_cons _ _ _ O) in *. cbn [length firstn] in HA.
    inversion HA as [| ? ? ? ? H1 H2]; subst. inversion V as [| ? ? V1 V2]; subst. cbn [total_size] in SZ.
    assert (OO : obj_ok o) by (rewrite Forall_forall in OK; apply OK; eapply znth_In; eauto).
    assert (TN : forall its os, Forall item_valid its -> 0 <= total_size its os).
    { clear. induction its as [| it its IH]; intros [| o os] V; cbn [total_size]; try lia. inversion V as [| ? ? W1 W2]; subst. pose proof (part_size_nonneg it o W1). pose proof (IH os W2). lia. }
    pose proof (TN its (zdrop (i + 1) objs) V2). pose proof (part_size_nonneg it o V1). pose proof (zlen_nonneg out).
    pose proof (pack_one_ok it o V1 H1 OO ltac:(lia)) as P.
    destruct (pack_one (spec_of it) o) as [part | e | |]; try tauto; cbn [obind].
    + destruct P as (P & LP & BP). 
      destruct (push_str_ok b out part H) as (b' & -> & H'); [split; auto; unfold max_length in *; lia | lia |]. rewrite obind_ret.
      rewrite (wrap32_id (i + 1)) by (unfold in_i32; lia).
      specialize (IH objs (i + 1) b' (out ++ part) V2 OK H2 ltac:(lia) ltac:(lia) LO H'). rewrite zlen_app in IH. specialize (IH ltac:(lia)).
      destruct (pack_loop (map spec_of its) objs (i + 1) b') as [b2 | e | |]; auto.
      * destruct IH as (out' & AP & HB). exists (part ++ out'). split; [constructor; auto |]. rewrite app_assoc. exact HB.
      * intros out' AP. inversion AP; subst. eapply IH; eauto.
    + intros out' AP. inversion AP; subst. eapply P; eauto.
Qed.
