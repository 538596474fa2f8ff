(** * C41: pack and unpack (lib/SPVM/Packer.spvm) *)
From Verif Require Import Base StM CLib Dec Array_model Bytes FnMem_model FnMem_spec FnMem_proofs FnRev_proofs FnMem_props
  FnStr_model FnStr_spec FnStr_proofs FnNum_model FnNum_spec FnNum_proofs FnNum_props FnUtf8_model StrBuf_model StrBuf_spec StrBuf_proofs
  Format_model Format_proofs Packer_model Packer_spec FormatParse_proofs PackerParse_proofs Packer_proofs PackerHex_proofs PackerMain_proofs PackerUn_proofs.

(** ** The specification determines the bytes *)
Lemma spec_of_inj a b : spec_of a = spec_of b -> a = b.
Proof.
  destruct a as [ty e c], b as [ty' e' c']. unfold spec_of; cbn [i_count i_type i_endian].
  destruct c, c'; intros H; injection H; intros; subst; congruence.
Qed.

Theorem C41_template_unique : forall t its its', is_string t -> template_text t its -> template_text t its' -> its = its'.
Proof.
  intros t its its' S A B. pose proof (parse_template_complete true t its S A) as EA. rewrite (parse_template_complete true t its' S B) in EA.
  injection EA as E. symmetry. clear - E. revert its' E. induction its as [| a its IH]; intros [| b its'] E; try discriminate; auto.
  cbn [map] in E. injection E as E1 E2. apply spec_of_inj in E1. subst. f_equal. auto.
Qed.

Lemma packed_unique it o out : packed it o out -> forall out', packed it o out' -> out = out'.
Proof.
  unfold packed. destruct (i_type it) as [k | | |]; intros P out' Q.
  - destruct (i_count it) as [| n |].
    + destruct P as (v & -> & N), Q as (v' & E & N'). injection E as <-. apply number_bytes_iff in N, N'. congruence.
    + destruct P as (l & bs & -> & N & ->), Q as (l' & bs' & E & N' & ->). injection E as <-. apply elements_bytes_iff in N, N'. congruence.
    + destruct P as (l & -> & N), Q as (l' & E & N'). injection E as <-. apply elements_bytes_iff in N, N'. congruence.
  - destruct P as (s & -> & P), Q as (s' & E & Q). injection E as <-. destruct (i_count it); [tauto | congruence ..].
  - destruct P as (s & bs & O & P & ->), Q as (s' & bs' & O' & Q & ->).
    assert (s' = s) by (destruct O as [-> | [-> ->]], O' as [O' | [O' ->]]; congruence). subst s'. rewrite (hex_bytes_fun _ _ _ P _ Q). reflexivity.
  - destruct P as (s & bs & O & P & ->), Q as (s' & bs' & O' & Q & ->).
    assert (s' = s) by (destruct O as [-> | [-> ->]], O' as [O' | [O' ->]]; congruence). subst s'. rewrite (hex_bytes_fun _ _ _ P _ Q). reflexivity.
Qed.
Theorem C41_packed_unique : forall its os out out', all_packed its os out -> all_packed its os out' -> out = out'.
Proof.
  intros its os out out' P. revert out'. induction P as [os | it its o os out out2 P PS IH]; intros out' Q; inversion Q; subst; auto.
  f_equal; [eapply packed_unique; eauto | auto].
Qed.

Lemma F2_length {A B} (R : A -> B -> Prop) l l' : Forall2 R l l' -> length l = length l'.
Proof. induction 1; cbn; congruence. Qed.

(** ** pack *)

(** Of the objects [handled] admits, pack lays each out in the requested order;
    it throws exactly when the objects are not what the template asks for. *)
Theorem C41_pack_partial : forall long64 t its objects,
  is_string t -> template_text t its ->
  Forall obj_ok objects -> zlen objects <= INT32_MAX -> zlen its <= INT32_MAX ->
  Forall (fun p => handled (fst p) (snd p)) (combine its objects) ->
  total_size its objects <= max_length ->
  match pack long64 (Some t) (Some objects) with
  | Ret out => all_packed its objects out
  | Die _ => forall out, ~ all_packed its objects out
  | _ => False
  end.
Proof.
  intros long64 t its objects S TT OK LO LI H SZ. unfold pack. rewrite (parse_template_complete long64 t its S TT), obind_ret.
  assert (LM : zlen (map spec_of its) = zlen its) by (unfold zlen; rewrite map_length; reflexivity). rewrite LM.
  destruct (Z.leb_spec (zlen its) (zlen objects)) as [L | L].
  - destruct (new_ok None (-1)) as (b & -> & IB); [exact Logic.I | unfold max_capacity; lia |]. rewrite obind_ret.
    assert (HB : holds b []) by (eexists; split; [exact IB | reflexivity]).
    assert (HF : Forall2 handled its (firstn (length its) objects)).
    { clear - H L. revert objects H L. induction its as [| it its IH]; intros [| o os] H L; cbn [length firstn combine] in *; try constructor.
      - rewrite zlen_cons in L. change (zlen (@nil (option pobj))) with 0 in L. pose proof (zlen_nonneg its). lia.
      - inversion H; subst. auto.
      - inversion H; subst. apply IH; auto. rewrite !zlen_cons in L. lia. }
    pose proof (pack_loop_ok its objects 0 b [] (template_valid _ _ TT) OK) as P. rewrite (zdrop_0 0) in P by lia.
    specialize (P HF ltac:(lia) ltac:(lia) LO HB). change (@zlen Z []) with 0 in P. specialize (P ltac:(lia)).
    destruct (pack_loop (map spec_of its) objects 0 b) as [b' | e | |]; auto; cbn [obind].
    destruct P as (out & AP & (a & I & BA)). rewrite (to_string_ok _ _ I), BA. exact AP.
  - intros out AP. clear - L AP. induction AP as [| it its o os out out' P AP IH].
    + change (zlen (@nil item)) with 0 in L. pose proof (zlen_nonneg os). lia.
    + rewrite !zlen_cons in L. apply IH. lia.
Qed.

(** A string that is no template is refused. *)
Theorem C41_template : forall long64 t, is_string t -> (forall its, ~ template_text t its) ->
  (forall objects, exists e, pack long64 (Some t) (Some objects) = Die e) /\
  (forall binary, exists e, unpack long64 (Some t) (Some binary) = Die e).
Proof.
  intros long64 t S N. pose proof (parse_template_ok long64 t S) as P. unfold pack, unpack.
  destruct (parse_template long64 t) as [specs | e | |]; try tauto.
  - destruct P as (its & TT & _). exfalso. eapply N; eauto.
  - split; intros; eexists; reflexivity.
Qed.

Theorem C41_undef : forall long64 t x,
  (exists e, pack long64 None x = Die e) /\ (exists e, pack long64 t None = Die e) /\
  (exists e, unpack long64 None t = Die e) /\ (exists e, unpack long64 t None = Die e).
Proof. intros long64 t x. repeat split; try (destruct t); eexists; reflexivity. Qed.

(** ** The round trip, for numbers and strings *)
Theorem C41_round_trip_partial : forall long64 t its objects,
  is_string t -> template_text t its ->
  Forall obj_ok objects -> zlen objects <= INT32_MAX ->
  Forall2 fits its objects -> star_last its ->
  total_size its objects <= max_length ->
  exists b, pack long64 (Some t) (Some objects) = Ret b /\ unpack long64 (Some t) (Some b) = Ret objects.
Proof.
  intros long64 t its objects S TT OK LO F SL SZ. exists (laid_all its objects). unfold pack, unpack.
  rewrite (parse_template_complete long64 t its S TT). cbn [obind].
  assert (LM : zlen (map spec_of its) = zlen objects) by (unfold zlen; rewrite map_length, (F2_length _ _ _ F); reflexivity). rewrite LM.
  destruct (Z.leb_spec (zlen objects) (zlen objects)); [| lia].
  destruct (new_ok None (-1)) as (b & -> & IB); [exact Logic.I | unfold max_capacity; lia |]. rewrite obind_ret.
  assert (HB : holds b []) by (eexists; split; [exact IB | reflexivity]).
  destruct (pack_all_fits its objects [] b [] (template_valid _ _ TT) OK F LO HB) as (b' & E & (a & I & BA)); [change (@zlen Z []) with 0; lia |].
  cbn [app] in E, BA. change (zlen (@nil (option pobj))) with 0 in E. rewrite E, obind_ret.
  split; [rewrite (to_string_ok _ _ I), BA; reflexivity |].
  apply (unpack_all_fits its objects [] []); auto. cbn [app]. rewrite <- total_laid by auto. unfold max_length in SZ. lia.
Qed.

(** unpack reads the documented layout. *)
Theorem C41_unpack_partial : forall long64 t its objects b,
  is_string t -> template_text t its ->
  Forall obj_ok objects -> zlen objects <= INT32_MAX ->
  Forall2 fits its objects -> Forall2 handled its objects -> star_last its ->
  total_size its objects <= max_length ->
  all_packed its objects b ->
  unpack long64 (Some t) (Some b) = Ret objects.
Proof.
  intros long64 t its objects b S TT OK LO F H SL SZ AP.
  destruct (C41_round_trip_partial long64 t its objects S TT OK LO F SL SZ) as (b' & P & U).
  pose proof (C41_pack_partial long64 t its objects S TT OK LO) as Q.
  assert (LI : zlen its <= INT32_MAX) by (unfold zlen in *; rewrite (F2_length _ _ _ F); exact LO). specialize (Q LI).
  assert (HC : Forall (fun p => handled (fst p) (snd p)) (combine its objects)).
  { clear - H. induction H; constructor; auto. }
  specialize (Q HC SZ). rewrite P in Q. rewrite (C41_packed_unique _ _ _ _ AP Q). exact U.
Qed.

(** ** Non-vacuity *)
Ltac objects_ok := repeat match goal with
  | |- Bytes.is_byte _ => unfold Bytes.is_byte; lia
  | |- Forall _ (_ :: _) => apply Forall_cons | |- Forall _ [] => apply Forall_nil
  | |- _ /\ _ => split | |- obj_ok _ => cbn [obj_ok]
  | |- kvalue _ _ => cbn [kvalue]; unfold in_i8, in_i16, in_i32, in_i64; lia 
  | |- _ <= _ => vm_compute; discriminate | |- _ < _ => reflexivity end.

(** "c2s>a3q*" *)
Example C41_ex :
  let t := [99; 50; 115; 62; 97; 51; 113; 42] in
  let its := [mk_item (PNum KByte) ENone (Count 2); mk_item (PNum KShort) EBig Single; mk_item PStr ENone (Count 3); mk_item (PNum KLong) ENone Star] in
  let objects := [Some (Nums KByte [1; -1]); Some (Boxed KShort 258); Some (Str [97; 0; 99]); Some (Nums KLong [-2])] in
  is_string t /\ template_text t its /\ Forall obj_ok objects /\ Forall2 fits its objects /\ Forall2 handled its objects /\ star_last its /\
  total_size its objects <= max_length /\
  pack true (Some t) (Some objects) = Ret [1; 255; 1; 2; 97; 0; 99; 254; 255; 255; 255; 255; 255; 255; 255].
Proof.
  intros t its objects.
  assert (D : forall d, 48 <= d <= 57 -> Dec.is_digit d) by (unfold Dec.is_digit; lia).
  split; [split; [repeat constructor; lia | reflexivity] |].
  split.
  { apply (T_cons [99; 50] _ [115; 62; 97; 51; 113; 42]).
    { apply (Item 99 (PNum KByte) [] ENone [50] (Count 2)); [constructor | constructor | | discriminate].
      apply (C_count [50]); [discriminate | repeat constructor; apply D; lia | cbn; lia]. }
    apply (T_cons [115; 62] _ [97; 51; 113; 42]).
    { apply (Item 115 (PNum KShort) [62] EBig [] Single); [constructor .. | discriminate]. }
    apply (T_cons [97; 51] _ [113; 42]).
    { apply (Item 97 PStr [] ENone [51] (Count 3)); [constructor | constructor | | discriminate].
      apply (C_count [51]); [discriminate | repeat constructor; apply D; lia | cbn; lia]. }
    apply (T_cons [113; 42] _ []); [| constructor].
    apply (Item 113 (PNum KLong) [] ENone [42] Star); [constructor .. | discriminate]. }
  split; [unfold objects; objects_ok |].
  split; [unfold its, objects; repeat (apply Forall2_cons || apply Forall2_nil); cbn; auto |].
  split; [unfold its, objects; repeat (apply Forall2_cons || apply Forall2_nil); cbn; auto; discriminate |].
  split; [cbn; repeat split; try discriminate; intros H; exfalso; apply H; reflexivity |].
  split; [vm_compute; discriminate | reflexivity].
Qed.

(** Hexadecimal text: "H4h1" with "1aF0", "5"; and a digit that is none. *)
Example C41_hex_ex :
  pack true (Some [72; 52; 104; 49]) (Some [Some (Str [49; 97; 70; 48]); Some (Str [53])]) = Ret [26; 240; 5] /\
  (exists e, pack true (Some [72; 52]) (Some [Some (Str [49; 103; 70; 48])]) = Die e).
Proof. split; [reflexivity | eexists; reflexivity]. Qed.

(** ** What is missing: findings *)

Ltac one_item := apply (T_cons _ _ []); [| constructor].

(** "s>*": only the first of the elements is converted (an odd number of times). *)
Theorem C41_big_endian_refuted : exists t its objects out,
  is_string t /\ template_text t its /\ Forall obj_ok objects /\ pack true (Some t) (Some objects) = Ret out /\ ~ all_packed its objects out.
Proof.
  exists [115; 62; 42], [mk_item (PNum KShort) EBig Star], [Some (Nums KShort [1; 2; 3])], [0; 1; 2; 0; 3; 0].
  split; [split; [repeat constructor; lia | reflexivity] |].
  split. { apply (T_cons [115; 62; 42] _ []); [| constructor]. apply (Item 115 (PNum KShort) [62] EBig [42] Star); [constructor .. | discriminate]. }
  split; [objects_ok |].
  split; [reflexivity |].
  assert (AP : all_packed [mk_item (PNum KShort) EBig Star] [Some (Nums KShort [1; 2; 3])] ([0; 1; 0; 2; 0; 3] ++ [])).
  { constructor; [| constructor]. exists [1; 2; 3]. split; auto. apply elements_bytes_iff. reflexivity. }
  intros Q. pose proof (C41_packed_unique _ _ _ _ AP Q). discriminate.
Qed.

(** "H*": half of the digits are lost. *)
Theorem C41_hex_star_refuted : exists t its objects out,
  is_string t /\ template_text t its /\ Forall obj_ok objects /\ pack true (Some t) (Some objects) = Ret out /\ ~ all_packed its objects out.
Proof.
  exists [72; 42], [mk_item PHexHigh ENone Star], [Some (Str [49; 50; 51; 52])], [18].
  split; [split; [repeat constructor; lia | reflexivity] |].
  split. { apply (T_cons [72; 42] _ []); [| constructor]. apply (Item 72 PHexHigh [] ENone [42] Star); [constructor .. | discriminate]. }
  split; [objects_ok |].
  split; [reflexivity |].
  intros Q. inversion Q as [| ? ? ? ? o1 o2 P AP E1 E2 E3]; subst. inversion AP; subst. rewrite app_nil_r in E3. subst.
  destruct P as (s & bs & [E | [E _]] & H & X); [| discriminate]. injection E as <-.
  apply (f_equal zlen) in X. cbn zeta in X. rewrite zlen_filled in X by (vm_compute; discriminate). vm_compute in X. discriminate.
Qed.

(** "H3": the digit behind the third is not cut off. *)
Theorem C41_hex_odd_refuted : exists t its objects out,
  is_string t /\ template_text t its /\ Forall obj_ok objects /\ pack true (Some t) (Some objects) = Ret out /\ ~ all_packed its objects out.
Proof.
  exists [72], [mk_item PHexHigh ENone Single], [Some (Str [49; 50])], [18].
  split; [split; [repeat constructor; lia | reflexivity] |].
  split. { apply (T_cons [72] _ []); [| constructor]. apply (Item 72 PHexHigh [] ENone [] Single); [constructor .. | discriminate]. }
  split; [objects_ok |].
  split; [reflexivity |].
  intros Q. inversion Q as [| ? ? ? ? o1 o2 P AP E1 E2 E3]; subst. inversion AP; subst. rewrite app_nil_r in E3. subst.
  destruct P as (s & bs & [E | [E _]] & H & X); [| discriminate]. injection E as <-. cbn [digits_used i_count i_type] in H, X.
  change (ztake 1 [49; 50]) with [49] in H. inversion H as [| c d D |]; subst.
  assert (d = 1) by (destruct D; lia). subst. discriminate.
Qed.

(** Unpacking hexadecimal text drops leading zeros, or throws. *)
Theorem C41_hex_round_trip_refuted :
  (exists t o b o', pack true (Some t) (Some [Some o]) = Ret b /\ unpack true (Some t) (Some b) = Ret [Some o'] /\ o' <> o) /\
  (exists t o b e, pack true (Some t) (Some [Some o]) = Ret b /\ unpack true (Some t) (Some b) = Die e).
Proof.
  split.
  - exists [72; 50], (Str [48; 53]), [5], (Str [53]). repeat split; discriminate.
  - exists [104; 50], (Str [53; 48]), [5]. eexists. split; reflexivity.
Qed.

(** A wildcard in the middle: pack accepts it, unpack cannot read it. *)
Theorem C41_star_middle_refuted : exists t its objects b e,
  template_text t its /\ Forall2 fits its objects /\
  pack true (Some t) (Some objects) = Ret b /\ unpack true (Some t) (Some b) = Die e.
Proof.
  exists [99; 42; 99], [mk_item (PNum KByte) ENone Star; mk_item (PNum KByte) ENone Single], [Some (Nums KByte [1; 2]); Some (Boxed KByte 3)], [1; 2; 3].
  eexists. split; [| split; [repeat constructor | split; reflexivity]].
  apply (T_cons [99; 42] _ [99]).
  { apply (Item 99 (PNum KByte) [] ENone [42] Star); [constructor .. | discriminate]. }
  apply (T_cons [99] _ []); [| constructor]. apply (Item 99 (PNum KByte) [] ENone [] Single); [constructor .. | discriminate].
Qed.

Lemma unpack_wrap_lemma n : n = 536870912 ->
  unpack_one (mk_pspec (PNum KLong) false ENone n false) [] 0 = Ret (Nums KLong (map (fun i => decode KLong (zsub (zrep (8 * n) 0) (8 * Z.of_nat i) 8)) (seq 0 (Z.to_nat n))), 0).
Proof.
  intros N. unfold unpack_one. cbn [p_type size_of is_hex p_star p_length p_endian ksize]. cbn zeta.
  assert (W : wrap32 (8 * n) = 0) by (rewrite N; reflexivity). rewrite W.
  change (wrap32 (0 + 0) <=? zlen []) with true. cbn iota. unfold new_string_len. cbn [Z.leb Z.eqb Z.compare]. cbn iota. cbn [obind].
  change (zrep 0 0) with (@nil Z).
  rewrite (cut_ok (string_blob []) 0 [] 0); try reflexivity; try lia; [| apply string_blob_ok; change (@zlen Z []) with 0; lia ..].
  cbn [obind]. unfold data_at. cbn [znth]. change (wrap32 (0 + 0)) with 0.
  change (znth [with_data (string_blob []) (zsub [] 0 0); string_blob []] 0) with (Some (string_blob [])). cbn iota. cbn [obind string_blob b_data].
  unfold object_of. cbn [p_type p_numeric]. unfold new_num_array. destruct (Z.leb_spec 0 n); [| lia]. cbn [obind ksize].
  set (D0 := mk_blob KNumArray false 8 n (zrep (8 * n) 0)).
  assert (M : fn_memcpy [D0; string_blob []] (Some 0) 0 (Some 1) 0 (@zlen Z []) = Ret [D0; string_blob []]).
  { change (@zlen Z []) with 0. unfold fn_memcpy, fn_copy, get_raw. change (znth [D0; string_blob []] 0) with (Some D0). change (znth [D0; string_blob []] 1) with (Some (string_blob [])).
    reflexivity. }
  rewrite M. cbn [obind]. change (znth [D0; string_blob []] 0) with (Some D0). cbn iota. reflexivity.
Qed.

(** "q536870912": 8 * 536870912 wraps to 0, so the empty string is enough. *)
Theorem C41_unpack_wrap_refuted : exists t its l,
  is_string t /\ template_text t its /\ unpack true (Some t) (Some []) = Ret [Some (Nums KLong l)] /\ zlen l = 536870912.
Proof.
  exists [113; 53; 51; 54; 56; 55; 48; 57; 49; 50], [mk_item (PNum KLong) ENone (Count 536870912)]. eexists.
  assert (S : is_string [113; 53; 51; 54; 56; 55; 48; 57; 49; 50]) by (split; [repeat constructor; lia | reflexivity]).
  assert (TT : template_text [113; 53; 51; 54; 56; 55; 48; 57; 49; 50] [mk_item (PNum KLong) ENone (Count 536870912)]).
  { apply (T_cons [113; 53; 51; 54; 56; 55; 48; 57; 49; 50] _ []); [| constructor].
    apply (Item 113 (PNum KLong) [] ENone [53; 51; 54; 56; 55; 48; 57; 49; 50] (Count 536870912)); [constructor | constructor | | discriminate].
    apply (C_count [53; 51; 54; 56; 55; 48; 57; 49; 50]); [discriminate | repeat constructor; unfold Dec.is_digit; lia | cbn; lia]. }
  split; auto. split; auto. split.
  - unfold unpack. rewrite (parse_template_complete true _ _ S TT), obind_ret. cbn [map spec_of i_count i_type i_endian unpack_loop].
    rewrite (unpack_wrap_lemma 536870912 eq_refl). cbn [obind app]. reflexivity.
  - unfold zlen. rewrite map_length, seq_length. apply Z2Nat.id. lia.
Qed.

Print Assumptions C41_template_unique.
Print Assumptions C41_packed_unique.
Print Assumptions C41_pack_partial.
Print Assumptions C41_template.
Print Assumptions C41_round_trip_partial.
Print Assumptions C41_unpack_partial.
Print Assumptions C41_big_endian_refuted.
Print Assumptions C41_unpack_wrap_refuted.
