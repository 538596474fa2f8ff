(** * C36: substr, index, rindex, contains; C37: character classes and case *)
From Verif Require Import Base CLib Array_model FnMem_model FnMem_spec FnMem_proofs FnRev_proofs FnStr_model FnStr_spec FnStr_proofs.

(** ** C36 *)

(** index: an exception exactly for undef and for a range that is not
    accepted; otherwise the least offset of an occurrence that lies within the
    range, -1 without one.  The empty substring is found at the begin. *)
Theorem C36_index :
  forall s sub begin end_,
    is_string s -> is_string sub ->
    match index (Some s) (Some sub) begin end_ with
    | Ret r => range_ok s begin end_ /\
        (sub = [] -> r = begin) /\ (sub <> [] -> least_occurrence s sub begin (last_position s end_) r)
    | Die _ => ~ range_ok s begin end_
    | _ => False
    end.
Proof. exact index_spec. Qed.

(** rindex: the same with the greatest offset; the empty substring is found at
    the end. *)
Theorem C36_rindex :
  forall s sub begin end_,
    is_string s -> is_string sub ->
    match rindex (Some s) (Some sub) end_ begin with
    | Ret r => range_ok s begin end_ /\
        (sub = [] -> r = if end_ <? 0 then zlen s else end_) /\
        (sub <> [] -> greatest_occurrence s sub begin (last_position s end_) r)
    | Die _ => ~ range_ok s begin end_
    | _ => False
    end.
Proof. exact rindex_spec. Qed.

(** contains: 1 exactly when the substring occurs in the range. *)
Theorem C36_contains :
  forall s sub begin end_,
    is_string s -> is_string sub ->
    match contains (Some s) (Some sub) begin end_ with
    | Ret r => range_ok s begin end_ /\ (r = 0 \/ r = 1) /\
        (r = 1 <-> sub = [] \/ exists i, occurs_between s sub begin (last_position s end_) i)
    | Die _ => ~ range_ok s begin end_
    | _ => False
    end.
Proof.
  intros s sub begin end_ S B. unfold contains. pose proof (index_spec s sub begin end_ S B) as I.
  destruct (index (Some s) (Some sub) begin end_) as [r | | |]; cbn [obind]; auto.
  destruct I as (R & E & N). split; auto.
  destruct (list_eq_dec Z.eq_dec sub []) as [-> | NE].
  - rewrite (E eq_refl). destruct R as [R _]. destruct (Z.geb_spec begin 0); [| lia]. split; auto. split; auto.
  - destruct (N NE) as [[O L] | [-> L]].
    + assert (0 <= r) by (destruct O as (O1 & _); destruct R as [R _]; lia).
      destruct (Z.geb_spec r 0); [| lia]. split; auto. split; eauto.
    + cbn. split; auto. split; [discriminate |]. intros [? | [i I]]; [congruence | destruct (L i I)].
Qed.

(** undef is rejected by all of them. *)
Theorem C36_undef :
  (forall sub b e, exists m, index None sub b e = Die m) /\
  (forall s b e, exists m, index (Some s) None b e = Die m) /\
  (forall sub b e, exists m, rindex None sub b e = Die m) /\
  (forall s b e, exists m, rindex (Some s) None b e = Die m) /\
  (forall sub b e, exists m, contains None sub b e = Die m) /\
  (forall s b e, exists m, contains (Some s) None b e = Die m) /\
  (forall o n r, exists m, substr None o n r = Die m).
Proof. repeat split; intros; try (eexists; reflexivity). destruct r; eexists; reflexivity. Qed.

(** substr without replacement: exactly the addressed bytes, an exception
    exactly when the range is not inside the string.  Missing: an offset and a
    length whose sum is above the largest int (false of the code, see below). *)
Theorem C36_substr_partial :
  forall s off n,
    is_string s -> in_i32 off -> in_i32 n -> off + n <= INT32_MAX ->
    match substr (Some s) off n None with
    | Ret t => range_inside s off n /\ exists before after,
        s = before ++ t ++ after /\ zlen before = off /\ zlen t = range_length s off n
    | Die _ => ~ range_inside s off n
    | _ => False
    end.
Proof.
  intros s off n S O N SUM. pose proof (substr0_spec s off n S O N SUM) as P. cbv zeta in P. unfold substr, range_inside.
  change (range_length s off n) with (effective_length s off n).
  destruct (substr0 (Some s) off n) as [t | | |]; auto. destruct P as (P1 & P2 & P3 & ->). split; auto.
  exists (ztake off s), (zdrop (off + effective_length s off n) s). split; [| split].
  - apply znth_ext. intros k K. rewrite !znth_app, zlen_take, znth_take, zlen_sub, znth_sub, znth_drop.
    replace (Z.min (Z.max 0 off) (zlen s)) with off by lia.
    replace (Z.min (Z.max 0 (effective_length s off n)) (Z.max 0 (zlen s - Z.max 0 off)))
      with (effective_length s off n) by lia.
    destruct (Z.ltb_spec k off); auto. destruct (Z.ltb_spec (k - off) (effective_length s off n)).
    + destruct (Z.leb_spec 0 (k - off)); [| lia]. cbn [andb]. f_equal. lia.
    + destruct (Z.ltb_spec (k - off - effective_length s off n) 0); [lia |]. f_equal. lia.
  - rewrite zlen_take. lia.
  - rewrite zlen_sub. lia.
Qed.

(** substr with a replacement: the string with the range replaced. *)
Theorem C36_substr_replacement_partial :
  forall s off n r,
    is_string s -> is_string r -> in_i32 off -> in_i32 n -> off + n <= INT32_MAX -> zlen s + zlen r < INT32_MAX ->
    match substr (Some s) off n (Some r) with
    | Ret t => range_inside s off n /\ exists before range after,
        s = before ++ range ++ after /\ zlen before = off /\ zlen range = range_length s off n /\
        t = before ++ r ++ after
    | Die _ => ~ range_inside s off n
    | _ => False
    end.
Proof.
  intros s off n r S [_ LR] O N SUM SZ. pose proof (substr_replace_spec s off n r S LR O N SUM SZ) as P. cbv zeta in P.
  unfold range_inside. change (range_length s off n) with (effective_length s off n).
  pose proof (C36_substr_partial s off n S O N SUM) as Q. unfold range_inside in Q.
  change (range_length s off n) with (effective_length s off n) in Q.
  destruct (substr (Some s) off n (Some r)) as [t | | |]; auto. destruct P as (P1 & P2 & P3 & P4).
  split; [auto |].
  destruct (substr (Some s) off n None) as [u | m | |]; [| destruct Q; auto | contradiction | contradiction].
  destruct Q as (_ & b & a & E & LB & LU). exists b, u, a. split; auto. split; auto. split; auto.
  set (m := effective_length s off n) in *. clearbody m. clear P3 SZ S SUM.
  rewrite P4, E. rewrite ztake_app_l, ztake_all by lia.
  replace (zdrop (off + m) (b ++ u ++ a)) with a; auto.
  rewrite app_assoc, zdrop_app_r, zdrop_0 by (rewrite ?zlen_app; lia). reflexivity.
Qed.

(** offset + length is computed with wrap-around: a huge length passes the
    check; the call then fails with an exception of another check, or, for the
    largest int, allocates length + 1 bytes with an overflow. *)
Theorem C36_substr_overflow_refuted :
  forall s off, is_string s -> 0 < off <= INT32_MAX -> substr (Some s) off INT32_MAX None = UB.
Proof.
  intros s off [_ L] O. cbn [substr]. unfold substr0. destruct (Z.geb_spec off 0); [| lia].
  destruct (Z.ltb_spec INT32_MAX 0); [lia |].
  assert (W : wrap32 (off + INT32_MAX) = off - INT32_MAX - 2).
  { unfold wrap32, wrap. replace (off + INT32_MAX + 2147483648) with (off - 1 + 1 * (2 * 2147483648)) by lia.
    rewrite Z.mod_add by lia. rewrite Z.mod_small; lia. }
  rewrite W. pose proof (zlen_nonneg s). destruct (Z.leb_spec (off - INT32_MAX - 2) (zlen s)); [| lia].
  reflexivity.
Qed.

(** equals_string_range compares the two ranges when they are inside the
    strings -- and the second string also holds the range at the offset of the
    first one, which the method checks instead (Fn.spvm:137-140). *)
Theorem C36_equals_string_range_partial :
  forall s1 o1 s2 o2 n,
    is_string s1 -> is_string s2 -> 0 <= o1 -> 0 <= o2 -> 0 <= n ->
    o1 + n <= zlen s1 -> o2 + n <= zlen s2 -> o1 + n <= zlen s2 ->
    exists r, equals_string_range (Some s1) o1 (Some s2) o2 n = Ret r /\ (r = 0 \/ r = 1) /\
      (r = 1 <-> zsub s1 o1 n = zsub s2 o2 n).
Proof. exact equals_range_ok. Qed.

(** Without the last condition the method denies equal ranges ... *)
Theorem C36_equals_string_range_refuted :
  forall s1 s2 o1 o2 n,
    is_string s1 -> is_string s2 -> 0 <= o1 -> 0 <= o2 -> 0 <= n ->
    o1 + n <= zlen s1 -> o2 + n <= zlen s2 -> zlen s2 < o1 + n ->
    equals_string_range (Some s1) o1 (Some s2) o2 n = Ret 0.
Proof.
  intros s1 s2 o1 o2 n [_ L1] [_ L2] O1 O2 N H1 H2 H3. unfold equals_string_range.
  destruct (Z.geb_spec o1 0); [| lia]. destruct (Z.geb_spec o2 0); [| lia].
  rewrite wrap32_id by (unfold in_i32; lia).
  destruct (Z.leb_spec (o1 + n) (zlen s1)); [| lia]. destruct (Z.leb_spec (o1 + n) (zlen s2)); [lia |]. reflexivity.
Qed.

(** "abcabc" *)
Definition ex_s : list Z := [97; 98; 99; 97; 98; 99].
Example ex_s_string : is_string ex_s.
Proof. split; [repeat constructor; lia | reflexivity]. Qed.
Example C36_nonvacuous :
  index (Some ex_s) (Some [98; 99]) 0 (-1) = Ret 1 /\ index (Some ex_s) (Some [98; 99]) 2 6 = Ret 4 /\
  index (Some ex_s) (Some [98; 99]) 2 4 = Ret (-1) /\ rindex (Some ex_s) (Some [97; 98]) (-1) 0 = Ret 3 /\
  rindex (Some ex_s) (Some [97; 98]) 3 0 = Ret 0 /\ contains (Some ex_s) (Some [99; 97]) 0 (-1) = Ret 1 /\
  (exists m, index (Some ex_s) (Some [97]) 3 2 = Die m) /\
  substr (Some ex_s) 1 2 None = Ret [98; 99] /\ substr (Some ex_s) 4 (-1) None = Ret [98; 99] /\
  substr (Some ex_s) 1 4 (Some [0; 255; 0]) = Ret [97; 0; 255; 0; 99] /\
  (exists m, substr (Some ex_s) 5 2 None = Die m) /\ (exists m, substr (Some ex_s) 7 (-1) None = Die m) /\
  equals_string_range (Some ex_s) 0 (Some ex_s) 3 3 = Ret 1 /\
  equals_string_range (Some ex_s) 3 (Some (ztake 3 ex_s)) 0 3 = Ret 0 /\
  zsub ex_s 3 3 = zsub (ztake 3 ex_s) 0 3 /\
  (exists m, equals_string_range (Some ex_s) 0 (Some (ztake 5 ex_s)) 3 3 = Die m).
Proof. repeat split; try reflexivity; eexists; reflexivity. Qed.

(** ** C37 *)

Lemma recognizes_flag (f : Z -> Z) (g : Z -> bool) class :
  (forall c, f c = if g c then 1 else 0) ->
  (forall c, g c = existsb (fun r => (fst r <=? c) && (c <=? snd r)) class) -> recognizes f class.
Proof.
  intros F G c. rewrite F, G. destruct (existsb _ class) eqn:E.
  - left. split; auto. apply existsb_exists in E. destruct E as ([lo hi] & I & E). cbn in E.
    exists lo, hi. split; auto. lia.
  - right. split; auto. intros (lo & hi & I & R).
    assert (X : existsb (fun r => (fst r <=? c) && (c <=? snd r)) class = true).
    { apply existsb_exists. exists (lo, hi). cbn. split; auto. lia. }
    congruence.
Qed.

Ltac by_flag g := apply (recognizes_flag _ g); intros c; cbn [existsb fst snd A_Z a_z digits A_F a_f one].

(** Every predicate but is_blank gives 1 exactly on the documented code
    points, and 0 on every other int. *)
Theorem C37_classes_partial :
  recognizes is_alnum [A_Z; a_z; digits] /\
  recognizes is_alpha [A_Z; a_z] /\
  recognizes is_cntrl [(0x00, 0x1F); one 0x7F] /\
  recognizes is_digit [digits] /\
  recognizes is_graph [(0x21, 0x7E)] /\
  recognizes is_hex_digit [digits; a_f; A_F] /\
  recognizes is_lower [a_z] /\
  recognizes is_perl_space [one 0x09; one 0x0A; one 0x0C; one 0x0D; one 0x20] /\
  recognizes is_perl_word [a_z; A_Z; digits; one 0x5F] /\
  recognizes is_print [(0x20, 0x7E)] /\
  recognizes is_punct [(0x21, 0x2F); (0x3A, 0x40); (0x5B, 0x60); (0x7B, 0x7E)] /\
  recognizes is_space [one 0x09; one 0x0A; one 0x0B; one 0x0C; one 0x0D; one 0x20] /\
  recognizes is_upper [A_Z] /\
  recognizes is_xdigit [digits; A_F; a_f].
Proof.
  repeat match goal with |- _ /\ _ => split end.
  - by_flag (fun c => ((c >=? 65) && (c <=? 90)) || ((c >=? 97) && (c <=? 122)) || ((c >=? 48) && (c <=? 57))); [reflexivity | lia].
  - by_flag (fun c => ((c >=? 65) && (c <=? 90)) || ((c >=? 97) && (c <=? 122))); [reflexivity | lia].
  - by_flag (fun c => ((c >=? 0) && (c <=? 31)) || (c =? 127)); [reflexivity | lia].
  - by_flag (fun c => (c >=? 48) && (c <=? 57)); [reflexivity | lia].
  - by_flag (fun c => (c >=? 33) && (c <=? 126)); [reflexivity | lia].
  - by_flag (fun c => ((c >=? 48) && (c <=? 57)) || ((c >=? 97) && (c <=? 102)) || ((c >=? 65) && (c <=? 70))); [reflexivity | lia].
  - by_flag (fun c => (c >=? 97) && (c <=? 122)); [reflexivity | lia].
  - by_flag (fun c => (c =? 32) || (c =? 13) || (c =? 10) || (c =? 9) || (c =? 12)); [| lia].
    destruct (Z.eqb_spec c 32); [subst; reflexivity |]. destruct (Z.eqb_spec c 13); [subst; reflexivity |].
    destruct (Z.eqb_spec c 10); [subst; reflexivity |]. destruct (Z.eqb_spec c 9); [subst; reflexivity |].
    destruct (Z.eqb_spec c 12); [subst; reflexivity |]. cbn [orb].
    unfold is_perl_space. destruct c as [| p | p]; auto.
    repeat (destruct p as [p | p |]; auto; try (exfalso; lia)).
  - by_flag (fun c => ((c >=? 97) && (c <=? 122)) || ((c >=? 65) && (c <=? 90)) || (c =? 95) || ((c >=? 48) && (c <=? 57))); [| lia].
    unfold is_perl_word. destruct ((c >=? 97) && (c <=? 122)); auto. destruct ((c >=? 65) && (c <=? 90)); auto.
    destruct (c =? 95); auto.
  - by_flag (fun c => (c >=? 32) && (c <=? 126)); [reflexivity | lia].
  - by_flag (fun c => ((c >=? 33) && (c <=? 47)) || ((c >=? 58) && (c <=? 64)) || ((c >=? 91) && (c <=? 96)) || ((c >=? 123) && (c <=? 126))); [reflexivity | lia].
  - by_flag (fun c => ((c >=? 9) && (c <=? 13)) || (c =? 32)); [reflexivity | lia].
  - by_flag (fun c => (c >=? 65) && (c <=? 90)); [reflexivity | lia].
  - by_flag (fun c => ((c >=? 65) && (c <=? 70)) || ((c >=? 97) && (c <=? 102)) || ((c >=? 48) && (c <=? 57))); [reflexivity | lia].
Qed.

(** is_blank is documented as space and tab: it gives 1 for every int outside
    10 .. 31, among them all letters and digits. *)
Theorem C37_is_blank_refuted :
  ~ recognizes is_blank [one 0x20; one 0x09].
Proof.
  intros R. destruct (R 65) as [[_ (lo & hi & I & B)] | [X _]]; [| discriminate].
  cbn in I. destruct I as [I | [I | []]]; injection I; intros; lia.
Qed.
Theorem C37_is_blank_actual_refuted :
  forall c, is_blank c = 1 <-> ~ 10 <= c <= 31.
Proof.
  intros c. unfold is_blank, flag01. destruct ((c >=? 32) || (c <=? 9)) eqn:E; split; intros; try lia; discriminate.
Qed.

(** to_lower and to_upper on code points. *)
Theorem C37_code_point_case :
  forall c, in_i32 c ->
    to_lower c = (if capital c then c + 32 else c) /\ to_upper c = (if small c then c - 32 else c).
Proof.
  intros c C. unfold to_lower, to_upper, capital, small, in_i32 in *.
  rewrite !Z.geb_leb. split.
  - destruct (Z.leb_spec 65 c); destruct (Z.leb_spec c 90); cbn [andb]; auto. apply wrap32_id. unfold in_i32. lia.
  - destruct (Z.leb_spec 97 c); destruct (Z.leb_spec c 122); cbn [andb]; auto. apply wrap32_id. unfold in_i32. lia.
Qed.

(** lc and uc change exactly the ASCII letters; lcfirst and ucfirst exactly
    the first byte when it is one. *)
Theorem C37_lc_uc :
  forall s, is_string s -> lc (Some s) = Ret (map lower s) /\ uc (Some s) = Ret (map upper s).
Proof.
  intros s S. split; apply case_map_ok; auto; [apply lower_byte | apply upper_byte].
Qed.
Theorem C37_first_partial :
  forall s, is_string s -> s <> [] ->
    lcfirst (Some s) = Ret (on_first lower s) /\ ucfirst (Some s) = Ret (on_first upper s).
Proof.
  intros s S N. split; apply first_map_ok; auto; [apply lower_byte | apply upper_byte].
Qed.
(** The empty string makes them throw (memcpy with the length -1). *)
Theorem C37_first_empty_refuted :
  lcfirst (Some []) = Die e_length /\ ucfirst (Some []) = Die e_length.
Proof. split; reflexivity. Qed.

(** trim removes exactly the white space at both ends. *)
Theorem C37_trim : forall s, is_string s -> exists t, trim (Some s) = Ret t /\ trimmed s t.
Proof. exact trim_spec. Qed.

(** chomp (and chompr, on a copy) removes one "\r\n" or "\n" at the end. *)
Theorem C37_chomp : forall s, is_string s -> exists t, chomp (Some s) = Ret t /\ chomped s t.
Proof. exact chomp_spec. Qed.

(** shorten_null_char keeps the bytes before the first NUL. *)
Theorem C37_shorten_null_char :
  forall s, is_string s ->
    exists t, shorten_null_char (Some s) = Ret t /\ ~ In 0 t /\ (s = t \/ exists r, s = t ++ 0 :: r).
Proof. exact shorten_null_spec. Qed.

(** replace_chars replaces exactly the bytes equal to the given ASCII
    character ... *)
Theorem C37_replace_chars_partial :
  forall s from_ch to_ch, is_string s -> 0 <= from_ch < 128 -> 0 <= to_ch <= 255 ->
    replace_chars (Some s) from_ch to_ch = Ret (map (fun b => if b =? from_ch then to_ch else b) s).
Proof.
  intros s f t S F T. rewrite replace_chars_ok by auto. f_equal. apply map_ext_in. intros b B.
  destruct S as [S _]. rewrite Forall_forall in S. rewrite wrap8_is by (try apply S; auto).
  destruct (b =? f); auto. apply to_byte_small. lia.
Qed.
(** ... but a byte above 127 is never replaced: characters are read as signed
    numbers. *)
Theorem C37_replace_chars_refuted :
  forall s from_ch to_ch, is_string s -> 128 <= from_ch -> replace_chars (Some s) from_ch to_ch = Ret s.
Proof.
  intros s f t S F. rewrite replace_chars_ok by auto. f_equal. rewrite <- (map_id s) at 2. apply map_ext_in. intros b B.
  destruct S as [S _]. rewrite Forall_forall in S. specialize (S b B). rewrite wrap8_byte by auto.
  destruct (Z.ltb_spec b 128); [destruct (Z.eqb_spec b f) | destruct (Z.eqb_spec (b - 256) f)]; auto; lia.
Qed.

Theorem C37_undef :
  (exists m, lc None = Die m) /\ (exists m, uc None = Die m) /\ (exists m, lcfirst None = Die m) /\
  (exists m, ucfirst None = Die m) /\ (exists m, trim None = Die m) /\ (exists m, chomp None = Die m) /\
  (exists m, shorten_null_char None = Die m) /\ (forall a b, exists m, replace_chars None a b = Die m).
Proof. repeat split; intros; eexists; reflexivity. Qed.

(** " aB\r\n", with a byte above 127 in the middle. *)
Definition ex_t : list Z := [32; 97; 200; 66; 13; 10].
Example ex_t_string : is_string ex_t.
Proof. split; [repeat constructor; lia | reflexivity]. Qed.
Example C37_nonvacuous :
  lc (Some ex_t) = Ret [32; 97; 200; 98; 13; 10] /\ uc (Some ex_t) = Ret [32; 65; 200; 66; 13; 10] /\
  lcfirst (Some [66; 66]) = Ret [98; 66] /\ ucfirst (Some [97; 97]) = Ret [65; 97] /\
  trim (Some ex_t) = Ret [97; 200; 66] /\ trim (Some [32; 10]) = Ret [] /\
  chomp (Some ex_t) = Ret [32; 97; 200; 66] /\ chomp (Some [97; 10]) = Ret [97] /\ chomp (Some [97; 13]) = Ret [97; 13] /\
  chomp (Some [10; 10]) = Ret [10] /\
  shorten_null_char (Some [97; 0; 98; 0]) = Ret [97] /\ replace_chars (Some ex_t) 66 200 = Ret [32; 97; 200; 200; 13; 10] /\
  is_punct 64 = 1 /\ is_punct 65 = 0 /\ is_cntrl (-1) = 0 /\ to_lower 90 = 122.
Proof. repeat split. Qed.

Print Assumptions C36_index.
Print Assumptions C36_rindex.
Print Assumptions C36_contains.
Print Assumptions C36_undef.
Print Assumptions C36_substr_partial.
Print Assumptions C36_substr_replacement_partial.
Print Assumptions C36_substr_overflow_refuted.
Print Assumptions C36_equals_string_range_partial.
Print Assumptions C36_equals_string_range_refuted.
Print Assumptions C37_classes_partial.
Print Assumptions C37_is_blank_refuted.
Print Assumptions C37_is_blank_actual_refuted.
Print Assumptions C37_code_point_case.
Print Assumptions C37_lc_uc.
Print Assumptions C37_first_partial.
Print Assumptions C37_first_empty_refuted.
Print Assumptions C37_trim.
Print Assumptions C37_chomp.
Print Assumptions C37_shorten_null_char.
Print Assumptions C37_replace_chars_partial.
Print Assumptions C37_replace_chars_refuted.
Print Assumptions C37_undef.

(** The copies between strings in the models of this file are Fn->memcpy and
    Fn->memmove as modelled for C39, checks and undefined behaviour included. *)
Theorem C39_string_copies :
  forall move h d bd doff s bs soff n,
    heap_ok h -> znth h d = Some bd -> znth h s = Some bs -> d <> s \/ move = true ->
    b_kind bd = KString -> b_kind bs = KString -> b_read_only bd = false ->
    fn_copy move h (Some d) doff (Some s) soff n =
    (let! data := bytes_copy (b_data bd) doff (b_data bs) soff n in
     Ret (if n =? 0 then h else zupd h d (with_data bd data))).
Proof. intros. apply fn_copy_strings; auto. Qed.
Example C39_string_copies_ex :
  let string_blob s := mk_blob KString false 1 (zlen s) s in
  fn_copy false [string_blob [1; 2; 3]; string_blob [7; 8]] (Some 0) 1 (Some 1) 0 2 =
    Ret [string_blob [1; 7; 8]; string_blob [7; 8]] /\
  exists e, fn_copy false [string_blob [1; 2; 3]; string_blob [7; 8]] (Some 0) 0 (Some 1) 0 3 = Die e.
Proof. cbv zeta. split; [vm_compute; reflexivity | eexists; vm_compute; reflexivity]. Qed.
Print Assumptions C39_string_copies.
