(** * Proofs about the copies, the sorts and the option methods *)
From Coq Require Import Permutation.
From Verif Require Import Base CLib StM Array_model Array_spec Array_proofs List_model List_ring
  Buckets Val Hash_model Hash_spec Hash_proofs Sort_model Sort_spec Sort_proofs Sort_props
  FnMem_model FnMem_spec FnMem_proofs FnHof_model FnHof_spec FnHof_proofs.

(** ** copy_object *)
Section CopyObject.
  Context {S A : Type}.
  Variable arr : S -> list A.
  Variable undef : A.
  Variable accepts : A -> bool.
  Notation okl l := (Forall (fun x => accepts x = true) l).

  Lemma range_wrap n offset length len :
    0 <= n <= INT32_MAX -> 0 <= offset <= INT32_MAX -> range_length n offset length = len ->
    (if length <? 0 then wrap32 (n - offset) else length) = len.
  Proof.
    unfold range_length. intros. destruct (Z.ltb_spec length 0); auto. rewrite wrap32_id; auto. unfold in_i32. lia.
  Qed.

  Lemma copy_object_clone cloner s offset length len ps s' o :
    keeps_array arr accepts cloner ->
    in_i32 offset -> in_i32 length -> zlen (arr s) <= INT32_MAX ->
    range_length (zlen (arr s)) offset length = len ->
    0 <= offset -> 0 <= len -> offset + len <= zlen (arr s) ->
    calls arr (only accepts (fun _ => e_elem) cloner) offset (offset + len) s ps s' o ->
    copy_object arr undef accepts true (Some cloner) offset length s =
      (s', match o with None => Ret (answers ps) | Some e => Die e end).
  Proof.
    unfold in_i32. intros K Io Il La R O L B C. unfold copy_object, copy_object_with_proto. cbn [negb].
    destruct (Z.geb_spec offset 0); [| lia]. cbn [negb].
    rewrite (range_wrap _ offset length len) by (auto; zlen_facts; lia). cbv zeta.
    rewrite wrap32_id by (unfold in_i32; lia).
    destruct (Z.leb_spec (offset + len) (zlen (arr s))); [| lia]. cbn [negb].
    destruct (Z.geb_spec len 0); [| lia]. cbn [negb].
    pose proof (clone_loop_ok arr accepts cloner offset len K offset (offset + len) s ps s' o C (zrep len undef)) as E.
    rewrite Z.sub_diag in E. replace (offset + len - offset) with len in E by lia.
    specialize (E ltac:(lia) eq_refl ltac:(lia) ltac:(lia)). rewrite zlen_rep in E. specialize (E ltac:(lia)).
    destruct o as [e |].
    - destruct E as (out & ->). reflexivity.
    - rewrite E. reflexivity.
  Qed.

  Lemma blit_all (l : list A) (src : list A) off n :
    zlen l = n -> 0 <= n -> 0 <= off -> off + n <= zlen src -> zblit l 0 (zsub src off n) = zsub src off n.
  Proof.
    intros. apply znth_ext. intros p Hp. rewrite znth_blit by (rewrite ?zlen_sub; lia).
    rewrite zlen_sub, !znth_sub. replace (Z.min (Z.max 0 n) (Z.max 0 (zlen src - Z.max 0 off))) with n by lia.
    replace (p - 0) with p by lia.
    destruct (Z.leb_spec 0 p); cbn [andb].
    - destruct (Z.ltb_spec p (0 + n)); destruct (Z.ltb_spec p n); try lia; auto. apply znth_ge. lia.
    - rewrite znth_neg by lia. auto.
  Qed.

  Lemma copy_object_plain s offset length len :
    in_i32 offset -> in_i32 length -> zlen (arr s) <= INT32_MAX -> okl (arr s) ->
    range_length (zlen (arr s)) offset length = len ->
    0 <= offset -> 0 <= len -> offset + len <= zlen (arr s) ->
    copy_object arr undef accepts true None offset length s = (s, Ret (zsub (arr s) offset len)).
  Proof.
    unfold in_i32. intros Io Il La Ok R O L B. unfold copy_object, copy_object_with_proto. cbn [negb].
    destruct (Z.geb_spec offset 0); [| lia]. cbn [negb].
    rewrite (range_wrap _ offset length len) by (auto; zlen_facts; lia). cbv zeta.
    rewrite wrap32_id by (unfold in_i32; lia).
    destruct (Z.leb_spec (offset + len) (zlen (arr s))); [| lia]. cbn [negb].
    destruct (Z.geb_spec len 0); [| lia]. cbn [negb].
    rewrite (obj_copy_ok accepts) by (rewrite ?zlen_rep; auto; lia).
    rewrite blit_all by (rewrite ?zlen_rep; lia). reflexivity.
  Qed.

  Lemma copy_object_bad cloner s offset length len :
    in_i32 offset -> in_i32 length -> zlen (arr s) <= INT32_MAX ->
    range_length (zlen (arr s)) offset length = len -> offset + len <= INT32_MAX ->
    offset < 0 \/ len < 0 \/ zlen (arr s) < offset + len ->
    exists e, copy_object arr undef accepts true cloner offset length s = (s, Die e).
  Proof.
    unfold in_i32. intros Io Il La R M D. zlen_facts. unfold copy_object, copy_object_with_proto. cbn [negb].
    destruct (Z.geb_spec offset 0); cbn [negb]; [| eauto].
    rewrite (range_wrap _ offset length len) by (auto; zlen_facts; lia). cbv zeta.
    rewrite wrap32_id by (unfold in_i32, range_length in *; destruct (Z.ltb_spec length 0); lia).
    destruct (Z.leb_spec (offset + len) (zlen (arr s))); cbn [negb]; [| eauto].
    destruct (Z.geb_spec len 0); cbn [negb]; [lia | eauto].
  Qed.

  Lemma slice_object_ok s offset length :
    in_i32 offset -> in_i32 length -> zlen (arr s) <= INT32_MAX -> okl (arr s) ->
    0 <= offset -> 0 <= length -> offset + length <= zlen (arr s) ->
    slice_object arr undef accepts true offset length s = (s, Ret (zsub (arr s) offset length)).
  Proof.
    intros. unfold slice_object. cbn [negb]. destruct (Z.geb_spec length 0); [| lia]. cbn [negb].
    rewrite (obj_copy_ok accepts) by (rewrite ?zlen_rep; auto; lia).
    rewrite blit_all by (rewrite ?zlen_rep; lia). reflexivity.
  Qed.

  Lemma slice_object_bad s offset length :
    in_i32 offset -> in_i32 length -> zlen (arr s) <= INT32_MAX -> offset + length <= INT32_MAX ->
    offset < 0 \/ length < 0 \/ zlen (arr s) < offset + length ->
    exists e, slice_object arr undef accepts true offset length s = (s, Die e).
  Proof.
    intros Io Il La M D. unfold slice_object. cbn [negb].
    destruct (Z.geb_spec length 0); cbn [negb]; [| eauto].
    unfold in_i32 in *.
    destruct (obj_copy_bad accepts (zrep length undef) 0 (arr s) offset length) as (d' & e & ->);
      unfold in_i32; try lia; eauto.
    unfold bad_copy. rewrite zlen_rep. lia.
  Qed.
End CopyObject.

(** ** sort *)
Lemma fn_sort_ok {S A} (cmp : S -> A -> A -> S * outcome Z) (undef : A) accepts fuel s a hc :
  zlen a <= INT32_MAX -> Forall (fun x => accepts x = true) a ->
  fn_sort cmp undef accepts fuel s (Some a) hc =
    match Sort_model.sort cmp undef fuel s (Some a) hc 0 (-1) with
    | (s', array', Ret _) => (s', array', Ret a)
    | (s', array', Die e) => (s', array', Die e)
    | (s', array', UB) => (s', array', UB)
    | (s', array', Fuel) => (s', array', Fuel)
    end.
Proof.
  intros La Ok. unfold fn_sort, copy_object_address.
  pose proof (zlen_nonneg a).
  rewrite (copy_object_plain (fun a => a) undef accepts a 0 (-1) (zlen a)); unfold in_i32; auto; try lia.
  - cbn [snd]. rewrite zsub_0, ztake_all by lia. reflexivity.
  - unfold range_length. cbn. lia.
Qed.

(** ** copy_string *)
Lemma copy_string_loop_ok a offset n : forall i h out,
  0 <= i -> 0 <= offset -> offset + i + Z.of_nat n <= zlen a -> zlen a <= INT32_MAX ->
  zlen out = i + Z.of_nat n ->
  (forall j p, znth a j = Some (Some p) -> 0 <= p < zlen h) ->
  exists fresh out', copy_string_loop a offset n i h out = Ret (h ++ fresh, out') /\ zlen out' = zlen out /\
    (forall j, j < i -> znth out' j = znth out j) /\
    (forall j, i <= j < i + Z.of_nat n ->
       match znth a (offset + j) with
       | Some None => znth out' j = Some None
       | Some (Some p) =>
           exists q s, znth out' j = Some (Some q) /\ zlen h <= q < zlen h + zlen fresh /\ znth h p = Some s /\
             znth (h ++ fresh) q = Some (mk_str (s_bytes s) false)
       | None => False
       end) /\
    (forall j k q, i <= j < i + Z.of_nat n -> i <= k < i + Z.of_nat n ->
       znth out' j = Some (Some q) -> znth out' k = Some (Some q) -> j = k).
Proof.
  induction n as [| n IH]; intros i h out Hi Ho B La Lo V.
  - exists [], out. cbn. rewrite app_nil_r. split; auto. split; auto. split; auto. split; intros; lia.
  - cbn [copy_string_loop]. rewrite wrap32_id by (unfold in_i32; lia).
    destruct (znth_lt a (offset + i)) as [p Hp]; [lia |].
    unfold elem_get. rewrite Hp. cbn [obind].
    destruct p as [p |].
    + pose proof (V _ _ Hp) as Vp. destruct (znth_lt h p Vp) as [s Hs].
      cbn [str_copy]. rewrite Hs. cbn [obind]. unfold elem_set.
      replace ((0 <=? i) && (i <? zlen out)) with true by lia. cbn [obind].
      destruct (IH (i + 1) (h ++ [mk_str (s_bytes s) false]) (zupd out i (Some (zlen h))))
        as (fresh & out' & E & L & Old & New & Inj); rewrite ?zlen_upd; try lia.
      { intros j q Hq. apply V in Hq. rewrite zlen_app. zlen_facts. lia. }
      rewrite zlen_app in *. change (zlen [mk_str (s_bytes s) false]) with 1 in *.
      exists (mk_str (s_bytes s) false :: fresh), out'.
      rewrite <- app_assoc in *. cbn [app] in *. split; [exact E |]. rewrite zlen_upd in L. split; [auto |].
      assert (Oi : znth out' i = Some (Some (zlen h))).
      { rewrite Old by lia. rewrite znth_upd. replace ((0 <=? i) && (i <? zlen out)) with true by lia.
        rewrite ?Z.eqb_refl; cbn. repeat match goal with |- context [if ?b then _ else _] => destruct b eqn:?; try lia end; auto. }
      rewrite zlen_cons. pose proof (zlen_nonneg fresh). pose proof (zlen_nonneg h).
      split; [| split].
      * intros j Hj. rewrite Old by lia. rewrite znth_upd.
        repeat match goal with |- context [if ?b then _ else _] => destruct b eqn:?; try lia end; auto.
      * intros j Hj. destruct (Z.eq_dec j i) as [-> | Nj].
        -- rewrite Hp. exists (zlen h), s. split; [auto |]. split; [lia |]. split; [auto |].
           rewrite znth_app. replace (zlen h <? zlen h) with false by lia.
           replace (zlen h - zlen h) with 0 by lia. reflexivity.
        -- specialize (New j ltac:(lia)). destruct (znth a (offset + j)) as [[p' |] |] eqn:Ej; auto.
           destruct New as (q & s' & N1 & N2 & N3 & N4). exists q, s'.
           split; [auto |]. split; [lia |]. split; [| auto].
           rewrite znth_app in N3. pose proof (V _ _ Ej).
           replace (p' <? zlen h) with true in N3 by lia. auto.
      * assert (Sep : forall j q, i + 1 <= j < i + Z.of_nat (S n) -> znth out' j = Some (Some q) -> zlen h + 1 <= q).
        { intros j q Hj Hq. specialize (New j ltac:(lia)).
          destruct (znth a (offset + j)) as [[p' |] |]; [| congruence | contradiction].
          destruct New as (q' & s' & N1 & N2 & _). rewrite Hq in N1. inversion N1; subst. lia. }
        intros j k q Hj Hk Ej Ek.
        destruct (Z.eq_dec j i) as [-> | Nj]; destruct (Z.eq_dec k i) as [-> | Nk]; auto.
        -- rewrite Oi in Ej. inversion Ej; subst. specialize (Sep k _ ltac:(lia) Ek). lia.
        -- rewrite Oi in Ek. inversion Ek; subst. specialize (Sep j _ ltac:(lia) Ej). lia.
        -- apply (Inj j k q); auto; lia.
    + cbn [str_copy obind]. unfold elem_set.
      replace ((0 <=? i) && (i <? zlen out)) with true by lia. cbn [obind].
      destruct (IH (i + 1) h (zupd out i None)) as (fresh & out' & E & L & Old & New & Inj); rewrite ?zlen_upd; try lia; auto.
      exists fresh, out'. split; [exact E |]. rewrite zlen_upd in L. split; [auto |].
      assert (Oi : znth out' i = Some None).
      { rewrite Old by lia. rewrite znth_upd.
        repeat match goal with |- context [if ?b then _ else _] => destruct b eqn:?; try lia end; auto. }
      split; [| split].
      * intros j Hj. rewrite Old by lia. rewrite znth_upd.
        repeat match goal with |- context [if ?b then _ else _] => destruct b eqn:?; try lia end; auto.
      * intros j Hj. destruct (Z.eq_dec j i) as [-> | Nj]; [rewrite Hp; auto |]. apply New. lia.
      * intros j k q Hj Hk Ej Ek.
        destruct (Z.eq_dec j i) as [-> | Nj]; [congruence |]. destruct (Z.eq_dec k i) as [-> | Nk]; [congruence |].
        apply (Inj j k q); auto; lia.
Qed.

(** ** Options *)
Lemma store_names_ok sip names : forall h b,
  h_inv sip h -> sized h b -> b + zlen names <= 536870912 ->
  exists h', store_names sip (map Some names) h = Ret h' /\ h_inv sip h' /\
    forall k, abs h' k = if in_dec key_dec k names then Some (VInt 1) else abs h k.
Proof.
  induction names as [| n names IH]; intros h b I Sz B; cbn [map store_names].
  - exists h. split; auto.
  - rewrite zlen_cons in B. pose proof (zlen_nonneg names).
    destruct (set_spec sip h n (VInt 1) b I Sz ltac:(lia)) as (h1 & E & I1 & S1 & U1 & U2). rewrite E.
    destruct (IH h1 (b + 1) I1 S1 ltac:(lia)) as (h2 & E2 & I2 & U). exists h2. split; [auto |]. split; [auto |].
    intros k. rewrite U. destruct (in_dec key_dec k names) as [H1 | H1].
    + destruct (in_dec key_dec k (n :: names)) as [H2 | H2]; auto. exfalso. apply H2. right. auto.
    + destruct (in_dec key_dec k (n :: names)) as [[-> | H2] | H2]; [exact U1 | contradiction |].
      apply U2. intros ->. apply H2. left. auto.
Qed.

Definition available (names : list key) (v : val) : Prop := exists n, v = VString n /\ In n names.

Lemma check_names_ok sip names h : h_inv sip h ->
  (forall k, abs h k = if in_dec key_dec k names then Some (VInt 1) else None) ->
  forall m options, (length options <= m)%nat ->
  match check_names sip h options with
  | Ret None => Forall (available names) (names_of options)
  | Ret (Some (NotAvailable n)) => exists pre post, names_of options = pre ++ VString n :: post /\
      Forall (available names) pre /\ ~ In n names
  | Ret (Some (OtherError _)) => False
  | Die _ => exists pre v post, names_of options = pre ++ v :: post /\
      Forall (available names) pre /\ forall n, v <> VString n
  | _ => False
  end.
Proof.
  intros I Ab. induction m as [| m IH]; intros options Lm.
  - destruct options; [constructor | cbn in Lm; lia].
  - destruct options as [| v rest]; [constructor |]. cbn [check_names].
    assert (First : names_of (v :: rest) = v :: match rest with [] => [] | _ :: r => names_of r end)
      by (destruct rest; reflexivity).
    rewrite First.
    assert (NS : (forall n, v <> VString n) -> exists pre v0 post,
      v :: match rest with [] => [] | _ :: r => names_of r end = pre ++ v0 :: post /\
      Forall (available names) pre /\ forall n, v0 <> VString n).
    { intros. exists [], v. eexists. split; [reflexivity |]. auto. }
    destruct v; cbn [to_string obind]; try (apply NS; congruence).
    replace (hash_get sip h (Some s)) with (@Ret val (value_at (abs h) s)) by (symmetry; apply (get_spec sip h s I)).
    cbn [obind]. unfold value_at. rewrite Ab.
    destruct (in_dec key_dec s names) as [Hin | Hn]; cbn [is_defined].
    + destruct rest as [| w rest].
      * constructor; [exists s; auto | constructor].
      * specialize (IH rest ltac:(cbn in Lm; lia)).
        assert (Av : available names (VString s)) by (exists s; auto).
        destruct (check_names sip h rest) as [[[n | e] |] | e | |]; auto.
        -- destruct IH as (pre & post & E & F & N). exists (VString s :: pre), post. rewrite E. auto.
        -- destruct IH as (pre & v0 & post & E & F & N). exists (VString s :: pre), v0, post. rewrite E. auto.
    + eexists [], _. split; [reflexivity |]. auto.
Qed.
