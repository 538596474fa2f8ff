(** * The ring buffer of List *)
From Verif Require Import Base StM Array_model Array_spec Array_proofs List_model List_spec.

Section Ring.
  Context {A : Type}.
  Variable undef : A.
  Variable accepts : A -> bool.
  Implicit Types (l r rest : list A).

  Notation okl l := (Forall (fun x => accepts x = true) l).

  (** The array whose elements, read from [off] on, are [r]. *)
  Definition arr_of r off := zdrop (zlen r - off) r ++ ztake (zlen r - off) r.
  Definition st (len : Z) r (off : Z) : lst A := mk_lst (zlen r) len (arr_of r off) off.

  Definition good r off := 0 <= off /\ (off < zlen r \/ zlen r = 0 /\ off = 0) /\
    zlen r <= max_capacity.

  Lemma good_off r off : good r off -> 0 <= off <= zlen r /\ zlen r <= 1073741824.
  Proof. unfold good, max_capacity. lia. Qed.

  Lemma zlen_arr r off : 0 <= off <= zlen r -> zlen (arr_of r off) = zlen r.
  Proof. intros. unfold arr_of. zlen_facts. rewrite zlen_app, zlen_drop, zlen_take. lia. Qed.

  Lemma znth_arr r off p : 0 <= off <= zlen r -> 0 <= p < zlen r ->
    znth (arr_of r off) p = znth r (if p <? off then zlen r - off + p else p - off).
  Proof.
    intros. unfold arr_of. zlen_facts. rewrite znth_app, zlen_drop, znth_drop, znth_take.
    destruct (Z.ltb_spec p off); zcase; zfin.
  Qed.

  Lemma rem_pos off i cap : 0 <= off < cap -> 0 <= i < cap ->
    Z.rem (off + i) cap = if off + i <? cap then off + i else off + i - cap.
  Proof.
    intros. rewrite Z.rem_mod_nonneg by lia.
    destruct (Z.ltb_spec (off + i) cap).
    - apply Z.mod_small. lia.
    - symmetry. apply (Z.mod_unique _ _ 1); lia.
  Qed.

  Lemma real_index_ok len r off i : good r off -> 0 <= i < zlen r ->
    real_index i (st len r off) = Ret (if off + i <? zlen r then off + i else off + i - zlen r).
  Proof.
    intros G Hi. destruct G as (G1 & G2 & G3). unfold max_capacity in *.
    unfold real_index, st. cbn [ls_capacity ls_offset].
    destruct (Z.eqb_spec (zlen r) 0); [lia |]. cbn [negb].
    w32. rewrite rem_pos by lia. reflexivity.
  Qed.

  Lemma get_ok len r off i x :
    good r off -> 0 <= i < len -> znth r i = Some x ->
    ls_get i (st len r off) = (st len r off, Ret x).
  Proof.
    intros G Hi E. pose proof (znth_Some _ _ _ E). destruct (good_off _ _ G).
    unfold ls_get, gets, bind. cbn [ls_length st].
    destruct (Z.geb_spec i 0); [| lia]. destruct (Z.ltb_spec i len); [| lia].
    fold (st len r off). rewrite real_index_ok by auto. rewrite obind_ret. unfold elem_get. cbn [ls_array st].
    rewrite znth_arr; [| lia | destruct (Z.ltb_spec (off + i) (zlen r)); lia].
    match goal with |- context [znth r ?e] => replace e with i end.
    2: { destruct (Z.ltb_spec (off + i) (zlen r)); zcase; zfin. }
    rewrite E. reflexivity.
  Qed.

  Lemma get_bad len r off i : in_i32 i -> ~ 0 <= i < len ->
    exists e, ls_get i (st len r off) = (st len r off, Die e).
  Proof.
    intros _ H. unfold ls_get, gets, bind. cbn [ls_length st].
    destruct (Z.geb_spec i 0); [| eexists; reflexivity].
    destruct (Z.ltb_spec i len); [lia | eexists; reflexivity].
  Qed.

  Lemma arr_upd r off i x : good r off -> 0 <= i < zlen r ->
    zupd (arr_of r off) (if off + i <? zlen r then off + i else off + i - zlen r) x =
    arr_of (zupd r i x) off.
  Proof.
    intros G Hi. destruct (good_off _ _ G). apply znth_ext. intros p Hp.
    set (q := if off + i <? zlen r then off + i else off + i - zlen r).
    assert (Q : q = if off + i <? zlen r then off + i else off + i - zlen r) by reflexivity.
    destruct (Z.ltb_spec p (zlen r)).
    - rewrite znth_upd, !znth_arr, zlen_arr, znth_upd by (rewrite ?zlen_upd; lia).
      rewrite zlen_upd.
      destruct (Z.ltb_spec (off + i) (zlen r)); destruct (Z.ltb_spec p off);
        repeat match goal with |- context [?a =? ?b] => destruct (Z.eqb_spec a b) end;
        repeat match goal with |- context [?a <=? ?b] => destruct (Z.leb_spec a b) end;
        repeat match goal with |- context [?a <? ?b] => destruct (Z.ltb_spec a b) end;
        cbn [andb]; try lia; auto.
    - rewrite !znth_ge; auto; rewrite ?zlen_upd, zlen_arr; rewrite ?zlen_upd; lia.
  Qed.

  Lemma set_ok len r off i x :
    good r off -> 0 <= i < len -> i < zlen r -> accepts x = true ->
    ls_set accepts i x (st len r off) = (st len (zupd r i x) off, Ret tt).
  Proof.
    intros G Hi Hr Ha. destruct (good_off _ _ G).
    unfold ls_set, gets, bind. cbn [ls_length st].
    destruct (Z.geb_spec i 0); [| lia]. destruct (Z.ltb_spec i len); [| lia].
    fold (st len r off). rewrite real_index_ok by (auto; lia). rewrite obind_ret. cbn [ls_array st].
    rewrite zlen_arr by lia. rewrite Ha.
    set (q := if off + i <? zlen r then off + i else off + i - zlen r).
    assert (0 <= q < zlen r) by (subst q; destruct G as (? & ? & ?); destruct (Z.ltb_spec (off + i) (zlen r)); lia).
    destruct (Z.leb_spec 0 q); [| lia]. destruct (Z.ltb_spec q (zlen r)); [| lia]. cbn [andb].
    unfold q. rewrite arr_upd by (auto; lia). unfold st. rewrite zlen_upd. reflexivity.
  Qed.

  Lemma set_bad len r off i x : good r off -> len <= zlen r ->
    ~ 0 <= i < len \/ accepts x = false ->
    exists e, ls_set accepts i x (st len r off) = (st len r off, Die e).
  Proof.
    intros G L H. destruct (good_off _ _ G). unfold ls_set, gets, bind. cbn [ls_length st].
    destruct (Z.geb_spec i 0); [| eexists; reflexivity].
    destruct (Z.ltb_spec i len); [| eexists; reflexivity].
    destruct H as [H | H]; [lia |].
    fold (st len r off). rewrite real_index_ok by (auto; lia). rewrite obind_ret. cbn [ls_array st].
    rewrite zlen_arr by lia. rewrite H.
    match goal with |- context [if ?b then _ else _] => destruct b end; eexists; reflexivity.
  Qed.

  Lemma good_upd r off i x : good r off -> good (zupd r i x) off.
  Proof. unfold good. rewrite zlen_upd. auto. Qed.

  Lemma Forall_upd r i x : okl r -> accepts x = true -> okl (zupd r i x).
  Proof.
    intros F Hx. apply Forall_forall. intros y Hy. apply In_znth in Hy. destruct Hy as (j & Hj & E).
    rewrite znth_upd in E. rewrite Forall_forall in F.
    match type of E with (if ?b then _ else _) = _ => destruct b end.
    - congruence.
    - apply F. eapply znth_In; eauto.
  Qed.

  Lemma Forall_nth r j x : okl r -> znth r j = Some x -> accepts x = true.
  Proof. intros F E. rewrite Forall_forall in F. apply F. eapply znth_In; eauto. Qed.

  Lemma arr_ok r off : okl r -> okl (arr_of r off).
  Proof.
    intros F. unfold arr_of. apply Forall_app. split.
    - rewrite <- (ztake_zdrop (zlen r - off) r) in F. apply Forall_app in F. tauto.
    - rewrite <- (ztake_zdrop (zlen r - off) r) in F. apply Forall_app in F. tauto.
  Qed.

  (** Copying with all elements accepted, between different arrays. *)
  Lemma obj_copy_ok d doff s soff len :
    0 <= len -> 0 <= doff -> 0 <= soff -> doff + len <= zlen d -> soff + len <= zlen s ->
    zlen d <= INT32_MAX -> zlen s <= INT32_MAX -> okl s ->
    memcpy_object_address accepts false d doff s soff len = (zblit d doff (zsub s soff len), Ret tt).
  Proof.
    intros. destruct (memcpy_object_ok accepts false d doff s soff len) as (d' & E & C); auto.
    - unfold bad_copy. lia.
    - intros. eapply Forall_nth; eauto.
    - discriminate.
    - rewrite E. f_equal. eapply copied_fun; eauto. apply blit_copied; auto.
  Qed.

  Lemma obj_copy_bad d doff s soff len :
    in_i32 doff -> in_i32 soff -> in_i32 len ->
    doff + len <= INT32_MAX -> soff + len <= INT32_MAX ->
    bad_copy d doff s soff len ->
    exists d' e, memcpy_object_address accepts false d doff s soff len = (d', Die e).
  Proof.
    intros. destruct (object_copy_checks_bad d doff s soff len) as (e & E); auto.
    unfold memcpy_object_address. rewrite E. eauto.
  Qed.

  Lemma extend_arr r off N : 0 <= off <= zlen r -> zlen r + off <= N ->
    zblit (zblit (zrep N undef) off (zsub (arr_of r off) off (zlen r - off)))
      (zlen r) (zsub (arr_of r off) 0 off) = arr_of (r ++ zrep (N - zlen r) undef) off.
  Proof.
    intros. zlen_facts.
    assert (L1 : zlen (zsub (arr_of r off) off (zlen r - off)) = zlen r - off)
      by (rewrite zlen_sub, zlen_arr; lia).
    assert (L2 : zlen (zsub (arr_of r off) 0 off) = off) by (rewrite zlen_sub, zlen_arr; lia).
    assert (LR : zlen (r ++ zrep (N - zlen r) undef) = N) by (rewrite zlen_app, zlen_rep; lia).
    assert (LB : zlen (zblit (zrep N undef) off (zsub (arr_of r off) off (zlen r - off))) = N)
      by (rewrite zlen_blit; rewrite ?zlen_rep, ?L1; lia).
    apply znth_ext. intros p Hp.
    destruct (Z.ltb_spec p N).
    2: { rewrite (znth_ge (arr_of _ _)) by (rewrite zlen_arr; lia).
         apply znth_ge. rewrite zlen_blit; rewrite ?LB, ?L2; lia. }
    rewrite (znth_arr _ _ p) by lia. rewrite LR.
    rewrite znth_blit by (rewrite ?LB; lia). rewrite L2.
    rewrite znth_blit by (rewrite ?zlen_rep; lia). rewrite L1.
    rewrite !znth_sub, znth_rep, znth_app, znth_rep.
    destruct (Z.leb_spec (zlen r) p); destruct (Z.ltb_spec p (zlen r + off)); cbn [andb].
    - destruct (Z.leb_spec 0 (p - zlen r)); destruct (Z.ltb_spec (p - zlen r) off); try lia. cbn [andb].
      replace (Z.max 0 0 + (p - zlen r)) with (p - zlen r) by lia. rewrite znth_arr by lia.
      destruct (Z.ltb_spec (p - zlen r) off); [| lia]. destruct (Z.ltb_spec p off); [lia |].
      destruct (Z.ltb_spec (p - off) (zlen r)); [| lia]. f_equal. lia.
    - destruct (Z.ltb_spec p (off + (zlen r - off))); [lia |]. rewrite andb_false_r.
      destruct (Z.ltb_spec p off); [lia |]. destruct (Z.ltb_spec (p - off) (zlen r)); [lia |].
      zcase; zfin.
    - destruct (Z.leb_spec off p); destruct (Z.ltb_spec p (off + (zlen r - off))); try lia; cbn [andb].
      + destruct (Z.leb_spec 0 (p - off)); destruct (Z.ltb_spec (p - off) (zlen r - off)); try lia. cbn [andb].
        rewrite znth_arr by lia. destruct (Z.ltb_spec p off); [lia |].
        destruct (Z.ltb_spec (Z.max 0 off + (p - off)) off); [lia |].
        destruct (Z.ltb_spec (p - off) (zlen r)); [| lia]. f_equal. lia.
      + destruct (Z.ltb_spec p off); [| lia].
        destruct (Z.ltb_spec (N - off + p) (zlen r)); [lia |]. zcase; zfin.
    - lia.
  Qed.

  (** ** Growing *)
  Hypothesis accepts_undef : accepts undef = true.

  Lemma Forall_rep n : okl (zrep n undef).
  Proof. apply Forall_forall. intros y Hy. apply repeat_spec in Hy. congruence. Qed.
  Ltac zl := repeat first [rewrite zlen_rep | rewrite zlen_sub | rewrite zlen_arr by lia
                          | rewrite zlen_blit by zl]; lia.
  Ltac okc := first [apply arr_ok; assumption | zl].
  Lemma extend_ok len r off n :
    good r off -> okl r -> n <= max_length \/ n <= zlen r ->
    exists r', ls_extend undef accepts n false (st len r off) = (st len r' off, Ret tt) /\
      good r' off /\ okl r' /\ n <= zlen r' /\ zlen r <= zlen r' /\
      (forall p, p < zlen r -> znth r' p = znth r p) /\
      (forall p, zlen r <= p < zlen r' -> znth r' p = Some undef).
  Proof.
    intros G F Hn. destruct (good_off _ _ G). unfold max_length in *. zlen_facts.
    unfold ls_extend. cbn [ls_capacity st]. rewrite Z.gtb_ltb.
    destruct (Z.ltb_spec (zlen r) n) as [Hlt | Hge]; cbn [negb].
    2: { exists r. repeat split; auto; try lia; apply G. }
    w32. unfold new_elems.
    destruct (Z.leb_spec 0 (n * 2)); [| lia].
    cbn [ls_array ls_offset ls_length st].
    rewrite zlen_arr, Z.eqb_refl by lia. cbn [negb]. w32.
    rewrite obj_copy_ok by okc.
    rewrite obj_copy_ok by okc.
    rewrite extend_arr by lia.
    assert (LR : zlen (r ++ zrep (n * 2 - zlen r) undef) = n * 2) by (rewrite zlen_app, zlen_rep; lia).
    exists (r ++ zrep (n * 2 - zlen r) undef). unfold st. rewrite LR.
    split; [reflexivity |]. split; [unfold good, max_capacity; rewrite LR; lia |].
    split; [apply Forall_app; split; [auto | apply Forall_rep] |].
    split; [lia |]. split; [lia |]. split; intros p Hp; rewrite znth_app.
    - destruct (Z.ltb_spec p (zlen r)); [auto | lia].
    - rewrite znth_rep. destruct (Z.ltb_spec p (zlen r)); [lia |]. zcase; zfin.
  Qed.

  Lemma reserve_ok len r off n :
    good r off -> okl r -> n <= max_capacity ->
    (exists r', ls_reserve undef accepts n (st len r off) = (st len r' off, Ret tt) /\
      good r' off /\ okl r' /\ zlen r <= zlen r' /\
      (forall p, p < zlen r -> znth r' p = znth r p) /\
      (forall p, zlen r <= p < zlen r' -> znth r' p = Some undef)) \/
    (off <> 0 /\ exists e, ls_reserve undef accepts n (st len r off) = (st len r off, Die e)).
  Proof.
    intros G F Hn. destruct (good_off _ _ G). unfold max_capacity in *. zlen_facts.
    unfold ls_reserve, ls_extend. cbn [ls_capacity st]. rewrite Z.gtb_ltb.
    destruct (Z.ltb_spec (zlen r) n) as [Hlt | Hge]; cbn [negb].
    2: { left. exists r. repeat split; auto; try lia; apply G. }
    unfold new_elems.
    destruct (Z.leb_spec 0 n); [| lia].
    cbn [ls_array ls_offset ls_length st].
    rewrite zlen_arr, Z.eqb_refl by lia. cbn [negb]. w32.
    rewrite obj_copy_ok by okc.
    destruct (Z.leb_spec (zlen r + off) n) as [Hle | Hgt].
    - left.
      rewrite obj_copy_ok by okc.
      rewrite extend_arr by lia.
      assert (LR : zlen (r ++ zrep (n - zlen r) undef) = n) by (rewrite zlen_app, zlen_rep; lia).
      exists (r ++ zrep (n - zlen r) undef). unfold st. rewrite LR.
      split; [reflexivity |]. split; [unfold good, max_capacity; rewrite LR; lia |].
      split; [apply Forall_app; split; [auto | apply Forall_rep] |].
      split; [lia |]. split; intros p Hp; rewrite znth_app.
      + destruct (Z.ltb_spec p (zlen r)); [auto | lia].
      + rewrite znth_rep. destruct (Z.ltb_spec p (zlen r)); [lia |]. zcase; zfin.
    - right. split; [lia |].
      match goal with |- context [memcpy_object_address accepts false ?d ?a ?s ?b ?n] =>
        destruct (obj_copy_bad d a s b n) as (d' & e & E) end; try (unfold in_i32; lia); [unfold bad_copy; zl |].
      rewrite E. eexists; reflexivity.
  Qed.

  (** ** Loops *)
  Lemma move_up_ok n : forall r len off src dst,
    good r off -> okl r -> len <= zlen r ->
    0 <= src <= dst -> dst + Z.of_nat n <= len ->
    move_up accepts n src dst (st len r off) = (st len (zblit r dst (zsub r src (Z.of_nat n))) off, Ret tt).
  Proof.
    induction n as [| n IH]; intros r len off src dst G F L Hs Hd; destruct (good_off _ _ G).
    - cbn [move_up]. change (Z.of_nat 0) with 0. unfold ret. do 2 f_equal.
      apply znth_ext. intros p Hp. rewrite znth_blit by lia. rewrite zlen_sub.
      destruct (Z.leb_spec dst p); destruct (Z.ltb_spec p (dst + Z.min (Z.max 0 0) (Z.max 0 (zlen r - Z.max 0 src))));
        try lia; auto.
    - cbn [move_up]. w32.
      destruct (znth_lt r (src + Z.of_nat n)) as (x & Ex); [lia |].
      erewrite bind_ret by (apply get_ok; [auto | lia | exact Ex]).
      pose proof (Forall_nth _ _ _ F Ex).
      erewrite bind_ret by (apply set_ok; auto; lia).
      rewrite IH; auto using good_upd, Forall_upd; rewrite ?zlen_upd; try lia.
      do 2 f_equal. apply znth_ext. intros p Hp.
      rewrite !znth_blit by (rewrite ?zlen_upd; lia). rewrite !zlen_sub, !znth_sub, zlen_upd, !znth_upd.
      replace (Z.of_nat (S n)) with (Z.of_nat n + 1) by lia.
      repeat match goal with |- context [?a <=? ?b] => destruct (Z.leb_spec a b) end; cbn [andb]; try lia; auto;
      repeat match goal with |- context [?a <? ?b] => destruct (Z.ltb_spec a b) end; cbn [andb]; try lia; auto;
      repeat match goal with |- context [?a =? ?b] => destruct (Z.eqb_spec a b) end; cbn [andb]; try lia; auto.
      rewrite <- Ex. f_equal. lia.
  Qed.

  Lemma move_down_ok n : forall i r len off src dst,
    good r off -> okl r -> len <= zlen r -> 0 <= i ->
    0 <= dst < src -> src + i + Z.of_nat n <= len ->
    exists r', move_down undef accepts n i src dst (st len r off) = (st len r' off, Ret tt) /\
      good r' off /\ okl r' /\ zlen r' = zlen r /\
      forall p, znth r' p =
        if (dst + i <=? p) && (p <? dst + i + Z.of_nat n) then znth r (p - dst + src)
        else if (src + i <=? p) && (p <? src + i + Z.of_nat n) then Some undef
        else znth r p.
  Proof.
    induction n as [| n IH]; intros i r len off src dst G F L Hi Hd Hs; destruct (good_off _ _ G).
    - cbn [move_down]. exists r. repeat split; auto; try apply G.
      intros p. change (Z.of_nat 0) with 0. zcase; zfin.
    - cbn [move_down]. w32.
      destruct (znth_lt r (src + i)) as (x & Ex); [lia |].
      erewrite bind_ret by (apply get_ok; [auto | lia | exact Ex]).
      pose proof (Forall_nth _ _ _ F Ex).
      erewrite bind_ret by (apply set_ok; auto; lia).
      erewrite bind_ret by (apply set_ok; auto using good_upd; rewrite ?zlen_upd; lia).
      destruct (IH (i + 1) (zupd (zupd r (dst + i) x) (src + i) undef) len off src dst)
        as (r' & E & G' & F' & L' & P); auto using good_upd, Forall_upd; rewrite ?zlen_upd; try lia.
      exists r'. rewrite E. rewrite !zlen_upd in L'. repeat split; auto; try apply G'.
      intros p. rewrite P. rewrite !znth_upd, !zlen_upd.
      replace (Z.of_nat (S n)) with (Z.of_nat n + 1) by lia.
      repeat match goal with |- context [?a <=? ?b] => destruct (Z.leb_spec a b) end; cbn [andb]; try lia; auto;
      repeat match goal with |- context [?a <? ?b] => destruct (Z.ltb_spec a b) end; cbn [andb]; try lia; auto;
      repeat match goal with |- context [?a =? ?b] => destruct (Z.eqb_spec a b) end; cbn [andb]; try lia; auto.
      rewrite <- Ex. f_equal. lia.
  Qed.

  Lemma store_all_ok vals : forall i r len off index,
    good r off -> okl r -> okl vals -> len <= zlen r -> 0 <= i -> 0 <= index ->
    index + i + zlen vals <= len ->
    store_all accepts index i vals (st len r off) = (st len (zblit r (index + i) vals) off, Ret tt).
  Proof.
    induction vals as [| x vals IH]; intros i r len off index G F Fv L Hi Hx Hl; destruct (good_off _ _ G); zlen_facts.
    - cbn [store_all]. unfold ret. do 2 f_equal.
      apply znth_ext. intros p Hp. rewrite znth_blit by (zlen_nils; lia). zlen_nils.
      destruct (Z.leb_spec (index + i) p); destruct (Z.ltb_spec p (index + i + 0)); try lia; auto.
    - rewrite zlen_cons in *. inversion Fv; subst. cbn [store_all]. w32.
      erewrite bind_ret by (apply set_ok; auto; lia).
      rewrite IH; auto using good_upd, Forall_upd; rewrite ?zlen_upd; try lia.
      do 2 f_equal. apply znth_ext. intros p Hp.
      rewrite !znth_blit by (rewrite ?zlen_upd; lia). rewrite !znth_upd, znth_cons, zlen_cons.
      repeat match goal with |- context [?a <=? ?b] => destruct (Z.leb_spec a b) end; cbn [andb]; try lia; auto;
      repeat match goal with |- context [?a <? ?b] => destruct (Z.ltb_spec a b) end; cbn [andb]; try lia; auto;
      repeat match goal with |- context [?a =? ?b] => destruct (Z.eqb_spec a b) end; cbn [andb]; try lia; auto.
      f_equal. lia.
  Qed.

  Lemma clear_from_ok n : forall r len off index,
    good r off -> okl r -> len <= zlen r -> 0 <= index -> index + Z.of_nat n <= len ->
    clear_from undef accepts index n (st len r off) =
    (st len (zblit r index (zrep (Z.of_nat n) undef)) off, Ret tt).
  Proof.
    induction n as [| n IH]; intros r len off index G F L Hx Hl; destruct (good_off _ _ G).
    - cbn [clear_from]. unfold ret. do 2 f_equal.
      apply znth_ext. intros p Hp. rewrite znth_blit by lia. rewrite zlen_rep.
      destruct (Z.leb_spec index p); destruct (Z.ltb_spec p (index + Z.max 0 (Z.of_nat 0))); try lia; auto.
    - cbn [clear_from].
      erewrite bind_ret by (apply set_ok; auto; lia).
      rewrite IH; auto using good_upd, Forall_upd; rewrite ?zlen_upd; try lia.
      do 2 f_equal. apply znth_ext. intros p Hp.
      rewrite !znth_blit by (rewrite ?zlen_upd; lia). rewrite !znth_upd, !znth_rep, !zlen_rep.
      replace (Z.of_nat (S n)) with (Z.of_nat n + 1) by lia.
      repeat match goal with |- context [?a <=? ?b] => destruct (Z.leb_spec a b) end; cbn [andb]; try lia; auto;
      repeat match goal with |- context [?a <? ?b] => destruct (Z.ltb_spec a b) end; cbn [andb]; try lia; auto;
      repeat match goal with |- context [?a =? ?b] => destruct (Z.eqb_spec a b) end; cbn [andb]; try lia; auto.
  Qed.
End Ring.
