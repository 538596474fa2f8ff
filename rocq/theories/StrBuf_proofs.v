(** * Proofs about StringBuffer *)
From Verif Require Import Base StM CLib Array_model FnMem_model FnMem_spec FnMem_proofs FnRev_proofs
  FnStr_model FnStr_spec FnStr_proofs StrBuf_model StrBuf_spec.

Definition is_byte (b : Z) : Prop := 0 <= b <= 255.

Record Inv (a : bytestr) (s : sbuf) : Prop := {
  i_bytes : Forall is_byte (sb_string s);
  i_cap : zlen (sb_string s) = sb_capacity s;
  i_max : sb_capacity s <= max_capacity;
  i_len : 0 <= sb_length s <= sb_capacity s;
  i_bs : bs a = ztake (sb_length s) (sb_string s);
  i_room : room a <= sb_capacity s;
  i_tail : stale a = false -> forall i, sb_length s <= i < sb_capacity s -> znth (sb_string s) i = Some 0
}.

Lemma inv_zlen a s : Inv a s -> zlen (bs a) = sb_length s.
Proof. intros []. rewrite i_bs0, zlen_take. lia. Qed.

Lemma Forall_zblit (P : Z -> Prop) l off l' : Forall P l -> Forall P l' -> Forall P (zblit l off l').
Proof.
  intros H H'. unfold zblit. apply Forall_app. split; [| apply Forall_app; split; auto].
  - apply Forall_forall. intros x X. rewrite Forall_forall in H. apply H. apply In_znth in X.
    destruct X as (i & _ & X). rewrite znth_take in X. destruct (i <? off); [eapply znth_In; eauto | discriminate].
  - apply Forall_forall. intros x X. rewrite Forall_forall in H. apply H. apply In_znth in X.
    destruct X as (i & _ & X). rewrite znth_drop in X. destruct (i <? 0); [discriminate | eapply znth_In; eauto].
Qed.
Lemma Forall_zsub (P : Z -> Prop) l off n : Forall P l -> Forall P (zsub l off n).
Proof.
  intros H. apply Forall_forall. intros x X. rewrite Forall_forall in H. apply In_znth in X.
  destruct X as (i & _ & X). rewrite znth_sub in X. destruct ((0 <=? i) && (i <? n)); [apply H; eapply znth_In; eauto | discriminate].
Qed.
Lemma Forall_zrep (P : Z -> Prop) n x : P x -> Forall P (zrep n x).
Proof.
  intros H. apply Forall_forall. intros y Y. apply In_znth in Y. destruct Y as (i & _ & Y).
  rewrite znth_rep in Y. destruct ((0 <=? i) && (i <? n)); congruence.
Qed.

(** What a copy gives at each position. *)
Lemma znth_copy (d : list Z) doff s soff n i :
  0 <= n -> n = 0 \/ inside (zlen d) doff n /\ inside (zlen s) soff n -> 0 <= i ->
  znth (if n =? 0 then d else zblit d doff (zsub s soff n)) i =
  if (doff <=? i) && (i <? doff + n) then znth s (soff + (i - doff)) else znth d i.
Proof.
  intros N I0 I. destruct (Z.eqb_spec n 0).
  - subst. destruct ((doff <=? i) && (i <? doff + 0)) eqn:E; auto. lia.
  - destruct I0 as [| [D S]]; [lia |]. unfold inside in *. rewrite znth_zblit_sub by lia. reflexivity.
Qed.
Lemma zlen_copy (d : list Z) doff s soff n :
  0 <= n -> n = 0 \/ inside (zlen d) doff n /\ inside (zlen s) soff n ->
  zlen (if n =? 0 then d else zblit d doff (zsub s soff n)) = zlen d.
Proof.
  intros N I0. destruct (Z.eqb_spec n 0); auto. destruct I0 as [| [D S]]; [lia |]. unfold inside in *.
  rewrite zlen_zblit_sub by lia. reflexivity.
Qed.
Lemma bytes_copy_gen d doff s soff n :
  zlen d <= INT32_MAX -> zlen s <= INT32_MAX -> Forall is_byte d -> Forall is_byte s ->
  0 <= n -> n = 0 \/ inside (zlen d) doff n /\ inside (zlen s) soff n ->
  exists d', bytes_copy d doff s soff n = Ret d' /\ zlen d' = zlen d /\ Forall is_byte d' /\
    forall i, 0 <= i -> znth d' i = if (doff <=? i) && (i <? doff + n) then znth s (soff + (i - doff)) else znth d i.
Proof.
  intros LD LS FD FS N I0. eexists. rewrite bytes_copy_ok by auto. split; [reflexivity |].
  rewrite zlen_copy by auto. split; auto. split.
  - destruct (n =? 0); auto. apply Forall_zblit; auto. apply Forall_zsub; auto.
  - intros. apply znth_copy; auto.
Qed.

(** The new buffer that _maybe_extend and reserve make. *)
Lemma regrow a s c :
  Inv a s -> sb_capacity s <= c <= max_capacity ->
  exists d, new_string_len c = Ret (zrep c 0) /\ bytes_copy (zrep c 0) 0 (sb_string s) 0 (sb_length s) = Ret d /\
    Inv a (mk_sbuf c (sb_length s) d).
Proof.
  intros [] C. unfold max_capacity in *. pose proof (zlen_nonneg (sb_string s)).
  destruct (bytes_copy_gen (zrep c 0) 0 (sb_string s) 0 (sb_length s)) as (d & E & LD & F & V);
    auto; try (rewrite ?zlen_rep; lia).
  { apply Forall_zrep. unfold is_byte. lia. }
  { right. unfold inside. rewrite zlen_rep. lia. }
  exists d. split; [apply new_string_len_ok; lia |]. split; auto. rewrite zlen_rep in LD.
  constructor; cbn; unfold max_capacity; auto; try lia.
  - rewrite i_bs0. apply znth_ext. intros i I. rewrite !znth_take. destruct (Z.ltb_spec i (sb_length s)); auto.
    rewrite V by lia. replace ((0 <=? i) && (i <? 0 + sb_length s)) with true by lia. f_equal. lia.
  - intros _ i I. rewrite V by lia. replace ((0 <=? i) && (i <? 0 + sb_length s)) with false by lia.
    rewrite znth_rep. replace ((0 <=? i) && (i <? c)) with true by lia. reflexivity.
Qed.

Lemma extend_ok a s n :
  Inv a s -> n <= max_length \/ n <= sb_capacity s ->
  exists s', sb_maybe_extend n s = (s', Ret tt) /\ Inv a s' /\ n <= sb_capacity s' /\ sb_length s' = sb_length s /\
    sb_capacity s <= sb_capacity s'.
Proof.
  intros I N. unfold sb_maybe_extend, bind, gets, lift, modify, ret.
  destruct (Z.gtb_spec n (sb_capacity s)); cbn [negb]; [| exists s; repeat split; auto; try apply I; lia].
  destruct (Z.ltb_spec (sb_capacity s) n); [| lia]. unfold max_length in *.
  assert (0 <= sb_capacity s) by (destruct I; lia).
  rewrite wrap32_id by (unfold in_i32; lia).
  destruct (regrow a s (n * 2) I) as (d & -> & -> & I'); [unfold max_capacity; lia |].
  eexists. split; [reflexivity |]. split; [exact I' |]. cbn. lia.
Qed.

Lemma extend_small a s n : Inv a s -> n <= sb_capacity s -> sb_maybe_extend n s = (s, Ret tt).
Proof.
  intros I N. unfold sb_maybe_extend, bind, gets. destruct (Z.gtb_spec n (sb_capacity s)); [lia |]. reflexivity.
Qed.

(** What the room says about a result that fits. *)
Lemma fits_extend a s n :
  Inv a s -> n <= max_length \/ n <= room a \/ n <= zlen (bs a) -> n <= max_length \/ n <= sb_capacity s.
Proof. intros I N. pose proof (inv_zlen _ _ I). destruct I. lia. Qed.

(** The state after bytes have been written behind the end. *)
Lemma append_inv a s d t :
  Inv a s -> Forall is_byte d -> zlen d = sb_capacity s -> sb_length s + zlen t <= sb_capacity s ->
  (forall i, 0 <= i -> znth d i = if (sb_length s <=? i) && (i <? sb_length s + zlen t) then znth t (i - sb_length s)
                                  else znth (sb_string s) i) ->
  Inv (mk_bytestr (bs a ++ t) (stale a) (room a)) (mk_sbuf (sb_capacity s) (sb_length s + zlen t) d).
Proof.
  intros I F L B V. pose proof (inv_zlen _ _ I) as ZL. destruct I. pose proof (zlen_nonneg t). constructor; cbn; unfold max_capacity; auto; try lia.
  - apply znth_ext. intros i I. rewrite znth_app, ZL, znth_take, i_bs0, znth_take.
    destruct (Z.ltb_spec i (sb_length s)).
    + destruct (Z.ltb_spec i (sb_length s + zlen t)); [| lia]. rewrite V by lia.
      replace ((sb_length s <=? i) && (i <? sb_length s + zlen t)) with false by lia. reflexivity.
    + destruct (Z.ltb_spec i (sb_length s + zlen t)).
      * rewrite V by lia. replace ((sb_length s <=? i) && (i <? sb_length s + zlen t)) with true by lia. reflexivity.
      * apply znth_ge. lia.
  - intros S i I. rewrite V by lia. replace ((sb_length s <=? i) && (i <? sb_length s + zlen t)) with false by lia.
    apply i_tail0; auto. lia.
Qed.

Lemma is_string_bytes s : is_string s -> Forall is_byte s.
Proof. intros [F _]. exact F. Qed.

Lemma push_ok a s str off n :
  Inv a s -> is_string str -> in_i32 off -> in_i32 n -> fits a (BPush (Some str) off n) ->
  exists s' o, sb_push (Some str) off n s = (s', o) /\
    match str_op (bs a) (BPush (Some str) off n) with
    | Some l1 => o = Ret tt /\ Inv (mk_bytestr l1 (stale a) (room a)) s'
    | None => (exists e, o = Die e) /\ Inv a s'
    end.
Proof.
  intros I S O N [FIT SUM]. pose proof S as [_ LS]. pose proof (zlen_nonneg str). pose proof (inv_zlen _ _ I) as ZL.
  unfold in_i32 in *. pose proof (i_max _ _ I) as MX. pose proof (i_len _ _ I) as LN. pose proof (i_cap _ _ I) as CP.
  unfold max_capacity in MX.
  unfold sb_push. destruct (Z.geb_spec off 0).
  2: { do 2 eexists. split; [reflexivity |]. cbn [str_op].
       destruct (Z.leb_spec 0 off); [lia |]. cbn [andb]. destruct (n =? -1); eauto. }
  set (n' := if n =? -1 then wrap32 (zlen str - off) else n).
  assert (EN : n' = if n =? -1 then zlen str - off else n).
  { unfold n'. destruct (n =? -1); auto. apply wrap32_id. unfold in_i32. lia. }
  clearbody n'.
  assert (OP : str_op (bs a) (BPush (Some str) off n) =
               if (0 <=? n') && (off + n' <=? zlen str) then Some (bs a ++ zsub str off n') else None).
  { cbn [str_op]. subst n'. destruct (Z.leb_spec 0 off); [| lia]. destruct (Z.eqb_spec n (-1)); cbn [andb].
    - destruct (Z.leb_spec off (zlen str)).
      + replace ((0 <=? zlen str - off) && (off + (zlen str - off) <=? zlen str)) with true by lia.
        do 2 f_equal. unfold zsub. rewrite ztake_all; auto. rewrite zlen_drop. lia.
      + replace ((0 <=? zlen str - off) && (off + (zlen str - off) <=? zlen str)) with false by lia. reflexivity.
    - reflexivity. }
  rewrite OP in *. clear OP.
  assert (RS : in_i32 (off + n')) by (unfold in_i32; subst n'; destruct (Z.eqb_spec n (-1)); lia).
  rewrite (wrap32_id (off + n')) by auto. unfold in_i32 in RS.
  destruct (Z.leb_spec (off + n') (zlen str)).
  2: { do 2 eexists. split; [reflexivity |]. rewrite andb_false_r. eauto. }
  unfold bind, gets, lift, set_str, modify. cbn [fst snd].
  destruct (Z.leb_spec 0 n'); cbn [andb] in *.
  - specialize (FIT _ eq_refl). rewrite zlen_app, ZL, zlen_sub in FIT.
    replace (Z.min (Z.max 0 n') (Z.max 0 (zlen str - Z.max 0 off))) with n' in FIT by lia.
    assert (NL : sb_length s + n' <= max_length \/ sb_length s + n' <= sb_capacity s).
    { apply (fits_extend a); auto. rewrite ZL. auto. }
    rewrite wrap32_id by (unfold in_i32, max_length in *; lia).
    destruct (extend_ok a s (sb_length s + n') I NL) as (s1 & -> & I1 & C1 & L1 & _).
    pose proof (i_cap _ _ I1) as CP1. pose proof (i_max _ _ I1) as MX1. unfold max_capacity in MX1.
    destruct (bytes_copy_gen (sb_string s1) (sb_length s) str off n') as (d & -> & LD & F & V); auto; try lia.
    { apply (i_bytes _ _ I1). } { apply is_string_bytes; auto. }
    { right. unfold inside. lia. }
    do 2 eexists. split; [reflexivity |]. split; auto. cbn.
    rewrite wrap32_id by (unfold in_i32; lia).
    assert (ZT : zlen (zsub str off n') = n') by (rewrite zlen_sub; lia).
    replace (sb_length s1 + n') with (sb_length s1 + zlen (zsub str off n')) by (rewrite ZT; lia).
    apply append_inv; auto; rewrite ?ZT; try lia.
    intros i Ii. rewrite V, L1 by auto. destruct ((sb_length s <=? i) && (i <? sb_length s + n')) eqn:E; auto.
    rewrite znth_sub. replace ((0 <=? i - sb_length s) && (i - sb_length s <? n')) with true by lia. f_equal. lia.
  - assert (NL : sb_length s + n' <= sb_capacity s) by lia.
    rewrite wrap32_id by (unfold in_i32; subst n'; destruct (n =? -1); lia).
    rewrite (extend_small a s _ I NL). cbn [negb].
    unfold bytes_copy. destruct (Z.geb_spec n' 0); [lia |].
    do 2 eexists. split; [reflexivity |]. eauto.
Qed.

Lemma low_byte_range c : is_byte (low_byte c).
Proof. unfold is_byte, low_byte. pose proof (Z.mod_pos_bound c 256). lia. Qed.

Lemma push_char_ok a s c :
  Inv a s -> fits a (BPushChar c) ->
  exists s', sb_push_char c s = (s', Ret tt) /\ Inv (mk_bytestr (bs a ++ [low_byte c]) (stale a) (room a)) s'.
Proof.
  intros I [FIT _]. pose proof (inv_zlen _ _ I) as ZL.
  pose proof (i_max _ _ I) as MX. pose proof (i_len _ _ I) as LN. pose proof (i_cap _ _ I) as CP. unfold max_capacity in MX.
  specialize (FIT _ eq_refl). rewrite zlen_app, ZL, zlen_cons, zlen_nil in FIT.
  assert (NL : sb_length s + 1 <= max_length \/ sb_length s + 1 <= sb_capacity s).
  { apply (fits_extend a); auto. rewrite ZL. lia. }
  unfold sb_push_char, bind, gets, lift, set_str, set_len, modify.
  rewrite wrap32_id by (unfold in_i32, max_length in *; lia).
  destruct (extend_ok a s (sb_length s + 1) I NL) as (s1 & -> & I1 & C1 & L1 & _).
  cbn. rewrite L1, elem_set_ok by (rewrite (i_cap _ _ I1); lia).
  eexists. split; [reflexivity |]. cbn.
  pose proof (i_max _ _ I1) as MX1. pose proof (i_cap _ _ I1) as CP1. unfold max_capacity in MX1.
  rewrite wrap32_id by (unfold in_i32; lia). rewrite <- L1.
  change 1 with (zlen [low_byte c]) at 1.
  apply append_inv; auto.
  - pose proof (i_bytes _ _ I1) as F. apply Forall_forall. intros x X. apply In_znth in X. destruct X as (k & _ & X).
    rewrite znth_upd in X. rewrite Forall_forall in F.
    destruct ((k =? sb_length s1) && (0 <=? sb_length s1) && (sb_length s1 <? zlen (sb_string s1))).
    + injection X as <-. apply low_byte_range.
    + apply F. eapply znth_In. eauto.
  - rewrite zlen_upd. auto.
  - rewrite zlen_cons, zlen_nil. lia.
  - intros i Ii. rewrite znth_upd, znth_cons, znth_nil. change (zlen [low_byte c]) with 1.
    destruct (Z.eqb_spec i (sb_length s1)).
    + subst i. replace (true && (0 <=? sb_length s1) && (sb_length s1 <? zlen (sb_string s1))) with true by lia.
      replace ((sb_length s1 <=? sb_length s1) && (sb_length s1 <? sb_length s1 + 1)) with true by lia.
      replace (sb_length s1 - sb_length s1) with 0 by lia. reflexivity.
    + cbn [andb]. replace ((sb_length s1 <=? i) && (i <? sb_length s1 + 1)) with false by lia. reflexivity.
Qed.

Lemma replace_ok a s off rem r :
  Inv a s -> string_arg r -> in_i32 off -> in_i32 rem -> fits a (BReplace off rem r) ->
  exists s' o, sb_replace off rem r s = (s', o) /\
    match str_op (bs a) (BReplace off rem r) with
    | Some l1 => o = Ret tt /\ Inv (mk_bytestr l1 (stale a || (zlen l1 <? zlen (bs a))) (room a)) s'
    | None => (exists e, o = Die e) /\ Inv a s'
    end.
Proof.
  intros I SA O R [FIT SUM]. pose proof (inv_zlen _ _ I) as ZL. unfold in_i32 in *.
  pose proof (i_max _ _ I) as MX. pose proof (i_len _ _ I) as LN. pose proof (i_cap _ _ I) as CP. unfold max_capacity in MX.
  unfold sb_replace, str_op in *. rewrite ZL in *.
  destruct (Z.geb_spec off 0); [| destruct (Z.leb_spec 0 off); [lia |]; do 2 eexists; split; [reflexivity | cbn; eauto]].
  destruct (Z.leb_spec 0 off); [| lia].
  destruct (Z.geb_spec rem 0); [| destruct (Z.leb_spec 0 rem); [lia |]; do 2 eexists; split; [reflexivity | cbn; eauto]].
  destruct (Z.leb_spec 0 rem); [| lia]. cbn [andb] in *.
  unfold bind at 1. unfold gets at 1. cbn.
  rewrite (wrap32_id (off + rem)) by (unfold in_i32; lia).
  destruct (Z.leb_spec (off + rem) (sb_length s)); [| do 2 eexists; split; [reflexivity | eauto]].
  specialize (FIT _ eq_refl).
  set (g := given r) in *.
  assert (GL : match r with Some r => zlen r | None => 0 end = zlen g) by (unfold g; destruct r; reflexivity).
  assert (GB : Forall is_byte g) by (unfold g; destruct r; [apply is_string_bytes; auto | constructor]).
  assert (GM : zlen g < INT32_MAX) by (unfold g; destruct r; [apply SA | reflexivity]).
  pose proof (zlen_nonneg g) as GN.
  assert (LL : zlen (ztake off (bs a) ++ g ++ zdrop (off + rem) (bs a)) = sb_length s - rem + zlen g).
  { rewrite !zlen_app, zlen_take, zlen_drop, ZL. lia. }
  rewrite LL in *. rewrite GL.
  rewrite (wrap32_id (sb_length s - rem)) by (unfold in_i32; lia).
  assert (NL : sb_length s - rem + zlen g <= max_length \/ sb_length s - rem + zlen g <= sb_capacity s).
  { apply (fits_extend a); auto. rewrite ZL. auto. }
  rewrite wrap32_id by (unfold in_i32, max_length in *; lia).
  destruct (extend_ok a s _ I NL) as (s1 & E1 & I1 & C1 & L1 & CG).
  pose proof (i_max _ _ I1) as MX1. pose proof (i_cap _ _ I1) as CP1. unfold max_capacity in MX1.
  unfold bind at 1. rewrite E1.
  unfold bind, gets, lift, set_str, set_len, modify. cbn.
  rewrite L1. rewrite (wrap32_id (sb_length s - off)) by (unfold in_i32; lia).
  rewrite (wrap32_id (sb_length s - off - rem)) by (unfold in_i32; lia).
  rewrite (wrap32_id (off + zlen g)) by (unfold in_i32; lia).
  rewrite ?(wrap32_id (off + rem)) by (unfold in_i32; lia).
  destruct (bytes_copy_gen (sb_string s1) (off + zlen g) (sb_string s1) (off + rem) (sb_length s - off - rem))
    as (d & -> & LD & FD & VD); try (apply (i_bytes _ _ I1)); try lia.
  { right. unfold inside. lia. }
  cbn.
  assert (FIN : forall d2, zlen d2 = zlen d -> Forall is_byte d2 ->
            (forall i, 0 <= i -> znth d2 i = if (off <=? i) && (i <? off + zlen g) then znth g (i - off) else znth d i) ->
            Inv (mk_bytestr (ztake off (bs a) ++ g ++ zdrop (off + rem) (bs a))
                   (stale a || (sb_length s - rem + zlen g <? sb_length s)) (room a))
                (mk_sbuf (sb_capacity s1) (sb_length s - rem + zlen g) d2)).
  { intros d2 L2 F2 V2. destruct I1. constructor; cbn; unfold max_capacity; auto; try lia.
    - apply znth_ext. intros i Ii. rewrite !znth_app, zlen_take, ZL, znth_take, znth_drop, !i_bs0, !znth_take, L1.
      replace (Z.min (Z.max 0 off) (sb_length s)) with off by lia.
      destruct (Z.ltb_spec i off).
      + destruct (Z.ltb_spec i (sb_length s)); [| lia]. destruct (Z.ltb_spec i (sb_length s - rem + zlen g)); [| lia].
        rewrite V2 by lia. replace ((off <=? i) && (i <? off + zlen g)) with false by lia.
        rewrite VD by lia. replace ((off + zlen g <=? i) && (i <? off + zlen g + (sb_length s - off - rem))) with false by lia.
        reflexivity.
      + destruct (Z.ltb_spec (i - off) (zlen g)).
        * destruct (Z.ltb_spec i (sb_length s - rem + zlen g)); [| lia].
          rewrite V2 by lia. replace ((off <=? i) && (i <? off + zlen g)) with true by lia. reflexivity.
        * destruct (Z.ltb_spec (i - off - zlen g) 0); [lia |].
          destruct (Z.ltb_spec i (sb_length s - rem + zlen g)).
          -- rewrite V2 by lia. replace ((off <=? i) && (i <? off + zlen g)) with false by lia.
             rewrite VD by lia.
             replace ((off + zlen g <=? i) && (i <? off + zlen g + (sb_length s - off - rem))) with true by lia.
             destruct (Z.ltb_spec (Z.max 0 (off + rem) + (i - off - zlen g)) (sb_length s)); [| lia]. f_equal. lia.
          -- destruct (Z.ltb_spec (Z.max 0 (off + rem) + (i - off - zlen g)) (sb_length s)); [lia | reflexivity].
    - intros ST i Ii. apply orb_false_elim in ST. destruct ST as [ST LT].
      rewrite V2 by lia. replace ((off <=? i) && (i <? off + zlen g)) with false by lia.
      rewrite VD by lia.
      replace ((off + zlen g <=? i) && (i <? off + zlen g + (sb_length s - off - rem))) with false by lia.
      apply i_tail0; auto. lia. }
  destruct r as [r |]; cbn.
  - change g with r in *. destruct (bytes_copy_gen d off r 0 (zlen r)) as (d2 & -> & L2 & F2 & V2); auto; try lia.
    { right. unfold inside. lia. }
    do 2 eexists. split; [reflexivity |]. split; auto.
  - do 2 eexists. split; [reflexivity |]. split; auto. cbn. apply FIN; auto.
    intros i Ii. replace ((off <=? i) && (i <? off + zlen g)) with false by lia. reflexivity.
Qed.

Lemma reserve_ok a s n :
  Inv a s -> in_i32 n -> fits a (BReserve n) ->
  exists s' o, sb_reserve n s = (s', o) /\
    if 0 <=? n then o = Ret tt /\ Inv (mk_bytestr (bs a) (stale a) (Z.max n (room a))) s'
    else (exists e, o = Die e) /\ Inv a s'.
Proof.
  intros I N [_ MX]. unfold sb_reserve. destruct (Z.geb_spec n 0); destruct (Z.leb_spec 0 n); try lia.
  2: { do 2 eexists. split; [reflexivity |]. eauto. }
  unfold bind, gets, lift, modify, ret. destruct (Z.gtb_spec n (sb_capacity s)).
  - destruct (regrow a s n I) as (d & -> & -> & I'); [lia |].
    do 2 eexists. split; [reflexivity |]. split; auto. destruct I'. constructor; cbn in *; auto; lia.
  - do 2 eexists. split; [reflexivity |]. split; auto. destruct I. constructor; cbn in *; auto; lia.
Qed.

Lemma set_length_ok a s n :
  Inv a s -> fits a (BSetLength n) ->
  exists s' o, sb_set_length n s = (s', o) /\
    if 0 <=? n then o = Ret tt /\ sb_capacity s <= sb_capacity s' /\ exists l', Inv (mk_bytestr l' false (room a)) s' /\
      (l' = ztake n (bs a) ++ zrep (n - zlen (bs a)) 0 \/
       (stale a = true /\ zlen (bs a) < n /\ exists ext, l' = bs a ++ ext /\ zlen ext = n - zlen (bs a)))
    else (exists e, o = Die e) /\ Inv a s'.
Proof.
  intros I [FIT _]. pose proof (inv_zlen _ _ I) as ZL.
  pose proof (i_max _ _ I) as MX. pose proof (i_len _ _ I) as LN. pose proof (i_cap _ _ I) as CP. unfold max_capacity in MX.
  cbn [str_op] in FIT.
  unfold sb_set_length. destruct (Z.geb_spec n 0); destruct (Z.leb_spec 0 n); try lia.
  2: { do 2 eexists. split; [reflexivity |]. eauto. }
  specialize (FIT _ eq_refl). rewrite zlen_app, zlen_take, zlen_rep in FIT.
  assert (NL : n <= max_length \/ n <= sb_capacity s).
  { apply (fits_extend a); auto. lia. }
  destruct (extend_ok a s n I NL) as (s1 & E1 & I1 & C1 & L1 & CG).
  pose proof (i_max _ _ I1) as MX1. pose proof (i_cap _ _ I1) as CP1. pose proof (i_len _ _ I1) as LN1. unfold max_capacity in MX1.
  unfold bind at 1. rewrite E1. unfold bind, gets, set_len, modify, ret. cbn.
  (* the string afterwards *)
  assert (D : exists d, (if n <? sb_capacity s1
               then fun s0 => (let (d, o) := memset_char (sb_string s0) 0 n (wrap32 (sb_capacity s1 - n)) in
                               (mk_sbuf (sb_capacity s0) (sb_length s0) d, o))
               else fun s0 => (s0, Ret tt)) (mk_sbuf (sb_capacity s1) n (sb_string s1)) =
             (mk_sbuf (sb_capacity s1) n d, Ret tt) /\ zlen d = sb_capacity s1 /\ Forall is_byte d /\
             forall i, 0 <= i < sb_capacity s1 -> znth d i = if i <? n then znth (sb_string s1) i else Some 0).
  { destruct (Z.ltb_spec n (sb_capacity s1)).
    - rewrite wrap32_id by (unfold in_i32; lia). cbn. rewrite memset_char_ok by lia. change (to_byte 0) with 0.
      eexists. split; [reflexivity |]. split; [rewrite zlen_blit; [auto | lia | rewrite zlen_rep; lia] |].
      split; [apply Forall_zblit; [apply (i_bytes _ _ I1) | apply Forall_zrep; unfold is_byte; lia] |].
      intros i Ii. rewrite znth_blit by (rewrite ?zlen_rep; lia). rewrite zlen_rep, znth_rep.
      destruct (Z.ltb_spec i n).
      + replace ((n <=? i) && (i <? n + Z.max 0 (sb_capacity s1 - n))) with false by lia. reflexivity.
      + replace ((n <=? i) && (i <? n + Z.max 0 (sb_capacity s1 - n))) with true by lia.
        replace ((0 <=? i - n) && (i - n <? sb_capacity s1 - n)) with true by lia. reflexivity.
    - eexists. split; [reflexivity |]. split; auto. split; [apply (i_bytes _ _ I1) |].
      intros i Ii. destruct (Z.ltb_spec i n); [reflexivity | lia]. }
  destruct D as (d & E & LD & FD & VD).
  do 2 eexists. split; [exact E |]. split; auto. split; [exact CG |]. exists (ztake n d). split.
  - constructor; cbn; unfold max_capacity; auto; try lia; [apply I1 |]. intros _ i Ii. rewrite VD by lia.
    destruct (Z.ltb_spec i n); [lia | reflexivity].
  - assert (EB : bs a = ztake (sb_length s1) (sb_string s1)) by apply I1.
    assert (CASE : (n <= sb_length s1 \/ stale a = false) ->
              ztake n d = ztake n (bs a) ++ zrep (n - zlen (bs a)) 0).
    { intros CA. apply znth_ext. intros i Ii. rewrite znth_app, !znth_take, zlen_take, ZL, znth_rep, EB, znth_take.
      destruct (Z.ltb_spec i n); [| replace ((0 <=? i - Z.min (Z.max 0 n) (sb_length s)) &&
           (i - Z.min (Z.max 0 n) (sb_length s) <? n - sb_length s)) with false by lia;
           destruct (i <? Z.min (Z.max 0 n) (sb_length s)); reflexivity].
      rewrite VD by lia. destruct (Z.ltb_spec i n); [| lia].
      destruct (Z.ltb_spec i (Z.min (Z.max 0 n) (sb_length s))).
      - destruct (Z.ltb_spec i (sb_length s1)); [reflexivity | lia].
      - replace ((0 <=? i - Z.min (Z.max 0 n) (sb_length s)) &&
                 (i - Z.min (Z.max 0 n) (sb_length s) <? n - sb_length s)) with true by lia.
        apply (i_tail _ _ I1); [destruct CA; auto; lia | lia]. }
    destruct (Z.leb_spec n (sb_length s1)); [left; auto |].
    destruct (stale a) eqn:ST; [right | left; auto].
    split; auto. split; [lia |]. exists (zsub d (sb_length s1) (n - sb_length s1)).
    split; [| rewrite zlen_sub; lia].
    apply znth_ext. intros i Ii. rewrite znth_app, ZL, znth_take, znth_sub, EB, znth_take.
    destruct (Z.ltb_spec i n).
    + rewrite L1. destruct (Z.ltb_spec i (sb_length s)).
      * rewrite VD by lia. destruct (Z.ltb_spec i n); [reflexivity | lia].
      * replace ((0 <=? i - sb_length s) && (i - sb_length s <? n - sb_length s)) with true by lia. f_equal. lia.
    + rewrite L1. destruct (Z.ltb_spec i (sb_length s)); [lia |].
      replace ((0 <=? i - sb_length s) && (i - sb_length s <? n - sb_length s)) with false by lia. reflexivity.
Qed.

Lemma inv_room a s c : Inv a s -> c <= sb_capacity s -> Inv (mk_bytestr (bs a) (stale a) c) s.
Proof. intros [] C. constructor; auto. Qed.

Lemma set_ok a s str :
  Inv a s -> string_arg str -> fits a (BSet str) ->
  exists s' o, sb_set str s = (s', o) /\
    match str with
    | Some t => o = Ret tt /\ Inv (mk_bytestr t false (room a)) s'
    | None => (exists e, o = Die e) /\ Inv (mk_bytestr [] false (room a)) s'
    end.
Proof.
  intros I SA [FIT _]. pose proof (inv_zlen _ _ I) as ZL.
  assert (F0 : fits a (BSetLength 0)).
  { split; auto. intros l1 E. cbn [str_op] in E. change (0 <=? 0) with true in E. cbn iota in E.
    assert (l1 = ztake 0 (bs a) ++ zrep (0 - zlen (bs a)) 0) by congruence. subst l1. left.
    pose proof (zlen_nonneg (bs a)). rewrite zlen_app, zlen_take, zlen_rep. unfold max_length. lia. }
  destruct (set_length_ok a s 0 I F0) as (s1 & o & E & V). change (0 <=? 0) with true in V. cbn iota in V. destruct V as (-> & CG & l' & I1 & V).
  assert (l' = []).
  { destruct V as [-> | (_ & L & _)]; [| pose proof (zlen_nonneg (bs a)); lia].
    apply zlen_0_nil. pose proof (zlen_nonneg (bs a)). rewrite zlen_app, zlen_take, zlen_rep. lia. }
  subst l'. unfold sb_set, bind. rewrite E. destruct str as [t |].
  2: { do 2 eexists. split; [reflexivity |]. split; [eauto | auto]. }
  pose proof SA as [FT LT]. pose proof (zlen_nonneg t).
  assert (CR : room a <= sb_capacity s) by apply I. assert (CL : sb_length s <= sb_capacity s) by apply I.
  pose proof (inv_room _ _ (sb_capacity s1) I1 ltac:(lia)) as I2. cbn in I2.
  assert (F1 : fits (mk_bytestr [] false (sb_capacity s1)) (BPush (Some t) 0 (-1))).
  { split; [| lia]. intros l1 E1. cbn in E1. replace (0 <=? zlen t) with true in E1 by lia. injection E1 as <-.
    rewrite zdrop_0 by lia. specialize (FIT _ eq_refl). cbn. lia. }
  destruct (push_ok _ _ t 0 (-1) I2 SA ltac:(unfold in_i32; lia) ltac:(unfold in_i32; lia) F1) as (s' & o & P & V').
  cbn in V'. replace (0 <=? zlen t) with true in V' by lia. cbn in V'. destruct V' as [-> I3].
  rewrite zdrop_0 in I3 by lia. do 2 eexists. split; [exact P |]. split; auto.
  assert (sb_capacity s1 <= sb_capacity s') by apply I3.
  apply (inv_room _ _ (room a)) in I3; [auto | lia].
Qed.

Lemma to_string_ok a s : Inv a s -> sb_to_string s = (s, Ret (bs a)).
Proof.
  intros I. pose proof (i_max _ _ I) as MX. pose proof (i_len _ _ I) as LN. pose proof (i_cap _ _ I) as CP. unfold max_capacity in MX.
  unfold sb_to_string, substr. rewrite substr0_ok.
  - unfold effective_length. destruct (Z.ltb_spec (sb_length s) 0); [lia |]. rewrite zsub_0, <- (i_bs _ _ I) by auto. reflexivity.
  - split; [apply (i_bytes _ _ I) | lia].
  - lia.
  - unfold effective_length. destruct (Z.ltb_spec (sb_length s) 0); lia.
  - unfold effective_length. destruct (Z.ltb_spec (sb_length s) 0); lia.
Qed.

Lemma op_ok a s op :
  Inv a s -> op_args_ok op -> fits a op ->
  exists s' o l', sb_op op s = (s', o) /\ allowed a op l' o /\ Inv (next a op l' o) s'.
Proof.
  intros I A F. unfold allowed. destruct op as [str off n | c | off rem r | n | n | str | | |]; cbn [op_args_ok] in A.
  - destruct A as (SA & AO & AN). destruct str as [str |].
    + destruct (push_ok a s str off n I SA AO AN F) as (s' & o & E & V).
      cbn [sb_op]. unfold bind. rewrite E. destruct (str_op (bs a) (BPush (Some str) off n)) as [l1 |].
      * destruct V as [-> V]. exists s', (Ret BRUnit), l1. split; auto. split; [cbn; auto | exact V].
      * destruct V as [[e ->] V]. exists s', (Die e), (bs a). split; auto. split; eauto. cbn. destruct V; constructor; auto.
    + exists s. cbn. do 2 eexists. split; [reflexivity |]. split; eauto. cbn. destruct I; constructor; auto.
  - destruct (push_char_ok a s c I F) as (s' & E & V). cbn [sb_op]. unfold bind. rewrite E.
    exists s', (Ret BRUnit), (bs a ++ [low_byte c]). split; auto. split; [cbn; auto | exact V].
  - destruct A as (SA & AO & AN). destruct (replace_ok a s off rem r I SA AO AN F) as (s' & o & E & V).
    cbn [sb_op]. unfold bind. rewrite E. destruct (str_op (bs a) (BReplace off rem r)) as [l1 |].
    + destruct V as [-> V]. exists s', (Ret BRUnit), l1. split; auto. split; [cbn; auto | exact V].
    + destruct V as [[e ->] V]. exists s', (Die e), (bs a). split; auto. split; eauto. cbn. destruct V; constructor; auto.
  - destruct (reserve_ok a s n I A F) as (s' & o & E & V). cbn [sb_op str_op]. unfold bind. rewrite E.
    destruct (Z.leb_spec 0 n).
    + destruct V as [-> V]. exists s', (Ret BRUnit), (bs a). split; auto. split; [cbn; auto | exact V].
    + destruct V as [[e ->] V]. exists s', (Die e), (bs a). split; auto. split; eauto. cbn. destruct V; constructor; auto.
  - destruct (set_length_ok a s n I F) as (s' & o & E & V). cbn [sb_op str_op]. unfold bind. rewrite E.
    destruct (Z.leb_spec 0 n).
    + destruct V as (-> & _ & l' & V & W). exists s', (Ret BRUnit), l'. split; auto. split; [| exact V]. split; [reflexivity |].
      destruct W; auto.
    + destruct V as [[e ->] V]. exists s', (Die e), (bs a). split; auto. split; eauto. cbn. destruct V; constructor; auto.
  - destruct (set_ok a s str I A F) as (s' & o & E & V). cbn [sb_op]. unfold bind. rewrite E.
    destruct str as [t |]; cbn [str_op].
    + destruct V as [-> V]. exists s', (Ret BRUnit), t. split; auto. split; [cbn; auto | exact V].
    + destruct V as [[e ->] V]. exists s', (Die e), []. split; auto. split; eauto.
  - cbn [sb_op]. unfold bind. rewrite (to_string_ok a s I). exists s, (Ret (BRString (bs a))), (bs a).
    split; auto. split; [cbn; auto |]. cbn. destruct I; constructor; auto.
  - cbn [sb_op]. unfold bind, gets, ret. exists s, (Ret (BRInt (sb_length s))), (bs a). split; auto.
    split; [cbn; rewrite (inv_zlen _ _ I); auto |]. cbn. destruct I; constructor; auto.
  - cbn [sb_op]. unfold bind, gets, ret. exists s, (Ret (BRInt (sb_capacity s))), (bs a). split; auto.
    split; [cbn; split; auto; eexists; split; [reflexivity |]; rewrite (inv_zlen _ _ I); split; apply I |].
    cbn. destruct I; constructor; auto.
Qed.

Lemma run_ok ops : forall a s, Inv a s -> Forall op_args_ok ops -> allowed_run a ops (sb_run s ops).
Proof.
  induction ops as [| op ops IH]; intros a s I A; cbn; auto.
  inversion A as [| x y A1 A2]; subst.
  destruct (sb_op op s) as [s' o] eqn:E. intros F.
  destruct (op_ok a s op I A1 F) as (s2 & o2 & l' & E2 & V & I2).
  rewrite E in E2. injection E2 as <- <-. exists l'. split; auto.
Qed.

Lemma new_len_ok length capacity :
  0 <= length <= max_capacity -> capacity <= max_capacity ->
  exists s, sb_new_len length capacity = Ret s /\ Inv (mk_bytestr (zrep length 0) false (Z.max 0 capacity)) s /\
    sb_string s = zrep (sb_capacity s) 0 /\ sb_length s = length.
Proof.
  intros L C. unfold sb_new_len, max_capacity in *. destruct (Z.geb_spec length 0); [| lia].
  set (c0 := if capacity <? 0 then 4 else capacity). set (c := if length >? c0 then length else c0).
  assert (CB : 0 <= c < INT32_MAX /\ length <= c /\ capacity <= c).
  { unfold c, c0. destruct (Z.ltb_spec capacity 0); destruct (Z.gtb_spec length 4); destruct (Z.gtb_spec length capacity); lia. }
  clearbody c. rewrite new_string_len_ok, obind_ret by lia. eexists. split; [reflexivity |]. cbn. split; [| auto].
  constructor; cbn; unfold max_capacity; try lia.
  - apply Forall_zrep. unfold is_byte. lia.
  - rewrite zlen_rep. lia.
  - apply znth_ext. intros i I. rewrite znth_take, !znth_rep. destruct (Z.ltb_spec i length).
    + replace ((0 <=? i) && (i <? c)) with true by lia. replace ((0 <=? i) && true) with true by lia. reflexivity.
    + rewrite andb_false_r. reflexivity.
  - intros _ i I. rewrite znth_rep. replace ((0 <=? i) && (i <? c)) with true by lia. reflexivity.
Qed.

Lemma new_ok str capacity :
  string_arg str -> capacity <= max_capacity ->
  exists s, sb_new str capacity = Ret s /\ Inv (mk_bytestr (given str) false (Z.max 0 capacity)) s.
Proof.
  intros SA C. unfold sb_new.
  assert (L : match str with Some s => zlen s | None => 0 end = zlen (given str)) by (destruct str; reflexivity).
  rewrite L. pose proof (zlen_nonneg (given str)) as GN.
  assert (GM : zlen (given str) <= max_capacity) by (unfold max_capacity; destruct str; [destruct SA; cbn [given]; lia | cbn [given]; rewrite zlen_nil; lia]).
  destruct (new_len_ok (zlen (given str)) capacity) as (s & -> & I & ES & EL); auto. rewrite obind_ret.
  destruct str as [t |]; [| exists s; split; auto].
  pose proof (i_max _ _ I) as MX. pose proof (i_len _ _ I) as LN. pose proof (i_cap _ _ I) as CP. unfold max_capacity in MX, GM.
  cbn [given] in *.
  destruct (bytes_copy_gen (sb_string s) 0 t 0 (zlen t)) as (d & -> & LD & FD & VD); try lia.
  { apply (i_bytes _ _ I). } { apply is_string_bytes; auto. } { right. unfold inside. lia. }
  eexists. split; [reflexivity |]. destruct I. constructor; cbn [sb_capacity sb_length sb_string bs room stale]; unfold max_capacity; try assumption; try lia.
  - apply znth_ext. intros i I. rewrite znth_take, EL. destruct (Z.ltb_spec i (zlen t)).
    + rewrite VD by lia. replace ((0 <=? i) && (i <? 0 + zlen t)) with true by lia. f_equal. lia.
    + apply znth_ge. lia.
  - intros _ i I. rewrite VD by lia. replace ((0 <=? i) && (i <? 0 + zlen t)) with false by lia.
    apply i_tail0; auto.
Qed.
