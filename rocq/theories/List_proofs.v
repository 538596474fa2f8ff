(** * Proofs about List *)
From Verif Require Import Base StM Array_model Array_spec Array_proofs List_model List_spec List_ring.

Section Proofs.
  Context {A : Type}.
  Variable undef : A.
  Variable defined : A -> bool.
  Variable accepts : A -> bool.
  Implicit Types (l r rest : list A).

  Notation okl l := (Forall (fun x => accepts x = true) l).

  (** ** The invariant *)
  Definition holds r l := zlen l <= zlen r /\ forall p, p < zlen l -> znth r p = znth l p.
  Definition spare_undef r (n : Z) := forall p, n <= p < zlen r -> znth r p = Some undef.

  Definition inv (s : lst A) (q : seq A) : Prop :=
    exists r off, s = st (zlen (elems q)) r off /\ good r off /\ okl r /\ holds r (elems q) /\
      (stale q = false -> spare_undef r (zlen (elems q))) /\ (rotated q = false -> off = 0).

  Lemma gets_bind {R T} (f : lst A -> R) (k : R -> M (lst A) T) s : bind (gets f) k s = k (f s) s.
  Proof. reflexivity. Qed.
  Lemma set_length_st n len r off : set_length n (st len r off) = (st n r off, Ret tt).
  Proof. reflexivity. Qed.

  Lemma holds_eq r l : holds r l -> ztake (zlen l) r = l.
  Proof.
    intros (H1 & H2). zlen_facts. apply znth_ext. intros p Hp. rewrite znth_take.
    destruct (Z.leb_spec 0 p); [| lia]. cbn [andb].
    destruct (Z.ltb_spec p (zlen l)); [apply H2; lia |]. symmetry. apply znth_ge. lia.
  Qed.

  Lemma holds_nth r l p x : holds r l -> znth l p = Some x -> znth r p = Some x.
  Proof. intros (H1 & H2) E. pose proof (znth_Some _ _ _ E). rewrite H2 by lia. auto. Qed.

  (** Rotations. *)
  Lemma rot_left len x r off : 0 <= off < 1 + zlen r ->
    mk_lst (zlen (x :: r)) len (arr_of (x :: r) off)
      (if off + 1 >=? zlen (x :: r) then 0 else off + 1) =
    st len (r ++ [x]) (if off + 1 >=? zlen (x :: r) then 0 else off + 1).
  Proof.
    intros H. zlen_facts. unfold st. rewrite zlen_app, !zlen_cons. zlen_nils.
    replace (1 + zlen r) with (zlen r + (1 + 0)) by lia. f_equal.
    remember (if off + 1 >=? zlen r + (1 + 0) then 0 else off + 1) as off' eqn:O.
    rewrite Z.geb_leb in O.
    apply znth_ext. intros p Hp.
    assert (LL : zlen (r ++ [x]) = zlen r + 1) by (rewrite zlen_app, zlen_cons; zlen_nils; lia).
    assert (0 <= off' <= zlen r) by (destruct (Z.leb_spec (zlen r + (1 + 0)) (off + 1)); lia).
    destruct (Z.ltb_spec p (zlen r + 1)).
    2: { rewrite !znth_ge; auto; rewrite zlen_arr; rewrite ?LL, ?zlen_cons; lia. }
    rewrite !znth_arr by (rewrite ?LL, ?zlen_cons; lia). rewrite LL, zlen_cons, znth_app, znth_cons.
    destruct (Z.leb_spec (zlen r + (1 + 0)) (off + 1)); subst off';
      destruct (Z.ltb_spec p off); destruct (Z.ltb_spec p 0); destruct (Z.ltb_spec p (off + 1)); try lia;
      repeat match goal with |- context [?a <? ?b] => destruct (Z.ltb_spec a b) end;
      repeat match goal with |- context [?a =? ?b] => destruct (Z.eqb_spec a b) end; try lia;
      rewrite ?znth_cons;
      repeat match goal with |- context [?a =? ?b] => destruct (Z.eqb_spec a b) end; try lia; auto;
      f_equal; lia.
  Qed.

  Lemma rot_right len x r off : 0 <= off < 1 + zlen r ->
    mk_lst (zlen (r ++ [x])) len (arr_of (r ++ [x]) off)
      (if off - 1 <? 0 then zlen (r ++ [x]) - 1 else off - 1) =
    st len (x :: r) (if off - 1 <? 0 then zlen (r ++ [x]) - 1 else off - 1).
  Proof.
    intros H. zlen_facts. unfold st. rewrite zlen_app, !zlen_cons. zlen_nils.
    replace (1 + zlen r) with (zlen r + (1 + 0)) by lia. f_equal.
    remember (if off - 1 <? 0 then zlen r + (1 + 0) - 1 else off - 1) as off' eqn:O.
    apply znth_ext. intros p Hp.
    assert (LL : zlen (r ++ [x]) = zlen r + 1) by (rewrite zlen_app, zlen_cons; zlen_nils; lia).
    assert (0 <= off' <= zlen r) by (destruct (Z.ltb_spec (off - 1) 0); lia).
    destruct (Z.ltb_spec p (zlen r + 1)).
    2: { rewrite !znth_ge; auto; rewrite zlen_arr; rewrite ?LL, ?zlen_cons; lia. }
    rewrite !znth_arr by (rewrite ?LL, ?zlen_cons; lia). rewrite LL, zlen_cons, znth_app, znth_cons.
    destruct (Z.ltb_spec (off - 1) 0); subst off';
      destruct (Z.ltb_spec p off);
      repeat match goal with |- context [if ?a <? ?b then _ else _] => destruct (Z.ltb_spec a b) end;
      repeat match goal with |- context [?a =? ?b] => destruct (Z.eqb_spec a b) end; try lia;
      rewrite ?znth_cons;
      repeat match goal with |- context [?a =? ?b] => destruct (Z.eqb_spec a b) end; try lia; auto;
      f_equal; lia.
  Qed.

  Hypothesis accepts_undef : accepts undef = true.

  Lemma Forall_blit r off vals : okl r -> okl vals -> okl (zblit r off vals).
  Proof.
    intros F V. unfold zblit. apply Forall_app. split.
    - rewrite <- (ztake_zdrop off r) in F. apply Forall_app in F. tauto.
    - apply Forall_app. split; auto.
      rewrite <- (ztake_zdrop (off + zlen vals) r) in F. apply Forall_app in F. tauto.
  Qed.
  Lemma Forall_sub r off n : okl r -> okl (zsub r off n).
  Proof.
    intros F. unfold zsub. rewrite <- (ztake_zdrop off r) in F. apply Forall_app in F. destruct F as [_ F].
    rewrite <- (ztake_zdrop n (zdrop off r)) in F. apply Forall_app in F. tauto.
  Qed.
  Lemma good_len r r' off : zlen r' = zlen r -> good r off -> good r' off.
  Proof. unfold good. intros ->. auto. Qed.

  Ltac leb := repeat match goal with
    | |- context [?a <=? ?b] => destruct (Z.leb_spec a b)
    | |- context [?a <? ?b] => destruct (Z.ltb_spec a b)
    | |- context [?a =? ?b] => destruct (Z.eqb_spec a b) end; cbn [andb]; try lia.

  Definition replaced l index rem r := ztake index l ++ r ++ zdrop (index + rem) l.

  Lemma zlen_replaced l index rem r : 0 <= index -> 0 <= rem -> index + rem <= zlen l ->
    zlen (replaced l index rem r) = zlen l - rem + zlen r.
  Proof.
    intros. unfold replaced. zlen_facts. rewrite !zlen_app, zlen_take, zlen_drop. lia.
  Qed.
  Lemma znth_replaced l index rem r p : 0 <= index -> 0 <= rem -> index + rem <= zlen l ->
    znth (replaced l index rem r) p =
    if p <? index then znth l p
    else if p <? index + zlen r then znth r (p - index)
    else znth l (p - zlen r + rem).
  Proof.
    intros. unfold replaced. zlen_facts. rewrite !znth_app, znth_take, znth_drop, !zlen_take.
    replace (Z.min (Z.max 0 index) (zlen l)) with index by lia.
    destruct (Z.ltb_spec p index).
    - reflexivity.
    - destruct (Z.ltb_spec (p - index) (zlen r)); destruct (Z.ltb_spec p (index + zlen r)); try lia; auto.
      destruct (Z.ltb_spec (p - index - zlen r) 0); [lia |]. f_equal. lia.
  Qed.

  Lemma replace_ok l r off index rem rp :
    good r off -> okl r -> holds r l -> okl (given rp) ->
    0 <= index -> 0 <= rem -> index + rem <= zlen l ->
    zlen (given rp) <= INT32_MAX ->
    zlen l - rem + zlen (given rp) <= max_length \/ zlen l - rem + zlen (given rp) <= zlen l ->
    exists r', ls_replace undef accepts index rem rp (st (zlen l) r off) =
        (st (zlen (replaced l index rem (given rp))) r' off, Ret tt) /\
      good r' off /\ okl r' /\ holds r' (replaced l index rem (given rp)) /\
      (spare_undef r (zlen l) -> zlen l - (index + rem) >= rem - zlen (given rp) ->
       spare_undef r' (zlen (replaced l index rem (given rp)))).
  Proof.
    intros G F H V Hi Hm Hl Hr32 Hf. destruct (good_off _ _ G) as [GO1 GO2].
    destruct H as [H1 H2]. zlen_facts. unfold max_length in *.
    unfold ls_replace.
    destruct (Z.geb_spec index 0); [| lia]. destruct (Z.geb_spec rem 0); [| lia].
    rewrite gets_bind. cbn [ls_length st]. fold (st (zlen l) r off). w32.
    destruct (Z.leb_spec (index + rem) (zlen l)); [| lia].
    set (rl := match rp with Some r0 => zlen r0 | None => 0 end).
    assert (Erl : rl = zlen (given rp)) by (destruct rp; reflexivity). rewrite Erl. clear rl Erl.
    set (rl := zlen (given rp)) in *.
    assert (0 <= rl) by apply zlen_nonneg.
    repeat w32.
    destruct (extend_ok undef accepts accepts_undef (zlen l) r off (zlen l - rem + rl))
      as (r1 & E1 & G1 & F1 & N1 & L1 & P1 & U1); auto; [unfold max_length; lia |].
    erewrite bind_ret by exact E1. destruct (good_off _ _ G1) as [GO3 GO4].
    rewrite zlen_replaced by lia. fold rl.
    (* the shift *)
    assert (SH : exists r2 n2, 
      (if rl - rem =? 0 then ret tt
       else if rl - rem >? 0 then
         do_ set_length (zlen l + (rl - rem));
         move_up accepts (Z.to_nat (zlen l - index - rem)) (index + rem) (index + rl)
       else
         move_down undef accepts (Z.to_nat (zlen l - index - rem)) 0 (index + rem) (index + rl))
        (st (zlen l) r1 off) = (st n2 r2 off, Ret tt) /\
      good r2 off /\ okl r2 /\ zlen r2 = zlen r1 /\
      (forall p, p < index -> znth r2 p = znth r1 p) /\
      (forall p, index + rl <= p < zlen l - rem + rl -> znth r2 p = znth r1 (p - rl + rem)) /\
      (forall p, zlen l <= p -> zlen l - rem + rl <= p -> znth r2 p = znth r1 p) /\
      (zlen l - (index + rem) >= rem - rl ->
         forall p, zlen l - rem + rl <= p < zlen l -> znth r2 p = Some undef)).
    { destruct (Z.eqb_spec (rl - rem) 0).
      - exists r1, (zlen l). repeat split; auto; try apply G1; try (intros; lia).
        intros; f_equal; lia.
      - rewrite Z.gtb_ltb. destruct (Z.ltb_spec 0 (rl - rem)).
        + erewrite bind_ret by apply set_length_st.
          rewrite (move_up_ok undef); auto; try lia. rewrite Z2Nat.id by lia.
          assert (LS : zlen (zsub r1 (index + rem) (zlen l - index - rem)) = zlen l - index - rem)
            by (rewrite zlen_sub; lia).
          assert (LB : zlen (zblit r1 (index + rl) (zsub r1 (index + rem) (zlen l - index - rem))) = zlen r1)
            by (apply zlen_blit; lia).
          eexists _, _. split; [reflexivity |]. split; [eapply good_len; eauto |].
          split; [apply Forall_blit; auto using Forall_sub |]. split; [auto |].
          assert (PB : forall p, znth (zblit r1 (index + rl) (zsub r1 (index + rem) (zlen l - index - rem))) p =
            if (index + rl <=? p) && (p <? zlen l - rem + rl) then znth r1 (p - rl + rem) else znth r1 p).
          { intros p. rewrite znth_blit by lia. rewrite LS, znth_sub. leb; auto. f_equal. lia. }
          split; [intros p Hp; rewrite PB; leb; auto |].
          split; [intros p Hp; rewrite PB; leb; auto |].
          split; [intros p Hp Hp2; rewrite PB; leb; auto |]. intros; lia.
        + destruct (move_down_ok undef accepts accepts_undef (Z.to_nat (zlen l - index - rem)) 0 r1 (zlen l) off (index + rem) (index + rl))
            as (r2 & E2 & G2 & F2 & L2 & P2); auto; try lia.
          rewrite Z2Nat.id in P2 by lia.
          exists r2, (zlen l). split; [exact E2 |]. split; [auto |]. split; [auto |]. split; [auto |].
          split; [intros p Hp; rewrite P2; leb; auto |].
          split; [intros p Hp; rewrite P2; leb; f_equal; lia |].
          split; [intros p Hp Hp2; rewrite P2; leb; auto |].
          intros Hs p Hp; rewrite P2; leb; auto. }
    destruct SH as (r2 & n2 & E2 & G2 & F2 & L2 & Pa & Pb & Pc & Pd).
    erewrite bind_ret by exact E2.
    erewrite bind_ret by apply set_length_st.
    exists (zblit r2 index (given rp)).
    assert (LB : zlen (zblit r2 index (given rp)) = zlen r2) by (apply zlen_blit; fold rl; lia).
    split.
    { destruct rp as [rp |]; cbn [given] in *.
      - rewrite (store_all_ok undef); auto; try lia. do 3 f_equal. lia.
      - unfold ret. do 2 f_equal. apply znth_ext. intros p Hp. rewrite znth_blit by (zlen_nils; lia).
        zlen_nils. leb; auto. }
    split; [eapply good_len; eauto |].
    split; [apply Forall_blit; auto |].
    assert (PB : forall p, znth (zblit r2 index (given rp)) p =
       if (index <=? p) && (p <? index + rl) then znth (given rp) (p - index) else znth r2 p)
      by (intros; apply znth_blit; lia).
    split.
    - split; [rewrite zlen_replaced by lia; fold rl; lia |].
      intros p Hp. rewrite zlen_replaced in Hp by lia. fold rl in Hp.
      rewrite PB, znth_replaced by lia. fold rl.
      leb; auto; first [rewrite Pb by lia | rewrite Pa by lia]; rewrite P1 by lia; apply H2; lia.
    - intros SP Hs p Hp. rewrite LB, L2 in Hp. rewrite PB. leb;
      (destruct (Z.ltb_spec p (zlen l)); [apply Pd; lia |]; rewrite Pc by lia;
       destruct (Z.ltb_spec p (zlen r)); [rewrite P1 by lia; apply SP; lia | apply U1; lia]).
  Qed.

  Lemma replace_bad l r off index rem rp :
    in_i32 index -> in_i32 rem -> index + rem <= INT32_MAX ->
    ~ (0 <= index /\ 0 <= rem /\ index + rem <= zlen l) ->
    exists e, ls_replace undef accepts index rem rp (st (zlen l) r off) = (st (zlen l) r off, Die e).
  Proof.
    intros. unfold ls_replace.
    destruct (Z.geb_spec index 0); [| eexists; reflexivity].
    destruct (Z.geb_spec rem 0); [| eexists; reflexivity].
    rewrite gets_bind. cbn [ls_length st]. w32.
    destruct (Z.leb_spec (index + rem) (zlen l)); [lia | eexists; reflexivity].
  Qed.

  Definition good_step (s : lst A) (q : seq A) (op : lop A) : Prop :=
    exists l', allowed undef accepts q op l' (snd (ls_step undef defined accepts s op)) /\
      inv (fst (ls_step undef defined accepts s op))
          (next q op l' (snd (ls_step undef defined accepts s op))).

  Lemma step_ret s q op s' l1 res :
    ls_step undef defined accepts s op = (s', Ret res) ->
    seq_op undef accepts (elems q) op = Some (l1, res) ->
    inv s' (mk_seq l1 (stale q || leaves_stale (elems q) op) (rotated q || rotates op)) ->
    good_step s q op.
  Proof.
    intros E S I. exists l1. rewrite E. cbn [fst snd]. split; [| exact I].
    unfold allowed. rewrite S. left. auto.
  Qed.

  Lemma step_die s q op e :
    ls_step undef defined accepts s op = (s, Die e) ->
    seq_op undef accepts (elems q) op = None ->
    inv s q -> good_step s q op.
  Proof.
    intros E S I. exists (elems q). rewrite E. cbn [fst snd]. split.
    - unfold allowed. rewrite S. eauto.
    - cbn [next]. destruct q. exact I.
  Qed.

  Lemma inv_st l1 b1 b2 r off n :
    n = zlen l1 -> good r off -> okl r -> holds r l1 ->
    (b1 = false -> spare_undef r (zlen l1)) -> (b2 = false -> off = 0) ->
    inv (st n r off) (mk_seq l1 b1 b2).
  Proof. intros ->. intros. exists r, off. auto 8. Qed.

  Lemma in_range l i : znth l i = None -> ~ 0 <= i < zlen l.
  Proof. intros H C. destruct (znth_lt l i C). congruence. Qed.

  Lemma step_get s q i : inv s q -> in_i32 i -> good_step s q (LGet i).
  Proof.
    intros I Hi. destruct (I) as (r & off & -> & G & F & H & S & R).
    destruct (znth (elems q) i) as [x |] eqn:E.
    - pose proof (znth_Some _ _ _ E). eapply step_ret.
      + cbn [ls_step]. rewrite (get_ok _ _ _ _ x); auto; [reflexivity |]. eapply holds_nth; eauto.
      + cbn [seq_op]. rewrite E. reflexivity.
      + cbn [leaves_stale rotates]. rewrite !orb_false_r. destruct q; auto.
    - destruct (get_bad (zlen (elems q)) r off i) as (e & X); auto using in_range.
      eapply step_die with (e := e); auto.
      + cbn [ls_step]. rewrite X. reflexivity.
      + cbn [seq_op]. rewrite E. reflexivity.
  Qed.

  Lemma holds_upd r l i x : holds r l -> holds (zupd r i x) (zupd l i x).
  Proof.
    intros (H1 & H2). split; [rewrite !zlen_upd; auto |].
    intros p Hp. rewrite zlen_upd in Hp. rewrite !znth_upd. zlen_facts. leb; auto.
  Qed.

  Lemma step_set s q i x : inv s q -> in_i32 i -> good_step s q (LSet i x).
  Proof.
    intros I Hi. destruct (I) as (r & off & -> & G & F & H & S & R).
    destruct ((0 <=? i) && (i <? zlen (elems q)) && accepts x) eqn:E.
    - pose proof E as E0. apply andb_true_iff in E. destruct E as [E Hx]. apply andb_true_iff in E. destruct E as [Ea Eb].
      assert (HL := H). destruct H as [H1 H2].
      eapply step_ret.
      + cbn [ls_step]. rewrite set_ok; auto; [reflexivity | lia | lia].
      + cbn [seq_op]. rewrite E0. reflexivity.
      + cbn [leaves_stale rotates]. rewrite !orb_false_r.
        apply inv_st; auto using good_upd, Forall_upd, holds_upd; rewrite ?zlen_upd; auto.
        intros C p Hp. rewrite zlen_upd in Hp. rewrite znth_upd. specialize (S C p Hp).
        leb; auto.
    - destruct (set_bad accepts (zlen (elems q)) r off i x) as (e & X); auto.
      + apply H.
      + destruct (accepts x); auto. left. intros C. rewrite andb_true_r in E. lia.
      + eapply step_die with (e := e); auto.
        * cbn [ls_step]. rewrite X. reflexivity.
        * cbn [seq_op]. rewrite E. reflexivity.
  Qed.

  Lemma step_length s q : inv s q -> good_step s q LLength.
  Proof.
    intros I. destruct (I) as (r & off & -> & G & F & H & S & R).
    eapply step_ret.
    - reflexivity.
    - reflexivity.
    - cbn [leaves_stale rotates fst gets]. rewrite !orb_false_r. destruct q; auto.
  Qed.

  Lemma step_pop s q : inv s q -> good_step s q LPop.
  Proof.
    intros I. destruct (I) as (r & off & -> & G & F & H & S & R).
    assert (HL := H). destruct H as [H1 H2]. destruct (good_off _ _ G) as [GO1 GO2]. zlen_facts.
    destruct (znth (elems q) (zlen (elems q) - 1)) as [x |] eqn:E.
    - pose proof (znth_Some _ _ _ E).
      assert (X : ls_pop undef accepts (st (zlen (elems q)) r off) =
                (st (zlen (elems q) - 1) (zupd r (zlen (elems q) - 1) undef) off, Ret x)).
      { unfold ls_pop. rewrite gets_bind. cbn [ls_length st]. rewrite Z.gtb_ltb.
        destruct (Z.ltb_spec 0 (zlen (elems q))); [| lia]. w32. fold (st (zlen (elems q)) r off).
        erewrite bind_ret by (apply get_ok; [auto | lia | eapply holds_nth; eauto]).
        erewrite bind_ret by (apply set_ok; auto; lia).
        erewrite bind_ret by apply set_length_st. reflexivity. }
      eapply step_ret.
      + cbn [ls_step]. rewrite X. reflexivity.
      + cbn [seq_op]. rewrite E. reflexivity.
      + cbn [leaves_stale rotates]. rewrite !orb_false_r.
        apply inv_st; auto using good_upd, Forall_upd.
        * rewrite zlen_take. lia.
        * split; [rewrite zlen_upd, zlen_take; lia |].
          intros p Hp. rewrite zlen_take in Hp. rewrite znth_upd, znth_take. leb. apply H2. lia.
        * intros C p Hp. rewrite zlen_take, zlen_upd in Hp. rewrite znth_upd.
          specialize (S C p). leb; auto. apply S. lia.
    - assert (Z0 : zlen (elems q) = 0) by (apply in_range in E; lia).
      eapply step_die; auto.
      + cbn [ls_step]. unfold ls_pop. rewrite gets_bind. cbn [ls_length st]. rewrite Z0. reflexivity.
      + cbn [seq_op]. rewrite E. reflexivity.
  Qed.

  Lemma step_push s q x : inv s q -> fits undef defined accepts q (LPush x) -> good_step s q (LPush x).
  Proof.
    intros I [Fl Hx]. destruct (I) as (r & off & -> & G & F & H & S & R).
    destruct H as [H1 H2]. destruct (good_off _ _ G) as [GO1 GO2]. zlen_facts.
    specialize (Fl _ _ eq_refl). rewrite zlen_app, zlen_cons in Fl. zlen_nils. unfold max_length in Fl.
    destruct (extend_ok undef accepts accepts_undef (zlen (elems q)) r off (zlen (elems q) + 1))
      as (r1 & E1 & G1 & F1 & N1 & L1 & P1 & U1); auto; [unfold max_length; lia |].
    assert (X : ls_push undef accepts x (st (zlen (elems q)) r off) =
              (st (zlen (elems q) + 1) (zupd r1 (zlen (elems q)) x) off, Ret tt)).
    { unfold ls_push. rewrite gets_bind. cbn [ls_length st]. w32. fold (st (zlen (elems q)) r off).
      erewrite bind_ret by exact E1. erewrite bind_ret by apply set_length_st.
      apply set_ok; auto; lia. }
    eapply step_ret.
    - cbn [ls_step]. rewrite X. reflexivity.
    - reflexivity.
    - cbn [leaves_stale rotates]. rewrite !orb_false_r.
      apply inv_st; auto using good_upd, Forall_upd.
      + rewrite zlen_app, zlen_cons. zlen_nils. lia.
      + split; [rewrite zlen_upd, zlen_app, zlen_cons; zlen_nils; lia |].
        intros p Hp. rewrite zlen_app, zlen_cons in Hp. zlen_nils.
        rewrite znth_upd, znth_app, znth_cons. leb; auto.
        rewrite P1 by lia. apply H2. lia.
      + intros C p Hp. rewrite zlen_upd, zlen_app, zlen_cons in Hp. zlen_nils. rewrite znth_upd.
        specialize (S C p). leb.
        destruct (Z.ltb_spec p (zlen r)); [rewrite P1 by lia; apply S; lia | apply U1; lia].
  Qed.

  Lemma step_shift s q : inv s q -> good_step s q LShift.
  Proof.
    intros I. destruct (I) as (r & off & -> & G & F & H & S & R).
    assert (HL := H). destruct H as [H1 H2]. destruct (good_off _ _ G) as [GO1 GO2]. zlen_facts.
    destruct (elems q) as [| x l] eqn:El.
    - eapply step_die; auto.
      + cbn [ls_step]. unfold ls_shift. rewrite gets_bind. reflexivity.
      + rewrite El. reflexivity.
    - rewrite zlen_cons in *. pose proof (zlen_nonneg l).
      assert (E0 : znth r 0 = Some x) by (rewrite H2 by lia; reflexivity).
      destruct r as [| y r]; [zlen_nils; lia |]. assert (y = x) by (rewrite znth_cons in E0; change (0 =? 0) with true in E0; congruence). subst y.
      rewrite zlen_cons in *. pose proof (zlen_nonneg r).
      assert (Off : 0 <= off < 1 + zlen r) by (destruct G as (? & ? & ?); rewrite zlen_cons in *; lia).
      set (off' := if off + 1 >=? zlen (undef :: r) then 0 else off + 1).
      assert (X : ls_shift undef accepts (st (1 + zlen l) (x :: r) off) =
                (st (zlen l) (r ++ [undef]) off', Ret x)).
      { unfold ls_shift. rewrite gets_bind. cbn [ls_length st]. rewrite Z.gtb_ltb.
        destruct (Z.ltb_spec 0 (1 + zlen l)); [| lia]. w32. fold (st (1 + zlen l) (x :: r) off).
        erewrite bind_ret by (apply get_ok; [auto | lia | reflexivity]).
        erewrite bind_ret by (apply set_ok; auto; [lia | rewrite zlen_cons; lia]).
        change (zupd (x :: r) 0 undef) with (undef :: r).
        erewrite bind_ret by apply set_length_st. rewrite gets_bind. cbn [ls_offset st].
        unfold set_offset at 1, modify. erewrite bind_ret by reflexivity. rewrite !gets_bind.
        cbn [ls_offset ls_capacity ls_length ls_array]. w32.
        erewrite bind_ret with (s' := mk_lst (zlen (undef :: r)) (zlen l) (arr_of (undef :: r) off) off') (r := tt).
        2: { unfold off'. cbn [ls_capacity ls_array st]. rewrite zlen_cons, !Z.geb_leb.
             replace (1 + zlen l - 1) with (zlen l) by lia.
             destruct (Z.leb_spec (1 + zlen r) (off + 1)); [| reflexivity].
             w32. replace (off + 1 - (1 + zlen r)) with 0 by lia. reflexivity. }
        unfold off'. rewrite rot_left by lia. reflexivity. }
      eapply step_ret.
      + cbn [ls_step]. rewrite X. reflexivity.
      + cbn [seq_op]. rewrite El. reflexivity.
      + cbn [leaves_stale rotates]. rewrite orb_false_r, orb_true_r.
        assert (LR : zlen (r ++ [undef]) = 1 + zlen r) by (rewrite zlen_app, zlen_cons; zlen_nils; lia).
        apply inv_st; auto.
        * destruct G as (? & ? & ?). rewrite zlen_cons in *. unfold good. rewrite LR.
          subst off'. rewrite zlen_cons, Z.geb_leb. destruct (Z.leb_spec (1 + zlen r) (off + 1)); lia.
        * inversion F; subst. apply Forall_app. auto.
        * split; [rewrite LR; lia |]. intros p Hp. rewrite znth_app.
          destruct (Z.ltb_spec p (zlen r)); [| lia].
          destruct (Z.ltb_spec p 0); [rewrite !znth_neg; auto; lia |].
          specialize (H2 (p + 1)). rewrite !znth_cons in H2.
          destruct (Z.eqb_spec (p + 1) 0); [lia |]. replace (p + 1 - 1) with p in H2 by lia. apply H2. lia.
        * intros C p Hp. rewrite LR in Hp. rewrite znth_app, znth_cons.
          destruct (Z.ltb_spec p (zlen r)).
          -- specialize (S C (p + 1)). rewrite !zlen_cons, znth_cons in S.
             destruct (Z.eqb_spec (p + 1) 0); [lia |]. replace (p + 1 - 1) with p in S by lia. apply S. lia.
          -- destruct (Z.eqb_spec (p - zlen r) 0); [auto | lia].
        * discriminate.
  Qed.

  Lemma step_unshift s q x : inv s q -> fits undef defined accepts q (LUnshift x) -> good_step s q (LUnshift x).
  Proof.
    intros I [Fl Hx]. destruct (I) as (r & off & -> & G & F & H & S & R).
    destruct H as [H1 H2]. destruct (good_off _ _ G) as [GO1 GO2]. zlen_facts.
    specialize (Fl _ _ eq_refl). rewrite zlen_cons in Fl. unfold max_length in Fl.
    destruct (extend_ok undef accepts accepts_undef (zlen (elems q)) r off (zlen (elems q) + 1))
      as (r1 & E1 & G1 & F1 & N1 & L1 & P1 & U1); auto; [unfold max_length; lia |].
    destruct (exists_last (l := r1)) as (r2 & y & ->).
    { intros ->. zlen_nils. lia. }
    assert (LR : zlen (r2 ++ [y]) = 1 + zlen r2) by (rewrite zlen_app, zlen_cons; zlen_nils; lia).
    rewrite LR in *. pose proof (zlen_nonneg r2). destruct (good_off _ _ G1) as [GO3 GO4]. rewrite LR in *.
    assert (Off : 0 <= off < 1 + zlen r2) by (destruct G1 as (? & ? & ?); rewrite LR in *; lia).
    set (off' := if off - 1 <? 0 then zlen (r2 ++ [y]) - 1 else off - 1).
    assert (GS : good (y :: r2) off').
    { destruct G1 as (? & ? & ?). unfold good, off'. rewrite LR, zlen_cons in *.
      destruct (Z.ltb_spec (off - 1) 0); lia. }
    assert (X : ls_unshift undef accepts x (st (zlen (elems q)) r off) =
              (st (zlen (elems q) + 1) (x :: r2) off', Ret tt)).
    { unfold ls_unshift. rewrite gets_bind. cbn [ls_length st]. w32. fold (st (zlen (elems q)) r off).
      erewrite bind_ret by exact E1. rewrite gets_bind. cbn [ls_offset st].
      unfold set_offset at 1, modify. erewrite bind_ret by reflexivity. rewrite !gets_bind.
      cbn [ls_offset ls_capacity ls_length ls_array st]. w32. rewrite LR.
      erewrite bind_ret with (s' := mk_lst (zlen (r2 ++ [y])) (zlen (elems q)) (arr_of (r2 ++ [y]) off) off') (r := tt).
      2: { unfold off'. rewrite LR. destruct (Z.ltb_spec (off - 1) 0); w32; reflexivity. }
      unfold off' at 1. rewrite rot_right by lia. fold off'.
      erewrite bind_ret by apply set_length_st.
      rewrite set_ok by (auto; rewrite ?zlen_cons; lia). reflexivity. }
    eapply step_ret.
    - cbn [ls_step]. rewrite X. reflexivity.
    - reflexivity.
    - cbn [leaves_stale rotates]. rewrite orb_false_r, orb_true_r.
      apply inv_st; auto.
      + rewrite zlen_cons. lia.
      + apply Forall_app in F1. constructor; tauto.
      + split; [rewrite !zlen_cons; lia |]. intros p Hp. rewrite zlen_cons in Hp. rewrite !znth_cons.
        leb; auto. rewrite <- H2 by lia. rewrite <- P1 by lia. rewrite znth_app. leb; auto.
      + intros C p Hp. rewrite !zlen_cons in Hp. rewrite znth_cons. leb.
        specialize (P1 (p - 1)). specialize (U1 (p - 1)). rewrite znth_app in P1, U1.
        destruct (Z.ltb_spec (p - 1) (zlen r2)); [| lia].
        destruct (Z.ltb_spec (p - 1) (zlen r)); [rewrite P1 by lia; apply S; auto; lia | apply U1; lia].
      + discriminate.
  Qed.

  Lemma step_replace s q index rem rp :
    inv s q -> op_args_ok (LReplace index rem rp) ->
    fits undef defined accepts q (LReplace index rem rp) -> good_step s q (LReplace index rem rp).
  Proof.
    intros I (A1 & A2 & A3) (Fl & Fs & Fo). destruct (I) as (r & off & -> & G & F & H & S & R).
    cbn [seq_op] in Fl.
    destruct ((0 <=? index) && (0 <=? rem) && (index + rem <=? zlen (elems q))) eqn:E.
    - specialize (Fl _ _ eq_refl). fold (replaced (elems q) index rem (given rp)) in Fl.
      rewrite zlen_replaced in Fl by lia.
      destruct (replace_ok (elems q) r off index rem rp) as (r' & X & G' & F' & H' & S'); auto; try lia.
      eapply step_ret.
      + cbn [ls_step]. rewrite X. reflexivity.
      + cbn [seq_op]. rewrite E. reflexivity.
      + cbn [leaves_stale rotates]. rewrite orb_false_r. apply inv_st; auto.
        intros C. apply orb_false_iff in C. destruct C. apply S'; auto. lia.
    - destruct (replace_bad (elems q) r off index rem rp) as (e & X); auto; [lia |].
      eapply step_die with (e := e); auto.
      + cbn [ls_step]. rewrite X. reflexivity.
      + cbn [seq_op]. rewrite E. reflexivity.
  Qed.

  Lemma step_insert s q index x :
    inv s q -> in_i32 index ->
    fits undef defined accepts q (LInsert index x) -> good_step s q (LInsert index x).
  Proof.
    intros I A1 (Fl & Fx & Fd). destruct (I) as (r & off & -> & G & F & H & S & R).
    cbn [seq_op] in Fl.
    destruct ((0 <=? index) && (index <=? zlen (elems q))) eqn:E.
    - specialize (Fl _ _ eq_refl).
      assert (EQ : ztake index (elems q) ++ x :: zdrop index (elems q) = replaced (elems q) index 0 [x]).
      { unfold replaced. replace (index + 0) with index by lia. reflexivity. }
      rewrite EQ in Fl. rewrite zlen_replaced in Fl by lia.
      destruct (replace_ok (elems q) r off index 0 (Some [x])) as (r' & X & G' & F' & H' & S'); auto; try lia.
      { constructor; auto. } { cbn [given]. rewrite zlen_cons. zlen_nils. lia. }
      eapply step_ret.
      + cbn [ls_step]. unfold ls_insert. rewrite gets_bind. cbn [ls_length st]. fold (st (zlen (elems q)) r off).
        destruct (Z.geb_spec index 0); [| lia]. destruct (Z.leb_spec index (zlen (elems q))); [| lia].
        rewrite Fd, X. reflexivity.
      + cbn [seq_op]. rewrite E. reflexivity.
      + cbn [leaves_stale rotates]. rewrite !orb_false_r. cbn [given] in *. rewrite EQ. apply inv_st; auto.
        intros C. apply S'; auto. rewrite zlen_cons. zlen_nils. lia.
    - assert (X : exists e, ls_insert undef defined accepts index x (st (zlen (elems q)) r off) =
                         (st (zlen (elems q)) r off, Die e)).
      { unfold ls_insert. rewrite gets_bind. cbn [ls_length st].
        destruct (Z.geb_spec index 0); [| eexists; reflexivity].
        destruct (Z.leb_spec index (zlen (elems q))); [lia | eexists; reflexivity]. }
      destruct X as (e & X).
      eapply step_die with (e := e); auto.
      + cbn [ls_step]. rewrite X. reflexivity.
      + cbn [seq_op]. rewrite E. reflexivity.
  Qed.

  Lemma step_remove s q index : inv s q -> in_i32 index -> good_step s q (LRemove index).
  Proof.
    intros I A1. destruct (I) as (r & off & -> & G & F & H & S & R).
    destruct (znth (elems q) index) as [x |] eqn:E.
    - pose proof (znth_Some _ _ _ E).
      destruct (replace_ok (elems q) r off index 1 None) as (r' & X & G' & F' & H' & S'); auto; try lia.
      { constructor. } { cbn [given]. zlen_nils. lia. } { cbn [given]. zlen_nils. lia. }
      eapply step_ret.
      + cbn [ls_step]. unfold ls_remove. destruct (Z.geb_spec index 0); [| lia].
        rewrite gets_bind. cbn [ls_length st]. fold (st (zlen (elems q)) r off). destruct (Z.ltb_spec index (zlen (elems q))); [| lia].
        erewrite bind_ret by (apply get_ok; [auto | lia | eapply holds_nth; eauto]).
        erewrite bind_ret by exact X. reflexivity.
      + cbn [seq_op]. rewrite E. reflexivity.
      + cbn [leaves_stale rotates]. rewrite !orb_false_r. apply inv_st; auto.
        intros C. apply orb_false_iff in C. destruct C. apply S'; auto. cbn [given]. zlen_nils. lia.
    - apply in_range in E as N.
      assert (X : exists e, ls_remove undef accepts index (st (zlen (elems q)) r off) =
                         (st (zlen (elems q)) r off, Die e)).
      { unfold ls_remove. destruct (Z.geb_spec index 0); [| eexists; reflexivity].
        rewrite gets_bind. cbn [ls_length st].
        destruct (Z.ltb_spec index (zlen (elems q))); [lia | eexists; reflexivity]. }
      destruct X as (e & X).
      eapply step_die with (e := e); auto.
      + cbn [ls_step]. rewrite X. reflexivity.
      + cbn [seq_op]. rewrite E. reflexivity.
  Qed.

  Lemma step_reserve s q n : inv s q -> fits undef defined accepts q (LReserve n) -> good_step s q (LReserve n).
  Proof.
    intros I (Fl & Fn). destruct (I) as (r & off & -> & G & F & H & S & R).
    destruct (reserve_ok undef accepts accepts_undef (zlen (elems q)) r off n)
      as [(r' & X & G' & F' & L' & P' & U') | (Off & e & X)]; auto.
    - eapply step_ret.
      + cbn [ls_step]. rewrite X. reflexivity.
      + reflexivity.
      + cbn [leaves_stale rotates]. rewrite !orb_false_r. apply inv_st; auto.
        * destruct H as [H1 H2]. split; [lia |]. intros p Hp. rewrite P' by lia. auto.
        * intros C p Hp. destruct (Z.ltb_spec p (zlen r)); [| apply U'; lia].
          rewrite P' by lia. apply S; auto. lia.
    - exists (elems q). cbn [ls_step]. rewrite X. cbn [fst snd wrap_res obind]. split.
      + unfold allowed. cbn [seq_op]. right. split; [| eauto].
        destruct (rotated q); [reflexivity | exfalso; apply Off; auto].
      + cbn [next]. destruct q. exact I.
  Qed.

  Lemma step_resize s q n : inv s q -> in_i32 n -> fits undef defined accepts q (LResize n) -> good_step s q (LResize n).
  Proof.
    intros I An (Fl & _). destruct (I) as (r & off & -> & G & F & H & S & R).
    assert (HL := H). destruct H as [H1 H2]. destruct (good_off _ _ G) as [GO1 GO2]. zlen_facts.
    cbn [seq_op] in Fl. destruct (Z.leb_spec 0 n) as [Hn | Hn].
    2: { eapply step_die; auto.
         - cbn [ls_step]. unfold ls_resize. destruct (Z.geb_spec n 0); [lia |]. reflexivity.
         - cbn [seq_op]. destruct (Z.leb_spec 0 n); [lia |]. reflexivity. }
    specialize (Fl _ _ eq_refl). rewrite zlen_app, zlen_take, zlen_rep in Fl. unfold max_length in Fl.
    assert (SQ : seq_op undef accepts (elems q) (LResize n) =
                 Some (ztake n (elems q) ++ zrep (n - zlen (elems q)) undef, LRUnit)).
    { cbn [seq_op]. destruct (Z.leb_spec 0 n); [| lia]. reflexivity. }
    assert (L1 : zlen (ztake n (elems q) ++ zrep (n - zlen (elems q)) undef) = n)
      by (rewrite zlen_app, zlen_take, zlen_rep; lia).
    unfold good_step. cbn [ls_step]. unfold ls_resize. destruct (Z.geb_spec n 0); [| lia].
    rewrite gets_bind. cbn [ls_length st]. fold (st (zlen (elems q)) r off). rewrite Z.gtb_ltb.
    destruct (Z.ltb_spec (zlen (elems q)) n) as [Hg | Hg].
    - destruct (extend_ok undef accepts accepts_undef (zlen (elems q)) r off n)
        as (r1 & E1 & G1 & F1 & N1 & Lr & P1 & U1); auto; [unfold max_length; lia |].
      erewrite bind_ret by exact E1. rewrite set_length_st. cbn [wrap_res fst snd obind].
      assert (LT : zlen (ztake n r1) = n) by (rewrite zlen_take; lia).
      assert (HH : holds r1 (ztake n r1)).
      { split; [lia |]. intros p Hp. rewrite znth_take. leb; auto. }
      assert (AT : ztake n r1 = elems q ++ zdrop (zlen (elems q)) (ztake n r1)).
      { rewrite <- (ztake_zdrop (zlen (elems q)) (ztake n r1)) at 1. f_equal.
        apply znth_ext. intros p Hp. rewrite !znth_take. leb.
        - rewrite P1 by lia. apply H2. lia.
        - symmetry. apply znth_ge. lia. }
      exists (ztake n r1). split.
      + unfold allowed. rewrite SQ. destruct (stale q) eqn:C.
        * right. split; [auto |]. split; [lia |]. split; [| auto].
          eexists. split; [exact AT |]. rewrite zlen_drop. lia.
        * left. split; auto. rewrite AT. rewrite (ztake_all n (elems q)) by lia. f_equal.
          apply znth_ext. intros p Hp. rewrite znth_drop, znth_take, znth_rep. leb; auto.
          destruct (Z.ltb_spec (Z.max 0 (zlen (elems q)) + p) (zlen r)).
          -- rewrite P1 by lia. apply S; auto. lia.
          -- apply U1. lia.
      + cbn [next leaves_stale rotates]. rewrite !orb_false_r. apply inv_st; auto.
        intros C p Hp. rewrite LT in Hp. destruct (Z.ltb_spec p (zlen r)).
        * rewrite P1 by lia. apply S; auto. lia.
        * apply U1. lia.
    - set (l1 := ztake n (elems q) ++ zrep (n - zlen (elems q)) undef) in *.
      assert (E1 : exists r1, (if n <? zlen (elems q) then clear_from undef accepts n (Z.to_nat (zlen (elems q) - n)) else ret tt)
          (st (zlen (elems q)) r off) = (st (zlen (elems q)) r1 off, Ret tt) /\ good r1 off /\ okl r1 /\
          zlen r1 = zlen r /\
          forall p, znth r1 p = if (n <=? p) && (p <? zlen (elems q)) then Some undef else znth r p).
      { destruct (Z.ltb_spec n (zlen (elems q))).
        - rewrite clear_from_ok; auto; try lia. rewrite Z2Nat.id by lia.
          assert (LB : zlen (zblit r n (zrep (zlen (elems q) - n) undef)) = zlen r)
            by (apply zlen_blit; rewrite ?zlen_rep; lia).
          eexists. split; [reflexivity |]. split; [eapply good_len; eauto |].
          split; [apply Forall_blit; auto; apply Forall_rep; auto |]. split; [auto |].
          intros p. rewrite znth_blit by lia. rewrite znth_rep, zlen_rep. leb; auto.
        - exists r. repeat split; auto; try apply G. intros p. leb; auto. }
      destruct E1 as (r1 & E1 & G1 & F1 & Lr & P1).
      erewrite bind_ret by exact E1. rewrite set_length_st. cbn [wrap_res fst snd obind].
      assert (EL : l1 = ztake n (elems q)).
      { unfold l1. replace (zrep (n - zlen (elems q)) undef) with (@nil A); [apply app_nil_r |].
        symmetry. apply zlen_0_nil. rewrite zlen_rep. lia. }
      exists l1. split; [unfold allowed; rewrite SQ; left; auto |].
      cbn [next leaves_stale rotates]. rewrite !orb_false_r. apply inv_st; auto.
      + split; [lia |]. intros p Hp. rewrite P1, EL, znth_take. leb. apply H2. lia.
      + intros C p Hp. rewrite P1. leb; auto. apply S; auto. lia.
  Qed.

  Lemma step_to_array s q : inv s q -> good_step s q LToArray.
  Proof.
    intros I. destruct (I) as (r & off & -> & G & F & H & S & R).
    assert (HL := H). destruct H as [H1 H2]. destruct (good_off _ _ G) as [GO1 GO2]. zlen_facts.
    pose proof (zlen_arr r off GO1) as LA.
    assert (X : ls_to_array undef accepts (st (zlen (elems q)) r off) = (st (zlen (elems q)) r off, Ret (elems q))).
    { unfold ls_to_array. cbn [ls_length ls_array ls_capacity ls_offset st]. f_equal.
      unfold new_elems. destruct (Z.leb_spec 0 (zlen (elems q))); [| lia]. rewrite obind_ret. w32.
      set (n := zlen (elems q)) in *.
      rewrite Z.gtb_ltb. destruct (Z.ltb_spec 0 (n - (zlen r - off))).
      - rewrite obj_copy_ok; rewrite ?zlen_rep, ?LA; try lia; [| apply arr_ok; auto].
        cbn [run_copy]. rewrite obind_ret.
        assert (LB : zlen (zblit (zrep n undef) 0 (zsub (arr_of r off) off (n - (n - (zlen r - off))))) = n).
        { rewrite zlen_blit; rewrite ?zlen_sub, ?zlen_rep, ?LA; lia. }
        rewrite obj_copy_ok; rewrite ?LB, ?LA; try lia; [| apply arr_ok; auto].
        cbn [run_copy]. f_equal. apply znth_ext. intros p Hp.
        rewrite znth_blit by (rewrite ?LB; lia). rewrite znth_blit by (rewrite ?zlen_rep; lia).
        rewrite !zlen_sub, !znth_sub, znth_rep, LA.
        replace (Z.min (Z.max 0 (n - (zlen r - off))) (Z.max 0 (zlen r - Z.max 0 0)))
          with (n - (zlen r - off)) by lia.
        replace (Z.min (Z.max 0 (n - (n - (zlen r - off)))) (Z.max 0 (zlen r - Z.max 0 off)))
          with (zlen r - off) by lia.
        replace (n - (n - (zlen r - off))) with (zlen r - off) by lia.
        replace (zlen r - off + (n - (zlen r - off))) with n by lia.
        destruct (Z.ltb_spec p n) as [Hpn | Hpn].
        2: { rewrite (znth_ge (elems q)) by lia. leb; auto. }
        rewrite <- H2 by lia.
        destruct (Z.leb_spec (zlen r - off) p) as [Ha | Ha]; cbn [andb].
        + replace (0 <=? p - (zlen r - off)) with true by lia.
          replace (p - (zlen r - off) <? n - (zlen r - off)) with true by lia. cbn [andb].
          rewrite znth_arr by lia.
          replace (Z.max 0 0 + (p - (zlen r - off)) <? off) with true by lia. f_equal. lia.
        + replace (0 <=? p) with true by lia. replace (p <? 0 + (zlen r - off)) with true by lia.
          replace (0 <=? p - 0) with true by lia. replace (p - 0 <? zlen r - off) with true by lia. cbn [andb].
          rewrite znth_arr by lia.
          replace (Z.max 0 off + (p - 0) <? off) with false by lia. f_equal. lia.
      - rewrite obj_copy_ok; rewrite ?zlen_rep, ?LA; try lia; [| apply arr_ok; auto].
        cbn [run_copy]. f_equal. apply znth_ext. intros p Hp.
        rewrite znth_blit by (rewrite ?zlen_rep; lia).
        rewrite !zlen_sub, !znth_sub, znth_rep, LA.
        replace (Z.min (Z.max 0 n) (Z.max 0 (zlen r - Z.max 0 off))) with n by lia.
        destruct (Z.ltb_spec p n) as [Hpn | Hpn].
        2: { rewrite (znth_ge (elems q)) by lia. leb; auto. }
        rewrite <- H2 by lia.
        replace (0 <=? p) with true by lia. replace (p <? 0 + n) with true by lia.
        replace (0 <=? p - 0) with true by lia. replace (p - 0 <? n) with true by lia. cbn [andb].
        rewrite znth_arr by lia.
        replace (Z.max 0 off + (p - 0) <? off) with false by lia. f_equal. lia. }
    eapply step_ret.
    - cbn [ls_step]. rewrite X. reflexivity.
    - reflexivity.
    - cbn [leaves_stale rotates]. rewrite !orb_false_r. destruct q; auto.
  Qed.

  Theorem step_ok s q op :
    inv s q -> op_args_ok op -> fits undef defined accepts q op -> good_step s q op.
  Proof.
    intros I Ha Hf. destruct op; cbn [op_args_ok] in Ha;
      auto using step_get, step_insert, step_pop, step_push, step_remove, step_replace, step_reserve,
        step_resize, step_set, step_shift, step_to_array, step_unshift, step_length.
  Qed.

  Theorem run_ok ops : forall s q,
    inv s q -> Forall op_args_ok ops ->
    allowed_run undef defined accepts q ops (ls_run undef defined accepts s ops).
  Proof.
    induction ops as [| op ops IH]; intros s q I Ha; [exact Logic.I |].
    inversion Ha; subst. cbn [ls_run allowed_run]. intros Hf.
    destruct (step_ok s q op) as (l' & Al & I'); auto. exists l'. split; auto.
  Qed.

  (** ** Construction *)
  Lemma zrep_arr n : arr_of (zrep n undef) 0 = zrep n undef.
  Proof.
    unfold arr_of. rewrite zdrop_all, ztake_all by lia. reflexivity.
  Qed.
  Lemma arr_of_0 r : arr_of r 0 = r.
  Proof. unfold arr_of. rewrite zdrop_all, ztake_all by lia. reflexivity. Qed.

  Lemma new_len_ok length capacity :
    0 <= length <= max_capacity -> capacity <= max_capacity ->
    exists s, ls_new_len undef length capacity = Ret s /\ inv s (mk_seq (zrep length undef) false false).
  Proof.
    intros Hl Hc. unfold max_capacity in *. unfold ls_new_len.
    destruct (Z.geb_spec length 0); [| lia].
    set (c := if capacity <? 0 then 4 else capacity).
    assert (Ec : c = if capacity <? 0 then 4 else capacity) by reflexivity. clearbody c.
    rewrite Z.gtb_ltb.
    set (c' := if c <? length then length else c).
    assert (Ec' : c' = if c <? length then length else c) by reflexivity. clearbody c'.
    assert (0 <= c' <= 1073741824 /\ length <= c').
    { destruct (Z.ltb_spec capacity 0); destruct (Z.ltb_spec c length); lia. }
    unfold new_elems. destruct (Z.leb_spec 0 c'); [| lia]. rewrite obind_ret.
    eexists. split; [reflexivity |].
    assert (L : zlen (zrep c' undef) = c') by (rewrite zlen_rep; lia).
    replace (mk_lst c' length (zrep c' undef) 0) with (st length (zrep c' undef) 0).
    2: { unfold st. rewrite L, arr_of_0. reflexivity. }
    apply inv_st; auto.
    - rewrite zlen_rep. lia.
    - unfold good, max_capacity. rewrite L. lia.
    - apply Forall_rep; auto.
    - split; rewrite !zlen_rep; [lia |]. intros p Hp. rewrite !znth_rep. leb; auto.
    - intros _ p Hp. rewrite !zlen_rep in Hp. rewrite znth_rep. leb; auto.
  Qed.

  Lemma new_ok a capacity :
    zlen a <= max_capacity -> capacity <= max_capacity -> okl a ->
    exists s, ls_new undef accepts (Some a) capacity = Ret s /\ inv s (mk_seq a false false).
  Proof.
    intros Hl Hc Fa. pose proof (zlen_nonneg a). unfold ls_new.
    destruct (new_len_ok (zlen a) capacity) as (s & E & r & off & Es & G & F & H1 & S & R); [lia | auto |].
    rewrite E. rewrite obind_ret. cbn [elems rotated stale] in *.
    rewrite R in * by auto. subst s. unfold st in *. cbn [ls_array]. rewrite arr_of_0.
    destruct (good_off _ _ G) as [GO1 GO2]. destruct H1 as [H1 H2]. rewrite zlen_rep in *.
    rewrite obj_copy_ok; auto; try lia.
    eexists. split; [reflexivity |]. cbn [ls_capacity ls_length ls_offset].
    assert (LB : zlen (zblit r 0 (zsub a 0 (zlen a))) = zlen r)
      by (apply zlen_blit; rewrite ?zlen_sub; lia).
    assert (ZS : zsub a 0 (zlen a) = a) by (rewrite zsub_0, ztake_all; auto; lia).
    rewrite ZS in *.
    replace (mk_lst (zlen r) (Z.max 0 (zlen a)) (zblit r 0 a) 0) with (st (zlen a) (zblit r 0 a) 0).
    2: { unfold st. rewrite LB, arr_of_0. f_equal. lia. }
    apply inv_st; auto.
    - eapply good_len; eauto.
    - apply Forall_blit; auto.
    - split; [lia |]. intros p Hp. rewrite znth_blit by lia. leb.
      + f_equal. lia.
      + rewrite !znth_neg; auto.
    - intros _ p Hp. rewrite znth_blit by lia. leb. apply S; auto. lia.
  Qed.
End Proofs.
