From Coq Require Import Permutation.
From Verif Require Import Base CLib Buckets NHash_model NHash_spec.

Lemma calc_hash_nonneg k : 0 <= calc_hash_value k <= INT32_MAX.
Proof.
  unfold calc_hash_value.
  assert (R : in_i32 (calc_hash_loop k)).
  { unfold calc_hash_loop.
    assert (G : forall s0, in_i32 s0 -> in_i32 (fold_left
      (fun hash ch => wrap32 (wrap32 (wrap32 (hash * 32) + hash) + u8 ch)) k s0)).
    { induction k as [| x k IH]; cbn [fold_left]; auto. intros. apply IH. apply wrap32_range. }
    apply G. unfold in_i32; lia. }
  unfold in_i32 in R. destruct (Z.ltb_spec (calc_hash_loop k) 0); [| lia].
  unfold Z.lnot. lia.
Qed.

Definition nidx (cap : Z) (k : key) : Z := Z.rem (calc_hash_value k) cap.

Lemma nidx_range cap k : 0 < cap -> 0 <= nidx cap k < cap.
Proof.
  intros. unfold nidx. pose proof (calc_hash_nonneg k).
  apply Z.rem_bound_pos; lia.
Qed.

Lemma nh_match_spec k e : nh_match k e = if key_dec (fst e) k then true else false.
Proof.
  unfold nh_match. destruct (key_dec (fst e) k) as [Q | Q].
  - rewrite Q. rewrite Z.eqb_refl, (proj2 (memcmp_eq k k (zlen k) eq_refl eq_refl) eq_refl).
    destruct (_ && _); reflexivity.
  - destruct ((zlen k =? 0) && (zlen (fst e) =? 0)) eqn:B.
    + exfalso. apply Q. rewrite (zlen_0_nil (fst e)), (zlen_0_nil k) by lia. auto.
    + destruct (Z.eqb_spec (zlen (fst e)) (zlen k)); auto. cbn.
      destruct (Z.eqb_spec (memcmp k (fst e) (zlen k)) 0) as [M | M]; auto.
      exfalso. apply Q. symmetry. apply (proj1 (memcmp_eq k (fst e) (zlen k) eq_refl e0) M).
Qed.

Definition value_of (o : option nentry) : Z := match o with Some e => snd e | None => 0 end.

Lemma walk_get_spec k c : nh_walk_get k c = value_of (efind fst k c).
Proof.
  induction c as [| e c IH]; cbn; auto. rewrite nh_match_spec.
  destruct (key_dec (fst e) k); auto.
Qed.

Definition with_value (v : Z) (e : nentry) : nentry := (fst e, v).

Lemma walk_set_spec k v c :
  nh_walk_set k v c =
  match efind fst k c with
  | Some _ => (ereplace fst k (with_value v) c, false)
  | None => (c ++ [(k, v)], true)
  end.
Proof.
  induction c as [| e c IH]; cbn; auto. rewrite nh_match_spec.
  destruct (key_dec (fst e) k) as [Q | Q]; auto.
  rewrite IH. destruct (efind fst k c); auto.
Qed.

(** Representation invariant. *)
Record nh_inv (h : nhash) : Prop := {
  ni_cap : 0 < nh_capacity h <= INT32_MAX;
  ni_len : zlen (nh_table h) = nh_capacity h;
  ni_wf : wf_table fst (nidx (nh_capacity h)) (nh_table h);
  ni_keys : nh_keys_length h = zlen (concat (nh_table h))
}.

Definition nlookup (h : nhash) (k : key) : Z := value_of (efind fst k (concat (nh_table h))).

Lemma set_entry_spec table cap e :
  0 < cap -> zlen table = cap -> wf_table fst (nidx cap) table ->
  ~ In (fst e) (keys_of fst (concat table)) ->
  exists table', nh_set_entry table cap e = Ret table' /\
    zlen table' = cap /\ wf_table fst (nidx cap) table' /\
    Permutation (concat table') (e :: concat table).
Proof.
  intros C L W N. unfold nh_set_entry.
  replace (cap =? 0) with false by lia. cbv zeta. fold (nidx cap (fst e)).
  pose proof (nidx_range cap (fst e) C).
  destruct (znth_lt table (nidx cap (fst e))) as [c Hc]; [lia |]. rewrite Hc.
  eexists; split; [reflexivity |].
  destruct (wf_append fst (nidx cap) table c e W Hc N) as [W' P].
  rewrite zlen_upd. auto.
Qed.

Lemma rehash_chain_spec c cap : forall table,
  0 < cap -> zlen table = cap -> wf_table fst (nidx cap) table ->
  NoDup (keys_of fst (c ++ concat table)) ->
  exists table', nh_rehash_chain c cap table = Ret table' /\
    zlen table' = cap /\ wf_table fst (nidx cap) table' /\
    Permutation (concat table') (c ++ concat table).
Proof.
  induction c as [| e c IH]; intros table C L W N; cbn.
  - eauto.
  - cbn in N. inversion N as [| ? ? N1 N2]; subst.
    destruct (set_entry_spec table (zlen table) e) as (t1 & E1 & L1 & W1 & P1); auto.
    { intros I. apply N1. unfold keys_of. rewrite map_app. apply in_or_app. auto. }
    rewrite E1. cbn.
    assert (PK : Permutation (c ++ concat t1) (e :: c ++ concat table)).
    { rewrite P1. symmetry. apply Permutation_middle. }
    destruct (IH t1) as (t2 & E2 & L2 & W2 & P2); auto.
    { eapply Permutation_NoDup; [| exact N]. symmetry.
      apply (Permutation_map fst PK). }
    rewrite E2. eexists; split; [reflexivity |]. repeat split; auto; try apply W2.
    rewrite P2. auto.
Qed.

Lemma rehash_buckets_spec old cap : forall table,
  0 < cap -> zlen table = cap -> wf_table fst (nidx cap) table ->
  NoDup (keys_of fst (concat old ++ concat table)) ->
  exists table', nh_rehash_buckets old cap table = Ret table' /\
    zlen table' = cap /\ wf_table fst (nidx cap) table' /\
    Permutation (concat table') (concat old ++ concat table).
Proof.
  induction old as [| c old IH]; intros table C L W N; cbn.
  - eauto.
  - cbn in N. rewrite <- app_assoc in N.
    destruct (rehash_chain_spec c cap table) as (t1 & E1 & L1 & W1 & P1); auto.
    { unfold keys_of in *. rewrite !map_app in *. clear -N.
      rewrite (Permutation_app_comm (map fst (concat old))) in N. rewrite app_assoc in N.
      revert N. generalize (map fst c ++ map fst (concat table)) as a. intros a.
      generalize (map fst (concat old)) as b. intros b N.
      rewrite Permutation_app_comm in N. induction b as [| x b IH]; cbn in N; auto.
      inversion N; auto. }
    rewrite E1. cbn.
    assert (PK : Permutation (concat old ++ concat t1) (c ++ concat old ++ concat table)).
    { rewrite P1. rewrite !app_assoc. apply Permutation_app_tail. apply Permutation_app_comm. }
    destruct (IH t1) as (t2 & E2 & L2 & W2 & P2); auto.
    { eapply Permutation_NoDup; [| exact N]. symmetry. apply Permutation_map; auto. }
    rewrite E2. eexists; split; [reflexivity |]. repeat split; auto; try apply W2.
    rewrite P2. rewrite PK. rewrite app_assoc. auto.
Qed.

Lemma perm_zlen {A} (l l' : list A) : Permutation l l' -> zlen l = zlen l'.
Proof. intros P. unfold zlen. rewrite (Permutation_length P). auto. Qed.

Lemma rehash_spec h cap :
  nh_inv h -> 0 < cap <= INT32_MAX ->
  exists h', nh_rehash h cap = Ret h' /\ nh_inv h' /\
    nh_capacity h' = cap /\ nh_keys_length h' = nh_keys_length h /\
    (forall k, nlookup h' k = nlookup h k).
Proof.
  intros [I1 I2 I3 I4] C. unfold nh_rehash. replace (cap <=? 0) with false by lia.
  destruct (wf_empty (E:=nentry) fst (nidx cap) cap) as [We Ce].
  destruct (rehash_buckets_spec (nh_table h) cap (zrep cap [])) as (t & E & L & W & P); auto; try lia.
  { rewrite zlen_rep; lia. }
  { rewrite Ce, app_nil_r. apply (wf_nodup _ _ _ I3). }
  rewrite E. cbn. rewrite Ce, app_nil_r in P.
  eexists; split; [reflexivity |]. split; [| split; [| split]]; cbn; auto.
  - split; cbn; auto. rewrite (perm_zlen _ _ P). auto.
  - intros k. unfold nlookup; cbn. f_equal. symmetry. apply efind_perm.
    + apply (wf_nodup _ _ _ I3).
    + symmetry; auto.
Qed.

Lemma get_spec h k : nh_inv h -> nh_get h k = Ret (nlookup h k).
Proof.
  intros [I1 I2 I3 I4]. unfold nh_get.
  replace (nh_capacity h =? 0) with false by lia. cbv zeta.
  fold (nidx (nh_capacity h) k). pose proof (nidx_range (nh_capacity h) k ltac:(lia)).
  destruct (znth_lt (nh_table h) (nidx (nh_capacity h) k)) as [c Hc]; [lia |]. rewrite Hc.
  rewrite walk_get_spec. unfold nlookup. do 2 f_equal.
  apply (lookup_home fst _ _ _ _ I3 Hc).
Qed.

Lemma set_norehash_spec h k v :
  nh_inv h -> nh_keys_length h < INT32_MAX ->
  exists h',
    (if nh_capacity h =? 0 then UB else
     let table_index := Z.rem (calc_hash_value k) (nh_capacity h) in
     match znth (nh_table h) table_index with
     | None => UB
     | Some chain =>
         let (chain', added) := nh_walk_set k v chain in
         Ret {| nh_capacity := nh_capacity h;
                nh_keys_length := if added then wrap32 (nh_keys_length h + 1) else nh_keys_length h;
                nh_table := zupd (nh_table h) table_index chain' |}
     end) = Ret h' /\
    nh_inv h' /\ nh_capacity h' = nh_capacity h /\
    nh_keys_length h <= nh_keys_length h' <= nh_keys_length h + 1 /\
    forall k', nlookup h' k' = if key_dec k k' then v else nlookup h k'.
Proof.
  intros [I1 I2 I3 I4] Kb.
  replace (nh_capacity h =? 0) with false by lia. cbv zeta.
  fold (nidx (nh_capacity h) k). pose proof (nidx_range (nh_capacity h) k ltac:(lia)).
  destruct (znth_lt (nh_table h) (nidx (nh_capacity h) k)) as [c Hc]; [lia |]. rewrite Hc.
  rewrite walk_set_spec.
  pose proof (lookup_home fst _ _ _ _ I3 Hc) as LH.
  destruct (efind fst k c) as [e |] eqn:F.
  - eexists; split; [reflexivity |]. cbn.
    assert (FK : forall e0, fst (with_value v e0) = fst e0) by reflexivity.
    pose proof (concat_ereplace fst _ _ (with_value v) _ _ I3 Hc) as CE.
    split; [| split; [auto | split; [lia |]]].
    + split; cbn; auto.
      * rewrite zlen_upd; auto.
      * apply wf_ereplace; auto.
      * rewrite CE. rewrite I4. unfold zlen. f_equal.
        rewrite <- (map_length fst), <- (map_length fst (ereplace _ _ _ _)).
        fold (keys_of (E:=nentry) fst (concat (nh_table h))).
        fold (keys_of (E:=nentry) fst (ereplace fst k (with_value v) (concat (nh_table h)))).
        rewrite keys_ereplace; auto.
    + intros k'. unfold nlookup; cbn. rewrite CE. destruct (key_dec k k') as [<- | D].
      * rewrite (efind_ereplace_same fst k (with_value v) _ e); auto.
      * rewrite efind_ereplace_other; auto.
  - symmetry in LH. rewrite efind_None in LH.
    destruct (wf_append fst (nidx (nh_capacity h)) (nh_table h) c (k, v) I3 Hc LH) as [W P].
    cbn [fst] in W, P.
    eexists; split; [reflexivity |]. cbn.
    pose proof (zlen_nonneg (concat (nh_table h))).
    rewrite wrap32_id by (unfold in_i32; lia).
    split; [| split; [auto | split; [lia |]]].
    + split; cbn; auto.
      * rewrite zlen_upd; auto.
      * rewrite (perm_zlen _ _ P). rewrite zlen_cons. lia.
    + intros k'. unfold nlookup; cbn.
      rewrite (efind_perm fst k' _ _ (wf_nodup _ _ _ W) P). cbn.
      destruct (key_dec k k'); auto.
Qed.

Lemma set_spec h k v :
  nh_inv h -> nh_keys_length h <= 536870912 ->
  exists h', nh_set h k v = Ret h' /\ nh_inv h' /\
    nh_keys_length h' <= nh_keys_length h + 1 /\
    forall k', nlookup h' k' = if key_dec k k' then v else nlookup h k'.
Proof.
  intros I Kb. unfold nh_set. rewrite Z.gtb_ltb.
  destruct (Z.ltb_spec (3 * nh_capacity h) (4 * nh_keys_length h)).
  - pose proof (ni_cap _ I).
    rewrite (wrap32_id (nh_capacity h * 2)) by (unfold in_i32; lia).
    rewrite wrap32_id by (unfold in_i32; lia).
    destruct (rehash_spec h (nh_capacity h * 2 + 1) I) as (h1 & E1 & J1 & C1 & K1 & L1); [lia |].
    rewrite E1. cbn [obind].
    destruct (set_norehash_spec h1 k v J1) as (h2 & E2 & J2 & C2 & K2 & L2); [lia |].
    exists h2. split; [exact E2 |]. split; [auto |]. split; [lia |].
    intros k'. rewrite L2, L1. auto.
  - cbn [obind].
    destruct (set_norehash_spec h k v I) as (h2 & E2 & J2 & C2 & K2 & L2); [lia |].
    exists h2. split; [exact E2 |]. split; [auto |]. split; [lia |]. auto.
Qed.

Lemma run_spec ops : forall h past,
  nh_inv h -> nh_keys_length h + zlen ops <= 536870912 ->
  (forall k, nlookup h k = last_stored k past) ->
  nh_run h ops = Ret (expected_answers past ops).
Proof.
  induction ops as [| [k v | k] ops IH]; intros h past I B L; cbn [nh_run expected_answers]; auto.
  - rewrite zlen_cons in B. pose proof (zlen_nonneg ops).
    destruct (set_spec h k v I) as (h' & E & I' & K' & L'); [lia |].
    rewrite E. cbn [obind]. apply IH; auto; [lia |].
    intros k'. rewrite L'. cbn. fold key_dec. destruct (key_dec k k') as [-> | D].
    + destruct (list_eq_dec Z.eq_dec k' k'); congruence.
    + destruct (list_eq_dec Z.eq_dec k k'); [congruence | auto].
  - rewrite zlen_cons in B. rewrite (get_spec _ _ I). cbn [obind].
    rewrite (IH h (NGet k :: past)); auto; [| lia]. cbn. rewrite L. auto.
Qed.

Lemma new_spec c : 0 <= c <= INT32_MAX ->
  exists h, nh_new c = Ret h /\ nh_inv h /\ nh_keys_length h = 0 /\ forall k, nlookup h k = 0.
Proof.
  intros C. unfold nh_new. replace (c <? 0) with false by lia.
  eexists; split; [reflexivity |].
  set (cap := if c =? 0 then 1 else c). assert (0 < cap <= INT32_MAX).
  { unfold cap. destruct (Z.eqb_spec c 0); lia. }
  destruct (wf_empty (E:=nentry) fst (nidx cap) cap) as [We Ce].
  split; [| split]; cbn; auto.
  - split; cbn; auto; [rewrite zlen_rep; lia |]. rewrite Ce; auto.
  - intros k. unfold nlookup; cbn. rewrite Ce. auto.
Qed.

Lemma history_spec c ops :
  0 <= c <= INT32_MAX -> zlen ops <= 536870912 ->
  nh_history c ops = Ret (expected_answers [] ops).
Proof.
  intros C B. unfold nh_history. destruct (new_spec c C) as (h & E & I & K & L).
  rewrite E. cbn [obind]. apply run_spec; auto. lia.
Qed.
