From Coq Require Import Permutation.
From Verif Require Import Base CLib Buckets Val Hash_model Hash_spec.

Notation ekeys := (keys_of he_key).
Notation efnd := (efind he_key).

Lemma str_eq_spec a b : str_eq a b = if key_dec a b then true else false.
Proof.
  unfold str_eq. destruct (key_dec a b) as [-> | D].
  - rewrite Z.eqb_refl, (proj2 (memcmp_eq b b (zlen b) eq_refl eq_refl) eq_refl). auto.
  - destruct (Z.eqb_spec (zlen a) (zlen b)); auto. cbn.
    destruct (Z.eqb_spec (memcmp a b (zlen a)) 0) as [M | M]; auto.
    exfalso. apply D. apply (proj1 (memcmp_eq a b (zlen a) eq_refl (eq_sym e)) M).
Qed.

Lemma perm_zlen {A} (l l' : list A) : Permutation l l' -> zlen l = zlen l'.
Proof. intros P. unfold zlen. rewrite (Permutation_length P). auto. Qed.

Lemma NoDup_app_l {A} (l l' : list A) : NoDup (l ++ l') -> NoDup l.
Proof.
  induction l as [| x l IH]; cbn; intros N; [constructor |]. inversion N; subst.
  constructor; auto. intros I. apply H1. apply in_or_app; auto.
Qed.

Lemma typed_spec kd v :
  match getter_result kd v with
  | Some w => typed kd v = Ret w
  | None => exists e, typed kd v = Die e
  end.
Proof. destruct kd, v; cbn; eauto. Qed.

Lemma typed_answers kd v : getter_answers kd v (omap RVal (typed kd v)).
Proof.
  unfold getter_answers. pose proof (typed_spec kd v).
  destruct (getter_result kd v); [rewrite H; auto |]. destruct H as [e ->]. cbn; eauto.
Qed.

Section Proofs.
  Variable sip : key -> Z.

  Definition hidx (n : Z) (k : key) : Z := index_by_key sip k n.

  Lemma hidx_range n k : 0 < n <= INT32_MAX -> 0 <= hidx n k < n.
  Proof.
    intros. unfold hidx, index_by_key.
    pose proof (Z.mod_pos_bound (u64 (sip k)) n). rewrite wrap32_id; [lia |].
    unfold in_i32. lia.
  Qed.

  Record h_inv (h : hash) : Prop := {
    hi_cap : 0 < zlen (h_entries h) <= INT32_MAX;
    hi_wf : wf_table he_key (hidx (zlen (h_entries h))) (h_entries h);
    hi_keys : h_keys_length h = zlen (concat (h_entries h))
  }.

  Definition lookup (t : list (list hentry)) (k : key) : option val :=
    option_map he_value (efnd k (concat t)).
  Definition abs (h : hash) : vmap := lookup (h_entries h).

  Lemma walk_entry_spec k c : walk_entry k c = efnd k c.
  Proof.
    induction c as [| e c IH]; cbn; auto. rewrite str_eq_spec. destruct (key_dec _ _); auto.
  Qed.

  Lemma get_entry_spec h k :
    h_inv h -> hash_get_entry sip h (Some k) = Ret (efnd k (concat (h_entries h))).
  Proof.
    intros [I1 I2 I3]. cbn. fold (hidx (zlen (h_entries h)) k).
    pose proof (hidx_range _ k I1). destruct (znth_lt _ _ H) as [c Hc]. rewrite Hc.
    rewrite walk_entry_spec. f_equal. apply (lookup_home he_key _ _ _ _ I2 Hc).
  Qed.

  Lemma get_spec h k : h_inv h -> hash_get sip h (Some k) = Ret (value_at (abs h) k).
  Proof.
    intros I. unfold hash_get. rewrite get_entry_spec by auto. cbn.
    unfold value_at, abs, lookup. destruct (efnd _ _); auto.
  Qed.

  Lemma exists_spec h k :
    h_inv h -> hash_exists sip h (Some k) = Ret (match abs h k with Some _ => 1 | None => 0 end).
  Proof.
    intros I. unfold hash_exists. rewrite get_entry_spec by auto. cbn.
    unfold abs, lookup. destruct (efnd _ _); auto.
  Qed.

  (** weaken / unweaken *)
  Lemma chain_change_spec k f c : chain_change k f c = ereplace he_key k f c.
  Proof.
    induction c as [| e c IH]; cbn; auto. rewrite str_eq_spec. destruct (key_dec _ _); auto.
    rewrite IH; auto.
  Qed.

  Lemma zlen_ereplace k f c : zlen (ereplace he_key k f c) = zlen c.
  Proof.
    induction c as [| e c IH]; cbn; auto. destruct (key_dec _ _); rewrite !zlen_cons; lia.
  Qed.

  Lemma change_spec h k f :
    h_inv h -> (forall e, he_key (f e) = he_key e) ->
    exists h', hash_change sip h (Some k) f = (h', Ret tt) /\ h_inv h' /\
      h_keys_length h' = h_keys_length h /\ zlen (h_entries h') = zlen (h_entries h) /\
      concat (h_entries h') = ereplace he_key k f (concat (h_entries h)).
  Proof.
    intros [I1 I2 I3] F. cbn. fold (hidx (zlen (h_entries h)) k).
    pose proof (hidx_range _ k I1). destruct (znth_lt _ _ H) as [c Hc]. rewrite Hc.
    eexists; split; [reflexivity |]. cbn. rewrite chain_change_spec.
    pose proof (concat_ereplace he_key _ k f _ _ I2 Hc) as CE.
    split; [| repeat split; auto; rewrite zlen_upd; auto].
    split; cbn; rewrite ?zlen_upd; auto.
    - apply wf_ereplace; auto.
    - rewrite CE, zlen_ereplace. auto.
  Qed.

  Lemma change_value h h' k f :
    (forall e, he_key (f e) = he_key e) -> (forall e, he_value (f e) = he_value e) ->
    concat (h_entries h') = ereplace he_key k f (concat (h_entries h)) ->
    unchanged (abs h) (abs h').
  Proof.
    intros F1 F2 CE k'. unfold abs, lookup. rewrite CE.
    destruct (key_dec k' k) as [-> | D].
    - destruct (efnd k (concat (h_entries h))) eqn:Ef.
      + rewrite (efind_ereplace_same he_key k f _ h0) by auto. cbn. rewrite F2; auto.
      + pose proof Ef as Ef'. rewrite efind_None in Ef.
        assert (Q : efnd k (ereplace he_key k f (concat (h_entries h))) = None).
        { apply efind_None. rewrite keys_ereplace; auto. }
        rewrite Q. auto.
    - rewrite efind_ereplace_other; auto.
  Qed.

  (** set *)
  Definition new_entry k v : hentry := {| he_key := k; he_value := v; he_weak := false |}.
  Definition with_value v (e : hentry) : hentry := new_entry (he_key e) v.

  Lemma walk_set_spec k v c :
    walk_set k v c =
    match efnd k c with
    | Some _ => (ereplace he_key k (with_value v) c, false)
    | None => (c ++ [new_entry k v], true)
    end.
  Proof.
    induction c as [| e c IH]; cbn; auto. rewrite str_eq_spec.
    destruct (key_dec _ _); auto. rewrite IH. destruct (efnd k c); auto.
  Qed.

  (** The three ways set_to_container may go, described once. *)
  Lemma set_to_container_spec t n k v :
    0 < zlen t <= INT32_MAX -> wf_table he_key (hidx (zlen t)) t ->
    0 <= n < INT32_MAX ->
    exists t', zlen t' = zlen t /\ wf_table he_key (hidx (zlen t)) t' /\
      (forall k', lookup t' k' = if key_dec k k' then Some v else lookup t k') /\
      match efnd k (concat t) with
      | Some _ => set_to_container sip t n k v = Ret (t', n) /\
                  concat t' = ereplace he_key k (with_value v) (concat t)
      | None => set_to_container sip t n k v = Ret (t', n + 1) /\
                Permutation (concat t') (new_entry k v :: concat t)
      end.
  Proof.
    intros C W N. unfold set_to_container. fold (hidx (zlen t) k).
    pose proof (hidx_range _ k C). destruct (znth_lt _ _ H) as [c Hc]. rewrite Hc.
    rewrite walk_set_spec. pose proof (lookup_home he_key _ _ _ _ W Hc) as LH.
    rewrite <- LH. destruct (efnd k c) as [e |] eqn:F.
    - exists (zupd t (hidx (zlen t) k) (ereplace he_key k (with_value v) c)).
      assert (FK : forall e, he_key (with_value v e) = he_key e) by reflexivity.
      pose proof (concat_ereplace he_key _ k (with_value v) _ _ W Hc) as CE.
      repeat split; auto.
      + rewrite zlen_upd; auto.
      + apply wf_ereplace; auto.
      + apply (wf_ereplace he_key); auto.
      + intros k'. unfold lookup. rewrite CE. destruct (key_dec k k') as [<- | D].
        * rewrite (efind_ereplace_same he_key k (with_value v) _ e); auto.
        * rewrite efind_ereplace_other; auto.
    - symmetry in LH. rewrite efind_None in LH.
      destruct (wf_append he_key (hidx (zlen t)) t c (new_entry k v) W Hc LH) as [W' P].
      cbn [new_entry he_key] in W', P.
      exists (zupd t (hidx (zlen t) k) (c ++ [new_entry k v])).
      rewrite wrap32_id by (unfold in_i32; lia).
      repeat split; auto; try apply W'.
      + rewrite zlen_upd; auto.
      + intros k'. unfold lookup.
        rewrite (efind_perm he_key k' _ _ (wf_nodup _ _ _ W') P). cbn.
        destruct (key_dec k k'); auto.
  Qed.

  Definition kv (e : hentry) : key * val := (he_key e, he_value e).

  Lemma keys_kv l : map fst (map kv l) = ekeys l.
  Proof. unfold keys_of. rewrite map_map. auto. Qed.

  (** Rehashing keeps keys and values (and forgets the weak marks). *)
  Lemma rehash_chain_spec c : forall t n,
    0 < zlen t <= INT32_MAX -> wf_table he_key (hidx (zlen t)) t ->
    NoDup (ekeys (c ++ concat t)) -> 0 <= n -> n + zlen c <= INT32_MAX ->
    exists t' n', rehash_chain sip c t n = Ret (t', n') /\
      zlen t' = zlen t /\ wf_table he_key (hidx (zlen t)) t' /\ n' = n + zlen c /\
      Permutation (map kv (concat t')) (map kv (c ++ concat t)).
  Proof.
    induction c as [| e c IH]; intros t n C W N Z0 B.
    - exists t, n. cbn. repeat split; auto; try apply W. rewrite zlen_nil; lia.
    - rewrite zlen_cons in B. pose proof (zlen_nonneg c).
      cbn [app] in N. inversion N as [| ? ? N1 N2]; subst.
      destruct (set_to_container_spec t n (he_key e) (he_value e) C W) as (t1 & L1 & W1 & _ & S1);
        [lia |].
      assert (Q : efnd (he_key e) (concat t) = None).
      { apply efind_None. intros X. apply N1. unfold keys_of. rewrite map_app. apply in_or_app; auto. }
      rewrite Q in S1. destruct S1 as [E1 P1].
      cbn. rewrite E1. cbn.
      assert (PK : Permutation (map kv (c ++ concat t1)) (map kv (e :: c ++ concat t))).
      { rewrite P1. change (kv e) with (kv (new_entry (he_key e) (he_value e))).
        rewrite !map_cons. change (kv e) with (kv (new_entry (he_key e) (he_value e))).
        rewrite <- (map_cons kv). apply Permutation_map. symmetry. apply Permutation_middle. }
      rewrite <- L1 in C, W1.
      destruct (IH t1 (n + 1) C W1) as (t2 & n2 & E2 & L2 & W2 & Nn & P2).
      { rewrite <- keys_kv. eapply Permutation_NoDup.
        { symmetry. apply (Permutation_map fst PK). }
        rewrite keys_kv. exact N. }
      { lia. } { lia. }
      exists t2, n2. rewrite E2. repeat split; auto; try congruence.
      + rewrite <- L1. apply W2.
      + apply W2.
      + rewrite zlen_cons; lia.
      + rewrite P2. auto.
  Qed.

  Lemma rehash_buckets_spec old : forall t n,
    0 < zlen t <= INT32_MAX -> wf_table he_key (hidx (zlen t)) t ->
    NoDup (ekeys (concat old ++ concat t)) -> 0 <= n -> n + zlen (concat old) <= INT32_MAX ->
    exists t' n', rehash_buckets sip old t n = Ret (t', n') /\
      zlen t' = zlen t /\ wf_table he_key (hidx (zlen t)) t' /\
      Permutation (map kv (concat t')) (map kv (concat old ++ concat t)).
  Proof.
    induction old as [| c old IH]; intros t n C W N Z0 B.
    - exists t, n. cbn. repeat split; auto; apply W.
    - cbn in N, B. rewrite zlen_app in B. pose proof (zlen_nonneg c).
      pose proof (zlen_nonneg (concat old)).
      rewrite <- app_assoc in N.
      destruct (rehash_chain_spec c t n C W) as (t1 & n1 & E1 & L1 & W1 & -> & P1); try lia.
      { unfold keys_of in *. rewrite !map_app in *. clear -N.
        rewrite (Permutation_app_comm (map he_key (concat old))) in N. rewrite app_assoc in N.
        apply NoDup_app_l in N. auto. }
      cbn. rewrite E1. cbn.
      assert (PK : Permutation (map kv (concat old ++ concat t1))
                               (map kv (c ++ concat old ++ concat t))).
      { rewrite !map_app in *. rewrite P1. rewrite !app_assoc. apply Permutation_app_tail.
        apply Permutation_app_comm. }
      rewrite <- L1 in C, W1.
      destruct (IH t1 (n + zlen c) C W1) as (t2 & n2 & E2 & L2 & W2 & P2); try lia.
      { rewrite <- keys_kv. eapply Permutation_NoDup.
        { symmetry. apply (Permutation_map fst PK). }
        rewrite keys_kv. exact N. }
      exists t2, n2. rewrite E2. repeat split; auto; try congruence.
      + rewrite <- L1. apply W2.
      + apply W2.
      + rewrite P2, PK. rewrite app_assoc. auto.
  Qed.

  (** Lookup only depends on the (key, value) pairs. *)
  Lemma efind_kv k l : option_map he_value (efnd k l) = option_map snd (efind fst k (map kv l)).
  Proof. induction l as [| e l IH]; cbn; auto. destruct (key_dec (he_key e) k); auto. Qed.

  Lemma lookup_perm t t' k :
    NoDup (ekeys (concat t)) -> Permutation (map kv (concat t)) (map kv (concat t')) ->
    lookup t k = lookup t' k.
  Proof.
    intros N P. unfold lookup. rewrite !efind_kv. f_equal.
    apply (efind_perm fst); auto. unfold keys_of. rewrite keys_kv. auto.
  Qed.

  Lemma rehash_spec h :
    h_inv h -> zlen (h_entries h) * 2 <= INT32_MAX -> h_keys_length h <= INT32_MAX ->
    exists h', hash_rehash sip h = Ret h' /\ h_inv h' /\
      h_keys_length h' = h_keys_length h /\
      zlen (h_entries h') = 2 * zlen (h_entries h) /\ forall k, abs h' k = abs h k.
  Proof.
    intros [I1 I2 I3] B K. unfold hash_rehash.
    rewrite wrap32_id by (unfold in_i32; lia). cbv zeta.
    destruct (Z.ltb_spec (zlen (h_entries h) * 2) 0); [lia |].
    set (n := zlen (h_entries h) * 2) in *.
    destruct (wf_empty (E:=hentry) he_key (hidx n) n) as [We Ce].
    assert (Ln : zlen (zrep n (@nil hentry)) = n) by (rewrite zlen_rep; lia).
    destruct (rehash_buckets_spec (h_entries h) (zrep n []) 0) as (t & n' & E & L & W & P);
      rewrite ?Ln; auto; try lia.
    { rewrite Ce, app_nil_r. apply (wf_nodup _ _ _ I2). }
    rewrite E. cbn. rewrite Ce, app_nil_r in P. rewrite Ln in L, W.
    eexists; split; [reflexivity |]. cbn. split; [| split; [auto | split; [lia |]]].
    - split; cbn; rewrite ?L; auto; try lia.
      apply perm_zlen in P. rewrite !zlen_map in P. lia.
    - intros k. unfold abs; cbn. symmetry. apply lookup_perm; [apply (wf_nodup _ _ _ I2) |].
      symmetry; auto.
  Qed.

  Lemma set_core h k v :
    h_inv h -> h_keys_length h < INT32_MAX ->
    exists t n, set_to_container sip (h_entries h) (h_keys_length h) k v = Ret (t, n) /\
      h_inv {| h_keys_length := n; h_entries := t |} /\
      h_keys_length h <= n <= h_keys_length h + 1 /\ zlen t = zlen (h_entries h) /\
      (forall k', lookup t k' = if key_dec k k' then Some v else abs h k').
  Proof.
    intros [I1 I2 I3] K. pose proof (zlen_nonneg (concat (h_entries h))).
    destruct (set_to_container_spec (h_entries h) (h_keys_length h) k v I1 I2)
      as (t & L & W & A & S); [lia |].
    destruct (efnd k (concat (h_entries h))) eqn:F; destruct S as [E P].
    - exists t, (h_keys_length h). repeat split; cbn; rewrite ?L; auto; try lia; try apply W.
      rewrite P, zlen_ereplace. auto.
    - exists t, (h_keys_length h + 1). repeat split; cbn; rewrite ?L; auto; try lia; try apply W.
      rewrite (perm_zlen _ _ P), zlen_cons. lia.
  Qed.

  (** [b] bounds the sizes: see [h_run_spec]. *)
  Definition sized (h : hash) (b : Z) : Prop :=
    h_keys_length h <= b /\ zlen (h_entries h) <= 2 + 4 * b.

  Lemma set_spec h k v b :
    h_inv h -> sized h b -> b <= 536870912 ->
    exists h', hash_set sip h (Some k) v = (h', Ret tt) /\ h_inv h' /\ sized h' (b + 1) /\
      updated (abs h) (abs h') k (Some v).
  Proof.
    intros I [S1 S2] B. unfold hash_set. rewrite Z.gtb_ltb.
    destruct (Z.ltb_spec (3 * zlen (h_entries h)) (4 * h_keys_length h)).
    - destruct (rehash_spec h I) as (h1 & E1 & J1 & K1 & L1 & A1); try lia. rewrite E1.
      destruct (set_core h1 k v J1) as (t & n & E2 & J2 & K2 & L2 & A2); [lia |]. rewrite E2.
      eexists; split; [reflexivity |]. split; [auto |]. split.
      + split; cbn; lia.
      + split; unfold abs; cbn.
        * rewrite A2. destruct (key_dec k k); congruence.
        * intros k' D. rewrite A2. destruct (key_dec k k'); [congruence |]. apply A1.
    - destruct (set_core h k v I) as (t & n & E2 & J2 & K2 & L2 & A2); [lia |]. rewrite E2.
      eexists; split; [reflexivity |]. split; [auto |]. split.
      + split; cbn; lia.
      + split; unfold abs; cbn.
        * rewrite A2. destruct (key_dec k k); congruence.
        * intros k' D. rewrite A2. destruct (key_dec k k'); [congruence |]. reflexivity.
  Qed.

  (** delete *)
  Lemma walk_delete_spec k c :
    walk_delete k c =
    match efnd k c with
    | Some e => Some (he_value e, eremove he_key k c)
    | None => None
    end.
  Proof.
    induction c as [| e c IH]; cbn; auto. rewrite str_eq_spec.
    destruct (key_dec _ _); auto. rewrite IH. destruct (efnd k c); auto.
  Qed.

  Lemma delete_spec h k b :
    h_inv h -> sized h b -> b <= 536870912 ->
    exists h', hash_delete sip h (Some k) = (h', Ret (value_at (abs h) k)) /\ h_inv h' /\
      sized h' b /\ updated (abs h) (abs h') k None /\
      forall k', k' <> k -> efnd k' (concat (h_entries h')) = efnd k' (concat (h_entries h)).
  Proof.
    intros I [S1 S2] B. pose proof I as [I1 I2 I3]. cbn. fold (hidx (zlen (h_entries h)) k).
    pose proof (hidx_range _ k I1). destruct (znth_lt _ _ H) as [c Hc]. rewrite Hc.
    rewrite walk_delete_spec. pose proof (lookup_home he_key _ _ _ _ I2 Hc) as LH.
    assert (V : value_at (abs h) k = match efnd k c with Some e => he_value e | None => VUndef end).
    { unfold value_at, abs, lookup. rewrite <- LH. destruct (efnd k c); auto. }
    rewrite V. destruct (efnd k c) as [e |] eqn:F.
    - destruct (wf_eremove he_key _ k _ _ e I2 Hc F) as [W P].
      pose proof (perm_zlen _ _ P) as PL. rewrite zlen_cons in PL.
      set (t' := zupd (h_entries h) (hidx (zlen (h_entries h)) k) (eremove he_key k c)) in *.
      assert (Lt : zlen t' = zlen (h_entries h)) by apply zlen_upd.
      pose proof (zlen_nonneg (concat t')).
      rewrite wrap32_id by (unfold in_i32; lia).
      pose proof (efind_Some _ _ _ _ F) as [_ Ke]. subst k.
      pose proof (wf_nodup _ _ _ I2) as Nd.
      eexists; split; [reflexivity |]. split; [| split; [| split]].
      + split; cbn; rewrite ?Lt; auto; lia.
      + split; cbn; lia.
      + assert (Nd' : NoDup (ekeys (e :: concat t'))).
        { eapply Permutation_NoDup; [| exact Nd]. apply Permutation_map; auto. }
        split; unfold abs, lookup; cbn [h_entries].
        * cbn in Nd'. inversion Nd' as [| ? ? Ni ?]; subst.
          rewrite (proj2 (efind_None he_key (he_key e) (concat t'))); auto.
        * intros k' D. rewrite (efind_perm he_key k' _ _ Nd P). cbn.
          destruct (key_dec (he_key e) k'); [congruence | auto].
      + intros k' D. cbn [h_entries]. rewrite (efind_perm he_key k' _ _ Nd P). cbn.
        destruct (key_dec (he_key e) k'); [congruence | auto].
    - exists h. split; [reflexivity |]. split; [auto |]. split; [split; auto |].
      split; auto. split; auto. unfold abs, lookup. rewrite <- LH. auto.
  Qed.

  (** keys / values *)
  Lemma fill_chain_spec {A} (f : hentry -> A) c : forall out n,
    0 <= n -> n + zlen c <= zlen out -> zlen out <= INT32_MAX ->
    fill_chain f c out n = Ret (zblit out n (map f c), n + zlen c).
  Proof.
    induction c as [| e c IH]; intros out n N B L.
    - cbn. f_equal. f_equal; [| zlen_nils; lia]. rewrite zlen_nil in B. zext.
    - rewrite zlen_cons in B. pose proof (zlen_nonneg c). cbn.
      replace ((0 <=? n) && (n <? zlen out)) with true by lia.
      rewrite wrap32_id by (unfold in_i32; lia).
      rewrite IH; rewrite ?zlen_upd; try lia.
      f_equal. f_equal; [| rewrite zlen_cons; lia].
      apply znth_ext. intros i Hi.
      assert (zlen (f e :: map f c) = 1 + zlen c) by (rewrite zlen_cons, zlen_map; auto).
      rewrite !znth_blit by (rewrite ?zlen_upd; lia). rewrite zlen_map, H0.
      rewrite znth_upd, znth_cons. zcase; try (f_equal; lia); auto.
  Qed.

  Lemma fill_buckets_spec {A} (f : hentry -> A) t : forall out n,
    0 <= n -> n + zlen (concat t) <= zlen out -> zlen out <= INT32_MAX ->
    fill_buckets f t out n = Ret (zblit out n (map f (concat t)), n + zlen (concat t)).
  Proof.
    induction t as [| c t IH]; intros out n N B L.
    - cbn. cbn in B. f_equal. f_equal; [| zlen_nils; lia]. rewrite zlen_nil in B. zext.
    - cbn in B. rewrite zlen_app in B. pose proof (zlen_nonneg c). pose proof (zlen_nonneg (concat t)).
      cbn. rewrite fill_chain_spec by lia. cbn.
      assert (Lb : zlen (zblit out n (map f c)) = zlen out).
      { apply zlen_blit; rewrite ?zlen_map; lia. }
      rewrite IH by (rewrite ?Lb; lia).
      f_equal. f_equal; [| rewrite zlen_app; lia].
      apply znth_ext. intros i Hi.
      rewrite map_app. rewrite !znth_blit by (rewrite ?Lb; lia).
      rewrite zlen_app, !zlen_map, znth_app, zlen_map.
      zcase; auto; f_equal; lia.
  Qed.

  Lemma fill_all {A} (f : hentry -> A) x h :
    h_inv h -> h_keys_length h <= INT32_MAX ->
    (let! out := new_array (h_keys_length h) x in
     let! (out, _) := fill_buckets f (h_entries h) out 0 in Ret out) =
    Ret (map f (concat (h_entries h))).
  Proof.
    intros [I1 I2 I3] B. unfold new_array. pose proof (zlen_nonneg (concat (h_entries h))).
    destruct (Z.ltb_spec (h_keys_length h) 0); [lia |]. cbn.
    assert (L : zlen (zrep (h_keys_length h) x) = h_keys_length h) by (rewrite zlen_rep; lia).
    rewrite fill_buckets_spec by (rewrite ?L; lia). cbn. f_equal.
    apply znth_ext. intros i Hi. rewrite znth_blit by (rewrite ?L; lia).
    rewrite zlen_map, znth_rep. zcase; try (f_equal; lia).
    symmetry. apply znth_ge. rewrite zlen_map. lia.
  Qed.

  Lemma lists_keys_abs h : h_inv h -> lists_keys (abs h) (ekeys (concat (h_entries h))).
  Proof.
    intros [I1 I2 I3]. split; [apply (wf_nodup _ _ _ I2) |]. intros k.
    unfold abs, lookup. pose proof (efind_None he_key k (concat (h_entries h))) as Q.
    destruct (efnd k (concat (h_entries h))) eqn:F; cbn.
    - split; [discriminate |]. intros _. apply efind_Some in F. destruct F as [I <-].
      apply in_map; auto.
    - tauto.
  Qed.

  Lemma keys_spec h :
    h_inv h -> h_keys_length h <= INT32_MAX ->
    hash_keys h = Ret (map Some (ekeys (concat (h_entries h)))).
  Proof.
    intros I B. unfold hash_keys. rewrite fill_all by auto. unfold keys_of. rewrite map_map. auto.
  Qed.

  Lemma values_spec h :
    h_inv h -> h_keys_length h <= INT32_MAX ->
    hash_values h = Ret (map (value_at (abs h)) (ekeys (concat (h_entries h)))).
  Proof.
    intros I B. unfold hash_values. rewrite fill_all by auto. f_equal.
    unfold keys_of. rewrite map_map. apply map_ext_in. intros e Ie.
    unfold value_at, abs, lookup.
    rewrite (efind_In he_key (he_key e) (concat (h_entries h)) e); auto.
    apply (wf_nodup _ _ _ (hi_wf _ I)).
  Qed.

  (** One call, then a history. *)
  Lemma unchanged_refl m : unchanged m m.
  Proof. intros k; auto. Qed.
  Hint Resolve unchanged_refl : core.

  Lemma step_spec h op b :
    h_inv h -> sized h b -> b <= 536870912 ->
    exists h' o, h_step sip h op = (h', o) /\ h_inv h' /\ sized h' (b + 1) /\
      map_step (abs h) op (abs h') o.
  Proof.
    intros I S B.
    assert (S' : sized h (b + 1)) by (destruct S; split; lia).
    assert (KB : h_keys_length h <= INT32_MAX) by (destruct S; lia).
    destruct op as [[k |] v | kd [k |] | kd [k |] d | kd [k |] d | [k |] | [k |] | | | | | [k |] | [k |]];
      cbn [h_step].
    - destruct (set_spec h k v b I S B) as (h' & E & I' & S1 & U). rewrite E.
      eexists _, _; split; [reflexivity |]. repeat (split; auto). apply ms_set; auto.
    - eexists _, _; split; [reflexivity |]. repeat (split; auto). apply ms_undef_key; auto.
    - unfold hash_get_typed. rewrite get_spec by auto. cbn.
      eexists _, _; split; [reflexivity |]. repeat (split; auto). apply ms_get; auto.
      apply typed_answers.
    - eexists _, _; split; [reflexivity |]. repeat (split; auto). apply ms_undef_key; auto.
    - unfold hash_get_or_default, hash_get_typed. rewrite exists_spec, get_spec by auto. cbn.
      eexists _, _; split; [reflexivity |]. repeat (split; auto).
      destruct (abs h k) eqn:A; cbn.
      + eapply ms_get_or_default_present; eauto. unfold value_at. rewrite A. apply typed_answers.
      + apply ms_get_or_default_absent; auto.
    - eexists _, _; split; [reflexivity |]. repeat (split; auto). apply ms_undef_key; auto.
    - unfold hash_delete_or_default, hash_get_typed. rewrite exists_spec, get_spec by auto. cbn [obind].
      destruct (abs h k) eqn:A; cbn.
      + unfold value_at; rewrite A. pose proof (typed_spec kd v) as T.
        destruct (getter_result kd v) eqn:G.
        * rewrite T. destruct (delete_spec h k b I S B) as (h' & E & I' & S1 & U & _).
          cbn in E. rewrite E.
          eexists _, _; split; [reflexivity |]. split; [auto |].
          split; [destruct S1; split; lia |]. eapply ms_delete_or_default_ok; eauto.
        * destruct T as [e ->]. eexists _, _; split; [reflexivity |]. repeat (split; auto).
          eapply ms_delete_or_default_type; eauto.
      + eexists _, _; split; [reflexivity |]. repeat (split; auto).
        apply ms_delete_or_default_absent; auto.
    - eexists _, _; split; [reflexivity |]. repeat (split; auto). apply ms_undef_key; auto.
    - rewrite exists_spec by auto. cbn. eexists _, _; split; [reflexivity |]. repeat (split; auto).
      destruct (abs h k) eqn:A; [apply ms_exists_yes | apply ms_exists_no]; auto. congruence.
    - eexists _, _; split; [reflexivity |]. repeat (split; auto). apply ms_undef_key; auto.
    - destruct (delete_spec h k b I S B) as (h' & E & I' & S1 & U & _). rewrite E.
      eexists _, _; split; [reflexivity |]. split; [auto |].
      split; [destruct S1; split; lia |]. apply ms_delete; auto.
    - eexists _, _; split; [reflexivity |]. repeat (split; auto). apply ms_undef_key; auto.
    - rewrite keys_spec by auto. cbn. eexists _, _; split; [reflexivity |]. repeat (split; auto).
      apply ms_keys; auto. apply lists_keys_abs; auto.
    - rewrite values_spec by auto. cbn. eexists _, _; split; [reflexivity |]. repeat (split; auto).
      apply ms_values; auto. apply lists_keys_abs; auto.
    - eexists _, _; split; [reflexivity |]. repeat (split; auto).
      rewrite (hi_keys _ I). rewrite <- (zlen_map he_key). apply ms_length; auto.
      apply lists_keys_abs; auto.
    - eexists _, _; split; [reflexivity |]. repeat (split; auto).
      unfold hash_has_keys. rewrite Z.gtb_ltb. rewrite (hi_keys _ I).
      destruct (lists_keys_abs h I) as [_ D].
      destruct (concat (h_entries h)) as [| e l] eqn:C.
      + cbn. apply ms_has_keys_no; auto. intros k. specialize (D k).
        destruct (abs h k); auto. exfalso. apply D; discriminate.
      + rewrite zlen_cons. pose proof (zlen_nonneg l).
        destruct (Z.ltb_spec 0 (1 + zlen l)); [| lia].
        apply (ms_has_keys_yes _ (he_key e)); auto. apply D. cbn; auto.
    - unfold hash_weaken.
      destruct (change_spec h k entry_weaken I) as (h' & E & I' & K' & L' & C'); [auto |].
      rewrite E. eexists _, _; split; [reflexivity |]. split; [auto |].
      split; [destruct S'; split; lia |]. apply ms_weaken.
      apply (change_value h h' k entry_weaken); auto.
    - eexists _, _; split; [reflexivity |]. repeat (split; auto). apply ms_undef_key; auto.
    - unfold hash_unweaken.
      destruct (change_spec h k entry_unweaken I) as (h' & E & I' & K' & L' & C'); [auto |].
      rewrite E. eexists _, _; split; [reflexivity |]. split; [auto |].
      split; [destruct S'; split; lia |]. apply ms_unweaken.
      apply (change_value h h' k entry_unweaken); auto.
    - eexists _, _; split; [reflexivity |]. repeat (split; auto). apply ms_undef_key; auto.
  Qed.

  Lemma run_spec ops : forall h b,
    h_inv h -> sized h b -> b + zlen ops <= 536870912 -> map_run (abs h) ops (h_run sip h ops).
  Proof.
    induction ops as [| op ops IH]; intros h b I S B; cbn [h_run]; [constructor |].
    rewrite zlen_cons in B. pose proof (zlen_nonneg ops).
    destruct (step_spec h op b I S) as (h' & o & E & I' & S' & M); [lia |].
    rewrite E. econstructor; [exact M |]. apply (IH h' (b + 1)); auto. lia.
  Qed.

  Lemma exec_inv ops : forall h b,
    h_inv h -> sized h b -> b + zlen ops <= 536870912 ->
    h_inv (h_exec sip h ops) /\ sized (h_exec sip h ops) (b + zlen ops).
  Proof.
    induction ops as [| op ops IH]; intros h b I S B; cbn [h_exec].
    - split; auto. rewrite zlen_nil. replace (b + 0) with b by lia. auto.
    - rewrite zlen_cons in B. pose proof (zlen_nonneg ops).
      destruct (step_spec h op b I S) as (h' & o & E & I' & S' & M); [lia |].
      rewrite E. cbn [fst]. destruct (IH h' (b + 1) I' S') as [J T]; [lia |]. split; auto.
      rewrite zlen_cons. replace (b + (1 + zlen ops)) with (b + 1 + zlen ops) by lia. auto.
  Qed.

  Lemma empty_inv : h_inv hash_empty.
  Proof.
    destruct (wf_empty (E:=hentry) he_key (hidx 1) 1) as [We Ce].
    split; cbn; auto.
    - change (zlen [[]]) with 1. lia.
  Qed.

  Lemma empty_sized : sized hash_empty 0.
  Proof. split; cbn; [lia |]. change (zlen [[]]) with 1. lia. Qed.

  Lemma history_spec ops :
    zlen ops <= 536870912 -> map_run empty_map ops (h_run sip hash_empty ops).
  Proof. intros. apply (run_spec ops hash_empty 0); auto using empty_inv, empty_sized. Qed.

  (** A weak mark survives every call that does not store, delete or unweaken. *)
  Definition leaves_mark (k : key) (op : h_op) : Prop :=
    match op with
    | HSet _ _ => False
    | HDelete (Some k') | HUnweaken (Some k') | HDeleteOrDefault _ (Some k') _ => k' <> k
    | _ => True
    end.

  Definition marked (h : hash) (k : key) : Prop :=
    exists e, efnd k (concat (h_entries h)) = Some e /\ he_weak e = true.

  Lemma step_marked h op b k :
    h_inv h -> sized h b -> b <= 536870912 -> marked h k -> leaves_mark k op ->
    marked (fst (h_step sip h op)) k.
  Proof.
    intros I S B M L.
    destruct op as [k' v | kd k' | kd k' d | kd [k' |] d | k' | [k' |] | | | | | [k' |] | [k' |]];
      cbn [h_step fst]; auto; cbn in L; try contradiction.
    - unfold hash_delete_or_default. rewrite exists_spec by auto. cbn [obind].
      destruct (abs h k'); cbn [Z.eqb]; auto.
      unfold hash_get_typed. rewrite get_spec by auto. cbn [obind].
      destruct (typed kd _); auto.
      destruct (delete_spec h k' b I S B) as (h' & E & I' & S1 & U & F). rewrite E. cbn.
      destruct M as (e & Me & We). exists e. rewrite F by auto. auto.
    - destruct (delete_spec h k' b I S B) as (h' & E & I' & S1 & U & F). rewrite E. cbn.
      destruct M as (e & Me & We). exists e. rewrite F by auto. auto.
    - unfold hash_weaken.
      destruct (change_spec h k' entry_weaken I) as (h' & E & I' & K' & L' & C'); [auto |].
      rewrite E. cbn. destruct M as (e & Me & We). unfold marked. rewrite C'.
      destruct (key_dec k k') as [<- | D].
      + exists (entry_weaken e). split; [apply efind_ereplace_same; auto |]. cbn. rewrite We. auto.
      + exists e. rewrite efind_ereplace_other by auto. auto.
    - unfold hash_unweaken.
      destruct (change_spec h k' entry_unweaken I) as (h' & E & I' & K' & L' & C'); [auto |].
      rewrite E. cbn. destruct M as (e & Me & We). unfold marked. rewrite C'.
      exists e. rewrite efind_ereplace_other by auto. auto.
  Qed.

  Lemma exec_marked ops : forall h b k,
    h_inv h -> sized h b -> b + zlen ops <= 536870912 -> marked h k ->
    Forall (leaves_mark k) ops -> hash_isweak sip (h_exec sip h ops) (Some k) = Ret 1.
  Proof.
    induction ops as [| op ops IH]; intros h b k I S B M F; cbn [h_exec].
    - unfold hash_isweak. rewrite get_entry_spec by auto. destruct M as (e & -> & W). cbn.
      rewrite W. auto.
    - rewrite zlen_cons in B. pose proof (zlen_nonneg ops). inversion F; subst.
      destruct (step_spec h op b I S) as (h' & o & E & I' & S' & _); [lia |].
      pose proof (step_marked h op b k I S ltac:(lia) M H2) as M'. rewrite E in *. cbn [fst] in *.
      apply (IH h' (b + 1)); auto. lia.
  Qed.

  Lemma weaken_marks h k v :
    h_inv h -> abs h k = Some v -> v <> VUndef -> marked (fst (hash_weaken sip h (Some k))) k.
  Proof.
    intros I A D. unfold hash_weaken.
    destruct (change_spec h k entry_weaken I) as (h' & E & I' & K' & L' & C'); [auto |].
    rewrite E. cbn. unfold marked. rewrite C'. unfold abs, lookup in A.
    destruct (efnd k (concat (h_entries h))) as [e |] eqn:F; [| discriminate].
    exists (entry_weaken e). split; [apply efind_ereplace_same; auto |].
    cbn in A. inversion A; subst. cbn. destruct (he_value e); cbn; auto using orb_true_r.
  Qed.

  (** new *)
  Fixpoint flatten (kvs : list (key * val)) : list val :=
    match kvs with [] => [] | (k, v) :: r => VString k :: v :: flatten r end.

  Lemma zlen_flatten kvs : zlen (flatten kvs) = 2 * zlen kvs.
  Proof.
    induction kvs as [| [k v] r IH]; cbn; auto. rewrite !zlen_cons, IH. lia.
  Qed.

  Lemma map_of_pairs_ext kvs : forall m m', (forall k, m k = m' k) ->
    forall k, map_of_pairs kvs m k = map_of_pairs kvs m' k.
  Proof.
    induction kvs as [| [k0 v0] r IH]; cbn; auto. intros m m' E k. apply IH. intros k'.
    destruct (list_eq_dec Z.eq_dec k0 k'); auto.
  Qed.

  Lemma new_loop_spec kvs : forall h b,
    h_inv h -> sized h b -> b + zlen kvs <= 536870912 ->
    exists h', hash_new_loop sip (flatten kvs) h = Ret h' /\ h_inv h' /\
      sized h' (b + zlen kvs) /\ forall k, abs h' k = map_of_pairs kvs (abs h) k.
  Proof.
    induction kvs as [| [k v] r IH]; intros h b I S B; cbn [flatten hash_new_loop].
    - exists h. rewrite zlen_nil. replace (b + 0) with b by lia. auto.
    - rewrite zlen_cons in B. pose proof (zlen_nonneg r).
      destruct (set_spec h k v b I S) as (h1 & E & I1 & S1 & U1 & U2); [lia |]. 
      change (@Some (list Z) k) with (@Some key k). rewrite E.
      destruct (IH h1 (b + 1) I1 S1) as (h' & E' & I' & S' & A'); [lia |].
      exists h'. rewrite zlen_cons. replace (b + (1 + zlen r)) with (b + 1 + zlen r) by lia.
      repeat (split; auto); try apply S'. intros k'. rewrite A'. cbn.
      apply map_of_pairs_ext. intros k2. destruct (list_eq_dec Z.eq_dec k k2); [subst; auto |].
      apply U2; auto.
  Qed.

  Lemma new_spec kvs :
    zlen kvs <= 536870912 ->
    exists h', hash_new sip (flatten kvs) = Ret h' /\ h_inv h' /\ sized h' (zlen kvs) /\
      forall k, abs h' k = map_of_pairs kvs empty_map k.
  Proof.
    intros B. unfold hash_new. rewrite zlen_flatten.
    replace (2 * zlen kvs mod 2) with 0 by (rewrite Z.mul_comm, Z.mod_mul; lia). cbn [Z.eqb negb].
    destruct (new_loop_spec kvs hash_empty 0 empty_inv empty_sized) as (h' & E & I & S & A); [lia |].
    exists h'. auto.
  Qed.
End Proofs.

(** copy *)
Section Copy.
  Variables sip sip' : key -> Z.

  Lemma copy_loop_spec h ks : forall ret b,
    h_inv sip h -> h_inv sip' ret -> sized ret b -> b + zlen ks <= 536870912 ->
    exists ret', copy_loop sip sip' h (map Some ks) ret = Ret ret' /\ h_inv sip' ret' /\
      sized ret' (b + zlen ks) /\
      forall k, abs ret' k = if in_dec key_dec k ks then Some (value_at (abs h) k) else abs ret k.
  Proof.
    induction ks as [| k ks IH]; intros ret b I J S B; cbn [map copy_loop].
    - exists ret. rewrite zlen_nil. replace (b + 0) with b by lia. cbn. auto.
    - rewrite zlen_cons in B. pose proof (zlen_nonneg ks).
      rewrite get_spec by auto. cbn [obind].
      destruct (set_spec sip' ret k (value_at (abs h) k) b J S) as (r1 & E & J1 & S1 & U1 & U2); [lia |].
      rewrite E. destruct (IH r1 (b + 1) I J1 S1) as (r' & E' & J' & S' & A'); [lia |].
      exists r'. rewrite zlen_cons. replace (b + (1 + zlen ks)) with (b + 1 + zlen ks) by lia.
      repeat (split; auto); try apply S'. intros k'. rewrite A'.
      destruct (in_dec key_dec k' ks); destruct (in_dec key_dec k' (k :: ks)) as [X | X]; cbn in X;
        try (exfalso; apply X; tauto); auto.
      + destruct X as [<- | X]; [auto | contradiction].
  Qed.

  Lemma copy_spec h b :
    h_inv sip h -> sized h b -> b <= 536870912 ->
    exists h', hash_copy sip sip' h = Ret h' /\ h_inv sip' h' /\ sized h' b /\
      forall k, abs h' k = abs h k.
  Proof.
    intros I [S1 S2] B. unfold hash_copy. rewrite (keys_spec sip) by (auto; lia). cbn [obind].
    set (ks := ekeys (concat (h_entries h))).
    assert (Lk : zlen ks = h_keys_length h).
    { unfold ks, keys_of. rewrite zlen_map. symmetry. apply (hi_keys _ _ I). }
    destruct (copy_loop_spec h ks hash_empty 0 I (empty_inv sip') empty_sized)
      as (h' & E & I' & S' & A); [lia |].
    exists h'. repeat (split; auto).
    - destruct S'; lia.
    - destruct S'; lia.
    - intros k. rewrite A. destruct (lists_keys_abs sip h I) as [_ D]. specialize (D k). fold ks in D.
      destruct (in_dec key_dec k ks) as [X | X].
      + apply D in X. unfold value_at. destruct (abs h k); congruence.
      + unfold abs at 1, lookup. cbn. destruct (abs h k) eqn:Ak; auto.
        exfalso. apply X. apply D. congruence.
  Qed.
End Copy.
