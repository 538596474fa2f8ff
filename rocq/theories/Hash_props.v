(** * C28, C29: Hash *)
From Verif Require Import Base CLib Buckets Val Hash_model Hash_spec Hash_proofs.

(** C28. Whatever the hash function (seed), every history of calls on a new
    Hash gives the answers of a finite map. The bound keeps the 32-bit length
    of the table from overflowing. *)
Theorem C28_hash_is_a_map :
  forall (sip : key -> Z) (ops : list h_op),
    zlen ops <= 536870912 ->
    map_run empty_map ops (h_run sip hash_empty ops).
Proof. exact history_spec. Qed.

(** "From now on [h] answers like the map [m]". *)
Definition behaves (sip : key -> Z) (h : hash) (room : Z) (m : vmap) : Prop :=
  forall ops, zlen ops <= room -> map_run m ops (h_run sip h ops).

(** The constructor stores its pairs in order. *)
Theorem C28_new :
  forall (sip : key -> Z) (kvs : list (key * val)),
    zlen kvs <= 536870912 ->
    exists h, hash_new sip (flatten kvs) = Ret h /\
      exists m, (forall k, m k = map_of_pairs kvs empty_map k) /\
                behaves sip h (536870912 - zlen kvs) m.
Proof.
  intros sip kvs B. destruct (new_spec sip kvs B) as (h & E & I & S & A).
  exists h. split; auto. exists (abs h). split; auto.
  intros ops L. apply (run_spec sip ops h (zlen kvs)); auto. lia.
Qed.

(** An odd number of arguments, or a key that is not a string, is refused. *)
Theorem C28_new_rejects :
  forall (sip : key -> Z) (kvs : list val),
    (zlen kvs mod 2 <> 0 -> exists e, hash_new sip kvs = Die e) /\
    (forall (good : list (key * val)) k v rest,
       zlen good <= 536870912 -> (forall s, k <> VString s) ->
       kvs = flatten good ++ k :: v :: rest -> exists e, hash_new sip kvs = Die e).
Proof.
  intros sip kvs. split.
  - intros O. unfold hash_new. destruct (Z.eqb_spec (zlen kvs mod 2) 0); [contradiction |]. cbn [negb]. eauto.
  - intros good k v rest B K ->. unfold hash_new. destruct (negb _); [eauto |].
    revert B. cut (forall h b, h_inv sip h -> sized h b -> b + zlen good <= 536870912 ->
      exists e, hash_new_loop sip (flatten good ++ k :: v :: rest) h = Die e).
    { intros C B. apply (C _ 0); auto using empty_inv, empty_sized. }
    induction good as [| [k0 v0] good IH]; intros h b I S B; cbn [flatten app hash_new_loop].
    + destruct k; eauto. exfalso; eapply K; reflexivity.
    + rewrite zlen_cons in B. pose proof (zlen_nonneg good).
      destruct (set_spec sip h k0 v0 b I S) as (h1 & E & I1 & S1 & _); [lia |].
      change (@Some (list Z) k0) with (@Some key k0). rewrite E.
      apply (IH h1 (b + 1)); auto. lia.
Qed.

(** copy: whatever the history of the source and whatever the new seed, source
    and copy then answer like the same map, independently of each other. *)
Theorem C28_copy :
  forall (sip sip' : key -> Z) (ops : list h_op),
    zlen ops <= 536870912 ->
    let h := h_exec sip hash_empty ops in
    exists h' m, hash_copy sip sip' h = Ret h' /\
      behaves sip h (536870912 - zlen ops) m /\ behaves sip' h' (536870912 - zlen ops) m.
Proof.
  intros sip sip' ops B h.
  destruct (exec_inv sip ops hash_empty 0 (empty_inv sip) empty_sized) as [I S]; [lia |].
  fold h in I, S. cbn in S.
  destruct (copy_spec sip sip' h (zlen ops) I S B) as (h' & E & I' & S' & A).
  exists h', (abs h'). split; [auto |]. split.
  - intros ops2 L.
    assert (X : forall ops m m' outs, (forall k, m k = m' k) -> map_run m ops outs -> map_run m' ops outs).
    { clear. intros ops m m' outs E R. destruct R as [| m op m1 o ops os R1 R2]; [constructor |].
      econstructor; [| exact R2].
      assert (V : forall k, value_at m' k = value_at m k) by (intros; unfold value_at; rewrite E; auto).
      assert (U : forall x, unchanged m x -> unchanged m' x) by (intros x Q k; rewrite Q; auto).
      assert (W : forall x k y, updated m x k y -> updated m' x k y).
      { intros x k y [Q1 Q2]; split; auto. intros; rewrite <- E; auto. }
      assert (Y : forall ks, lists_keys m ks -> lists_keys m' ks).
      { intros ks [Q1 Q2]; split; auto. intros; rewrite <- E; auto. }
      destruct R1; try rewrite <- V.
      - apply ms_undef_key; auto.
      - apply ms_set; auto.
      - apply ms_get; auto. rewrite V; auto.
      - apply ms_get_or_default_absent; auto. congruence.
      - apply (ms_get_or_default_present _ _ _ _ v); auto. congruence.
      - apply ms_delete_or_default_absent; auto. congruence.
      - apply (ms_delete_or_default_ok _ _ _ _ v); auto. congruence.
      - apply (ms_delete_or_default_type _ _ _ _ v); auto. congruence.
      - apply ms_exists_yes; auto. congruence.
      - apply ms_exists_no; auto. congruence.
      - apply ms_delete; auto.
      - apply ms_keys; auto.
      - rewrite (map_ext _ _ (fun k => eq_sym (V k))). apply ms_values; auto.
      - apply ms_length; auto.
      - apply (ms_has_keys_yes _ k); auto. congruence.
      - apply ms_has_keys_no; auto. intros; rewrite <- E; auto.
      - apply ms_weaken; auto.
      - apply ms_unweaken; auto. }
    apply (X ops2 (abs h)); auto. apply (run_spec sip ops2 h (zlen ops)); auto. lia.
  - intros ops2 L. apply (run_spec sip' ops2 h' (zlen ops)); auto. lia.
Qed.

(** The map specification decides the answers: with colliding keys, deletion
    and re-insertion. *)
Example C28_example :
  h_run (fun _ => 7) hash_empty
    [HSet (Some [97]) (VInt 1); HSet (Some [98]) (VInt 2); HSet (Some [97]) (VByte 3);
     HSet (Some []) VUndef; HDelete (Some [98]); HGet KAny (Some [98]); HGet KInt (Some [97]);
     HGet KString (Some [97]); HExists (Some []); HLength; HKeys; HValues; HGet KAny None]
  = [Ret RUnit; Ret RUnit; Ret RUnit; Ret RUnit; Ret (RVal (VInt 2)); Ret (RVal VUndef);
     Ret (RVal (VInt 3)); Die "The type of the value for the key must be string type.";
     Ret (RInt 1); Ret (RInt 2); Ret (RKeys [Some [97]; Some []]); Ret (RVals [VByte 3; VUndef]);
     Die "The key $key must be defined."].
Proof. vm_compute. reflexivity. Qed.

Example C28_new_example :
  hash_new (fun k => zlen k) (flatten [([97], VInt 1); ([97], VInt 2)]) =
  Ret {| h_keys_length := 1; h_entries := [[]; [{| he_key := [97]; he_value := VInt 2; he_weak := false |}]] |}.
Proof. vm_compute. reflexivity. Qed.

(** A destructor that stores a new key into the same Hash while its own
    object is being overwritten leaves a Hash whose keys method throws. *)
Theorem C28_reentrant_destructor_refuted :
  exists (sip : key -> Z) (ops : list h_op) (k : key) (v : val) (nested : list h_op) (h' : hash),
    let h := h_exec sip hash_empty ops in
    hash_set_reentrant sip h k v (fun h => h_exec sip h nested) = Ret h' /\
    hash_keys h' = Die die_index.
Proof.
  exists (fun _ => 0), [HSet (Some [97]) (VObject 1 1); HSet (Some [98]) VUndef; HDelete (Some [98])],
    [97], VUndef, [HSet (Some [99]) VUndef].
  exists {| h_keys_length := 1;
            h_entries := [[new_entry [97] VUndef; new_entry [99] VUndef]; []] |}.
  vm_compute. split; reflexivity.
Qed.

(** C29 asks that a value made weak stays weak until it is replaced, deleted
    or unweakened. Storing other keys breaks it: growing the table rebuilds
    every entry as a strong reference. *)
Theorem C29_weak_mark_refuted :
  exists (sip : key -> Z) (k : key) (others : list (key * val)) (h1 h2 : hash),
    (forall k' v', In (k', v') others -> k' <> k) /\
    h1 = h_exec sip hash_empty [HSet (Some k) (VObject 1 1); HWeaken (Some k)] /\
    hash_isweak sip h1 (Some k) = Ret 1 /\
    h2 = h_exec sip h1 (map (fun kv => HSet (Some (fst kv)) (snd kv)) others) /\
    hash_isweak sip h2 (Some k) = Ret 0.
Proof.
  exists (fun _ => 0), [97], [([98], VUndef)]. do 2 eexists. split.
  - cbn. intros k' v' [[= <- <-] | []]. discriminate.
  - split; [reflexivity |]. split; [vm_compute; reflexivity |]. split; [reflexivity |].
    vm_compute; reflexivity.
Qed.

(** What does hold: the mark survives every history without set calls (and
    without delete/unweaken of that key). Missing from the full property:
    histories that store other keys. *)
Theorem C29_weak_mark_partial :
  forall (sip : key -> Z) (ops before after : list h_op) (k : key) (v : val),
    zlen before + 1 + zlen after <= 536870912 ->
    ops = before ++ [HWeaken (Some k)] ->
    hash_get sip (h_exec sip hash_empty before) (Some k) = Ret v -> v <> VUndef ->
    Forall (leaves_mark k) after ->
    hash_isweak sip (h_exec sip (h_exec sip hash_empty ops) after) (Some k) = Ret 1.
Proof.
  intros sip ops before after k v B -> G D F. pose proof (zlen_nonneg after).
  assert (X : forall l h, h_exec sip h (l ++ [HWeaken (Some k)]) =
              fst (hash_weaken sip (h_exec sip h l) (Some k))).
  { induction l as [| op l IH]; intros h; cbn [app h_exec h_step]; auto.
    destruct (hash_weaken sip h (Some k)); auto. }
  destruct (exec_inv sip before hash_empty 0 (empty_inv sip) empty_sized) as [I S]; [lia |].
  assert (L : zlen (before ++ [HWeaken (Some k)]) = zlen before + 1).
  { rewrite zlen_app. reflexivity. }
  destruct (exec_inv sip (before ++ [HWeaken (Some k)]) hash_empty 0 (empty_inv sip) empty_sized)
    as [I2 S2]; [lia |].
  eapply exec_marked; [exact I2 | exact S2 | lia | | exact F].
  rewrite X. rewrite get_spec in G by auto. inversion G as [G'].
  apply (weaken_marks sip _ k v); auto. unfold value_at in G'.
  destruct (abs (h_exec sip hash_empty before) k); congruence.
Qed.

Example C29_example :
  Forall (leaves_mark [97])
    [HGet KAny (Some [97]); HWeaken (Some [98]); HDelete (Some [98]); HKeys].
Proof. repeat constructor; cbn; discriminate. Qed.

Print Assumptions C28_hash_is_a_map.
Print Assumptions C28_new.
Print Assumptions C28_new_rejects.
Print Assumptions C28_copy.
Print Assumptions C28_reentrant_destructor_refuted.
Print Assumptions C29_weak_mark_refuted.
Print Assumptions C29_weak_mark_partial.
