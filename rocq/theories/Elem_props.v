(** * Element access: C16 *)

From Verif Require Import Base Bytes Elem_model Elem_spec.

Lemma i32_ok m x : in_i32 x -> i32 m x = Ret x.
Proof.
  intros H. destruct m; cbn [i32].
  - unfold in_i32 in H. destruct (Z.leb_spec INT32_MIN x); [| lia].
    destruct (Z.leb_spec x INT32_MAX); [| lia]. reflexivity.
  - rewrite wrap32_id by auto. reflexivity.
Qed.

(** The block holds the sequence. *)
Definition cell (a : arr) (j : Z) : Z :=
  decode (a_kind a) (zsub (a_data a) (ksize (a_kind a) * j) (ksize (a_kind a))).

Record holds (a : arr) (t : array) : Prop := {
  h_fields : 1 <= a_fields a;
  h_len : zlen t = a_length a;
  h_size : ksize (a_kind a) * (a_fields a * a_length a) <= zlen (a_data a);
  h_row : forall i e, znth t i = Some e ->
    zlen e = a_fields a /\
    forall f v, znth e f = Some v -> cell a (a_fields a * i + f) = v /\ kvalue (a_kind a) v
}.

Lemma slot_inj n i f i' f' : 0 <= f < n -> 0 <= f' < n -> n * i + f = n * i' + f' -> i = i' /\ f = f'.
Proof.
  intros F F' E. assert (i = i').
  { apply (f_equal (fun x => x / n)) in E.
    rewrite !(Z.mul_comm n), !Z.div_add_l in E by lia. rewrite !Z.div_small in E by lia. lia. }
  split; auto. subst. lia.
Qed.

Lemma slot_range n l i f : 0 <= f < n -> 0 <= i < l -> 0 <= n * i + f < n * l.
Proof. intros F I. nia. Qed.

Lemma cell_get_ok a j : 0 <= j -> ksize (a_kind a) * (j + 1) <= zlen (a_data a) ->
  cell_get a j = Ret (cell a j).
Proof.
  intros J B. pose proof (ksize_pos (a_kind a)). unfold cell_get, cell.
  rewrite load_at_ok by nia. reflexivity.
Qed.

Lemma cell_set_ok a j v : 0 <= j -> ksize (a_kind a) * (j + 1) <= zlen (a_data a) ->
  kvalue (a_kind a) v ->
  exists a', cell_set a j v = Ret a' /\ a_kind a' = a_kind a /\ a_fields a' = a_fields a /\
    a_length a' = a_length a /\ zlen (a_data a') = zlen (a_data a) /\
    cell a' j = v /\ (forall j', 0 <= j' -> j' <> j -> cell a' j' = cell a j').
Proof.
  intros J B V. pose proof (ksize_pos (a_kind a)).
  pose proof (zlen_encode (a_kind a) v) as L.
  unfold cell_set. rewrite store_at_ok by nia. cbn [obind].
  eexists; split; [reflexivity |]. cbn [a_kind a_fields a_length a_data].
  do 3 (split; [reflexivity |]). split; [rewrite zlen_blit by nia; reflexivity |].
  unfold cell. cbn [a_kind a_data]. split.
  - pose proof (zsub_zblit_same (a_data a) (ksize (a_kind a) * j) (encode (a_kind a) v)) as S.
    rewrite L in S. rewrite S by nia. apply decode_encode; auto.
  - intros j' J' N. rewrite zsub_zblit_other; auto; try nia.
Qed.

Lemma holds_index a t i : holds a t -> 0 <= i < a_length a -> exists e, znth t i = Some e.
Proof. intros H I. apply znth_lt. rewrite (h_len _ _ H). exact I. Qed.

(** One write. *)
Lemma holds_set a t i f e v a' :
  holds a t -> znth t i = Some e -> 0 <= f < a_fields a -> kvalue (a_kind a) v ->
  cell_set a (a_fields a * i + f) v = Ret a' ->
  holds a' (zupd t i (zupd e f v)) /\ a_kind a' = a_kind a /\ a_fields a' = a_fields a /\ a_length a' = a_length a.
Proof.
  intros H E F V S. pose proof (znth_Some _ _ _ E) as I. rewrite (h_len _ _ H) in I.
  pose proof (slot_range (a_fields a) (a_length a) i f F I).
  pose proof (ksize_pos (a_kind a)). pose proof (h_size _ _ H).
  destruct (cell_set_ok a (a_fields a * i + f) v) as (a2 & S2 & K & Fs & L & D & C & O); auto; [lia | nia |].
  rewrite S in S2. injection S2 as <-.
  split; [| auto]. constructor; rewrite ?K, ?Fs, ?L, ?D; auto.
  - apply (h_fields _ _ H).
  - rewrite zlen_upd. apply (h_len _ _ H).
  - intros i' e' E'. rewrite znth_upd in E'.
    destruct (h_row _ _ H _ _ E) as (Le & _).
    pose proof (znth_Some _ _ _ E) as I0.
    destruct ((i' =? i) && (0 <=? i) && (i <? zlen t)) eqn:Q.
    + apply andb_true_iff in Q. destruct Q as (Q & _). apply andb_true_iff in Q. destruct Q as (Q & _).
      apply Z.eqb_eq in Q. subst i'. injection E' as <-. split; [rewrite zlen_upd; exact Le |].
      intros f' v' W. rewrite znth_upd in W.
      destruct ((f' =? f) && (0 <=? f) && (f <? zlen e)) eqn:Qf.
      * apply andb_true_iff in Qf. destruct Qf as (Qf & _). apply andb_true_iff in Qf. destruct Qf as (Qf & _).
        apply Z.eqb_eq in Qf. subst f'. injection W as <-. auto.
      * pose proof (znth_Some _ _ _ W). destruct (h_row _ _ H _ _ E) as (_ & R). destruct (R _ _ W) as (R1 & R2).
        split; auto. rewrite O; auto; [nia |].
        intros X. assert (f' = f) by lia. subst f'.
        destruct (Z.eqb_spec f f); [| lia]. destruct (Z.leb_spec 0 f); [| lia]. destruct (Z.ltb_spec f (zlen e)); [| lia]. discriminate.
    + destruct (h_row _ _ H _ _ E') as (Le' & R). split; auto.
      intros f' v' W. destruct (R _ _ W) as (R1 & R2). split; auto.
      pose proof (znth_Some _ _ _ W). pose proof (znth_Some _ _ _ E').
      rewrite O; auto; [nia |]. intros X. apply slot_inj in X; lia.
Qed.

Lemma checked_at {A} a t i (k : arr -> outcome A) (f : array -> list Z -> outcome A) :
  holds a t -> (forall e, znth t i = Some e -> k a = f t e) ->
  checked (Some a) i k = at_index (Some t) i f.
Proof.
  intros H E. unfold checked, at_index.
  destruct (znth t i) as [e |] eqn:Ei.
  - pose proof (znth_Some _ _ _ Ei) as I. rewrite (h_len _ _ H) in I.
    destruct (Z.ltb_spec i 0); [lia |]. destruct (Z.leb_spec (a_length a) i); [lia |]. cbn [orb]. auto.
  - destruct (Z.ltb_spec i 0); cbn [orb]; auto. destruct (Z.leb_spec (a_length a) i); auto.
    destruct (holds_index _ _ i H) as (e & E2); [lia |]. congruence.
Qed.

Definition fits (a : arr) : Prop := a_fields a * a_length a <= INT32_MAX.

Lemma slot_ok m a i f : fits a -> 0 <= f < a_fields a -> 0 <= i < a_length a ->
  slot m a i f = Ret (a_fields a * i + f).
Proof.
  intros Ft F I. unfold fits in Ft. pose proof (slot_range (a_fields a) (a_length a) i f F I).
  unfold slot. rewrite i32_ok by (unfold in_i32; nia). cbn [obind]. apply i32_ok. unfold in_i32. lia.
Qed.

Lemma get_ok a t i f e : holds a t -> znth t i = Some e -> 0 <= f < a_fields a ->
  exists v, znth e f = Some v /\ cell_get a (a_fields a * i + f) = Ret v.
Proof.
  intros H E F. destruct (h_row _ _ H _ _ E) as (Le & R).
  destruct (znth_lt e f) as (v & V); [lia |]. exists v. split; auto.
  destruct (R _ _ V) as (C & _). rewrite <- C.
  pose proof (znth_Some _ _ _ E) as I. rewrite (h_len _ _ H) in I.
  pose proof (slot_range (a_fields a) (a_length a) i f F I). pose proof (h_size _ _ H).
  pose proof (ksize_pos (a_kind a)). apply cell_get_ok; nia.
Qed.

Lemma set_ok a t i f e v : holds a t -> znth t i = Some e -> 0 <= f < a_fields a -> kvalue (a_kind a) v ->
  exists a', cell_set a (a_fields a * i + f) v = Ret a' /\ holds a' (zupd t i (zupd e f v)) /\
    a_kind a' = a_kind a /\ a_fields a' = a_fields a /\ a_length a' = a_length a.
Proof.
  intros H E F V. pose proof (znth_Some _ _ _ E) as I. rewrite (h_len _ _ H) in I.
  pose proof (slot_range (a_fields a) (a_length a) i f F I). pose proof (h_size _ _ H).
  pose proof (ksize_pos (a_kind a)).
  destruct (cell_set_ok a (a_fields a * i + f) v) as (a' & S & _); [lia | nia | auto |].
  exists a'. split; auto. eapply holds_set; eauto.
Qed.

Lemma get_all_loop_ok m a t i e : holds a t -> fits a -> znth t i = Some e -> forall n f,
  0 <= f -> f + Z.of_nat n = a_fields a ->
  get_all_loop m a i f n = Ret (zdrop f e).
Proof.
  intros H Ft E. pose proof (znth_Some _ _ _ E) as I. rewrite (h_len _ _ H) in I.
  destruct (h_row _ _ H _ _ E) as (Le & _).
  induction n as [| n IH]; intros f F S; cbn [get_all_loop].
  - rewrite zdrop_all by lia. reflexivity.
  - rewrite slot_ok by (auto; lia). cbn [obind].
    destruct (get_ok a t i f e) as (v & V & G); auto; [lia |]. rewrite G. cbn [obind].
    rewrite IH by lia. cbn [obind]. f_equal. symmetry. apply zdrop_cons; auto.
Qed.

Lemma zupd_zupd {A} (l : list A) i x y : zupd (zupd l i x) i y = zupd l i y.
Proof.
  apply znth_ext. intros j J. rewrite !znth_upd, zlen_upd.
  destruct ((j =? i) && (0 <=? i) && (i <? zlen l)); reflexivity.
Qed.

Lemma set_all_loop_ok m : forall vs a t i e f, holds a t -> fits a -> znth t i = Some e ->
  0 <= f -> f + zlen vs = a_fields a -> Forall (kvalue (a_kind a)) vs ->
  exists a', set_all_loop m a i f vs = Ret a' /\ holds a' (zupd t i (ztake f e ++ vs)) /\
    a_kind a' = a_kind a /\ a_fields a' = a_fields a /\ a_length a' = a_length a.
Proof.
  induction vs as [| v vs IH]; intros a t i e f H Ft E F S V; cbn [set_all_loop].
  - exists a. split; auto. destruct (h_row _ _ H _ _ E) as (Le & _).
    change (zlen (@nil Z)) with 0 in S. rewrite ztake_all, app_nil_r by lia.
    replace (zupd t i e) with t; auto. apply znth_ext. intros j J. rewrite znth_upd.
    destruct (Z.eqb_spec j i); cbn [andb]; auto. subst j.
    destruct ((0 <=? i) && (i <? zlen t)); auto.
  - pose proof (znth_Some _ _ _ E) as I. rewrite (h_len _ _ H) in I.
    rewrite zlen_cons in S. pose proof (zlen_nonneg vs). inversion V; subst.
    rewrite slot_ok by (auto; lia). cbn [obind].
    destruct (set_ok a t i f e v) as (a1 & S1 & H1 & K1 & F1 & L1); auto; [lia |].
    rewrite S1. cbn [obind].
    destruct (h_row _ _ H _ _ E) as (Le & _).
    assert (E1 : znth (zupd t i (zupd e f v)) i = Some (zupd e f v)).
    { rewrite znth_upd. rewrite (h_len _ _ H). destruct (Z.eqb_spec i i); [| lia].
      destruct (Z.leb_spec 0 i); [| lia]. destruct (Z.ltb_spec i (a_length a)); [| lia]. reflexivity. }
    destruct (IH a1 _ i (zupd e f v) (f + 1) H1) as (a2 & S2 & H2 & K2 & F2 & L2); auto.
    + unfold fits. rewrite F1, L1. exact Ft.
    + lia.
    + lia.
    + rewrite K1. auto.
    + exists a2. split; auto. rewrite zupd_zupd in H2.
      replace (ztake (f + 1) (zupd e f v) ++ vs) with (ztake f e ++ v :: vs) in H2.
      * split; auto. split; congruence || (split; congruence).
      * change (v :: vs) with ([v] ++ vs). rewrite app_assoc. f_equal.
        apply znth_ext. intros j J. rewrite znth_app, !znth_take, znth_upd, zlen_take.
        rewrite Z.min_l, Z.max_r by lia.
        destruct (Z.ltb_spec j f), (Z.ltb_spec j (f + 1)), (Z.eqb_spec j f); try lia; cbn [andb].
        -- reflexivity.
        -- subst j. rewrite Z.sub_diag. destruct (Z.leb_spec 0 f); [| lia].
           destruct (Z.ltb_spec f (zlen e)); [| lia]. reflexivity.
        -- rewrite znth_ge; auto. change (zlen [v]) with 1. lia.
Qed.

(** ** One step *)

Definition related (k : nkind) (mulnum : bool) (fields : Z) (s : option arr) (t : option array) : Prop :=
  match s, t with
  | None, None => True
  | Some a, Some l => holds a l /\ a_kind a = k /\ a_fields a = fields /\
      (if mulnum then fits a else a_fields a = 1)
  | _, _ => False
  end.

Lemma step_ok m k mulnum fields s t o :
  related k mulnum fields s t -> typed k mulnum fields o ->
  snd (step m s o) = snd (spec_step t o) /\
  related k mulnum fields (fst (step m s o)) (fst (spec_step t o)).
Proof.
  intros R T. destruct s as [a |], t as [l |]; try contradiction.
  2: { destruct o; cbn; auto. }
  destruct R as (H & K & Fs & M).
  pose proof (h_fields _ _ H) as F1.
  assert (KEEP : forall (A : Type) (x : outcome A) (g : A -> out) (y : outcome out),
    (let! z := x in Ret (g z)) = y -> snd (keep (Some a) x g) = y /\
    related k mulnum fields (fst (keep (Some a) x g)) (Some l)).
  { intros. unfold keep. cbn [fst snd]. split; auto. cbn. auto. }
  assert (PUT : forall (i : Z) (x : arr -> outcome arr) (y : array -> list Z -> array),
    (forall e, znth l i = Some e -> exists a', x a = Ret a' /\ holds a' (y l e) /\
      a_kind a' = a_kind a /\ a_fields a' = a_fields a /\ a_length a' = a_length a) ->
    let sp := match at_index (Some l) i (fun a e => Ret (y a e)) with
              | Ret t' => (Some t', Ret ODone)
              | Die e => (Some l, Die e) | UB => (Some l, UB) | Fuel => (Some l, Fuel) end in
    snd (put (Some a) (checked (Some a) i x)) = snd sp /\
    related k mulnum fields (fst (put (Some a) (checked (Some a) i x))) (fst sp)).
  { intros i x y X. cbn [at_index].
    destruct (znth l i) as [e |] eqn:E.
    - destruct (X e eq_refl) as (a' & Xa & Ha & Ka & Fa & La).
      assert (Q : checked (Some a) i x = Ret a').
      { pose proof (znth_Some _ _ _ E) as I. rewrite (h_len _ _ H) in I. unfold checked.
        destruct (Z.ltb_spec i 0); [lia |]. destruct (Z.leb_spec (a_length a) i); [lia |]. auto. }
      rewrite Q. cbn. split; auto. split; auto. rewrite Ka, Fa. split; auto. split; auto.
      destruct mulnum; [unfold fits in *; rewrite Fa, La; auto | auto].
    - assert (Q : checked (Some a) i x = Die INDEX_OUT_OF_RANGE).
      { unfold checked. destruct (Z.ltb_spec i 0); cbn [orb]; auto.
        destruct (Z.leb_spec (a_length a) i); auto.
        destruct (holds_index _ _ i H) as (e & E2); [lia |]. congruence. }
      rewrite Q. cbn. auto. }
  destruct o; cbn [step spec_step fst typed] in *.
  - (* EGet *) subst mulnum. apply KEEP. unfold get_elem. cbn [snd].
    rewrite (checked_at a l i _ (fun _ e => match znth e 0 with Some v => Ret v | None => UB end) H).
    + cbn [at_index]. destruct (znth l i) as [e |]; auto. unfold number. destruct (znth e 0); reflexivity.
    + intros e E. destruct (get_ok a l i 0 e H E) as (v & V & G); [lia |].
      rewrite V. rewrite <- G. f_equal. nia.
  - (* ESet *) destruct T as (-> & V).
    apply (PUT i (fun a => cell_set a i v) (fun a e => zupd a i (zupd e 0 v))).
    intros e E. rewrite <- K in V. destruct (set_ok a l i 0 e v H E) as (a' & S & X); [lia | auto |].
    exists a'. split; auto. rewrite <- S. f_equal. nia.
  - (* FGet *) destruct T as (-> & T). apply KEEP. unfold get_field. cbn [snd].
    rewrite (checked_at a l i _ (fun _ e => match znth e f with Some v => Ret v | None => UB end) H).
    + cbn [at_index]. destruct (znth l i) as [e |]; auto. unfold number. destruct (znth e f); reflexivity.
    + intros e E. pose proof (znth_Some _ _ _ E) as I. rewrite (h_len _ _ H) in I.
      rewrite slot_ok by (auto; lia). cbn [obind].
      destruct (get_ok a l i f e H E) as (v & V & G); [lia |]. rewrite V. auto.
  - (* FSet *) destruct T as (-> & T & V).
    apply (PUT i (fun a => let! j := slot m a i f in cell_set a j v) (fun a e => zupd a i (zupd e f v))).
    intros e E. pose proof (znth_Some _ _ _ E) as I. rewrite (h_len _ _ H) in I.
    rewrite slot_ok by (auto; lia). cbn [obind]. rewrite <- K in V.
    apply (set_ok a l i f e v H E); [lia | auto].
  - (* AGet *) subst mulnum. apply KEEP. unfold get_all. cbn [snd].
    rewrite (checked_at a l i _ (fun _ e => Ret e) H).
    + cbn [at_index]. destruct (znth l i); reflexivity.
    + intros e E. rewrite (get_all_loop_ok m a l i e H M E) by lia. reflexivity.
  - (* ASet *) destruct T as (-> & Lv & V).
    apply (PUT i (fun a => set_all_loop m a i 0 vs) (fun a e => zupd a i vs)).
    intros e E. rewrite <- K in V.
    destruct (set_all_loop_ok m vs a l i e 0 H M E) as (a' & S & X); auto; try lia.
    exists a'. split; auto.
  - (* Len *) apply KEEP. cbn. rewrite (h_len _ _ H). reflexivity.
Qed.

Lemma run_ok m k mulnum fields os : forall s t,
  related k mulnum fields s t -> Forall (typed k mulnum fields) os ->
  run m s os = spec_run t os.
Proof.
  induction os as [| o os IH]; intros s t R T; [reflexivity |].
  inversion T; subst. destruct (step_ok m k mulnum fields s t o R H1) as (E1 & E2).
  cbn [run spec_run]. destruct (step m s o) as (s', x), (spec_step t o) as (t', y). cbn [fst snd] in *.
  subst. f_equal. eauto.
Qed.

(** ** The theorem *)

(** A new array: [length] elements, all zero. *)
Definition zeros (fields length : Z) : array := zrep length (zrep fields 0).

Lemma u64_id x : 0 <= x < 2 ^ 64 -> u64 x = x.
Proof. intros. unfold u64. apply Z.mod_small. exact H. Qed.

Lemma decode_zeros k n : decode k (zrep n 0) = 0.
Proof.
  assert (Z : le_value (zrep n 0) = 0).
  { unfold zrep. induction (Z.to_nat n); cbn; auto. rewrite IHn0. reflexivity. }
  unfold decode. rewrite Z. destruct k; reflexivity.
Qed.

Lemma kvalue_zero k : kvalue k 0.
Proof. destruct k; cbn; unfold in_i8, in_i16, in_i32, in_i64; lia. Qed.

Lemma zsub_zrep {A} (x : A) n o l : 0 <= o -> 0 <= l -> o + l <= n -> zsub (zrep n x) o l = zrep l x.
Proof.
  intros. apply znth_ext. intros j J. rewrite znth_sub, !znth_rep, Z.max_r by lia.
  destruct (Z.leb_spec 0 j), (Z.ltb_spec j l); cbn [andb]; auto; try lia.
  destruct (Z.leb_spec 0 (o + j)), (Z.ltb_spec (o + j) n); cbn [andb]; auto; lia.
Qed.

Lemma holds_new k fields length size :
  1 <= fields -> 0 <= length -> ksize k * (fields * length) <= size ->
  holds (mk_arr k fields length (zrep size 0)) (zeros fields length).
Proof.
  intros F L S. pose proof (ksize_pos k).
  assert (0 <= size) by nia.
  constructor; cbn [a_kind a_fields a_length a_data]; auto.
  - unfold zeros. rewrite zlen_rep. lia.
  - rewrite zlen_rep. lia.
  - unfold zeros. intros i e E. rewrite znth_rep in E.
    destruct ((0 <=? i) && (i <? length)) eqn:Q; [| discriminate]. injection E as <-.
    apply andb_true_iff in Q. destruct Q as (Q1 & Q2). apply Z.leb_le in Q1. apply Z.ltb_lt in Q2.
    split; [rewrite zlen_rep; lia |]. intros f v V. rewrite znth_rep in V.
    destruct ((0 <=? f) && (f <? fields)) eqn:Q; [| discriminate]. injection V as <-.
    apply andb_true_iff in Q. destruct Q as (Q3 & Q4). apply Z.leb_le in Q3. apply Z.ltb_lt in Q4.
    split; [| apply kvalue_zero]. unfold cell. cbn [a_kind a_data].
    pose proof (slot_range fields length i f ltac:(lia) ltac:(lia)).
    rewrite zsub_zrep by nia. apply decode_zeros.
Qed.

(** Numeric arrays. For every element type, every length, every program of
    element reads, writes and length queries (with any int32 indices), the
    results are those of the abstract sequence: in particular an access
    through undef or out of range throws and changes nothing, and a write
    changes exactly the addressed element. The only restriction: length + 1
    is computed in int32. *)
Theorem C16_numeric_array : forall alloc m k length os,
  0 <= length < INT32_MAX ->
  Forall (typed k false 1) os ->
  match new_numeric_array alloc m k length with
  | Ret s => run m s os = spec_run (Some (zeros 1 length)) os
  | r => r = Die NEW_ARRAY_FAILED
  end.
Proof.
  intros alloc m k length os L T. pose proof (ksize_pos k).
  unfold new_numeric_array. destruct (Z.ltb_spec length 0); [lia |].
  rewrite i32_ok by (unfold in_i32; lia). cbn [obind].
  rewrite (u64_id (length + 1)) by lia. rewrite u64_id by nia.
  unfold new_block. destruct (alloc _); auto.
  apply run_ok with (k := k) (mulnum := false) (fields := 1); auto.
  cbn. split; auto. apply holds_new; nia.
Qed.

(** Undefined arrays. *)
Theorem C16_undef : forall m k mulnum fields os, Forall (typed k mulnum fields) os ->
  run m None os = map (fun _ => Die ARRAY_UNDEFINED) os.
Proof.
  intros m k mulnum fields os T. induction T as [| o os T Ts IH]; [reflexivity |].
  cbn [run map]. destruct o; cbn [step keep put get_elem set_elem get_field set_field get_all set_all
    checked array_length obind]; rewrite IH; reflexivity.
Qed.

(** Multi-numeric arrays, whose size in bytes fits in an int32. *)
Theorem C16_mulnum_array_partial : forall alloc m k fields length os,
  1 <= fields -> 0 <= length -> ksize k * fields * (length + 1) <= INT32_MAX ->
  Forall (typed k true fields) os ->
  match new_mulnum_array alloc m k fields length with
  | Ret s => run m s os = spec_run (Some (zeros fields length)) os
  | r => r = Die NEW_ARRAY_FAILED
  end.
Proof.
  intros alloc m k fields length os F L B T. pose proof (ksize_pos k).
  unfold new_mulnum_array. destruct (Z.ltb_spec length 0); [lia |].
  assert (1 <= ksize k * fields) by nia.
  assert (length + 1 <= ksize k * fields * (length + 1)) by nia.
  rewrite (i32_ok m (ksize k * fields)) by (unfold in_i32; nia). cbn [obind].
  rewrite (i32_ok m (length + 1)) by (unfold in_i32; lia). cbn [obind].
  rewrite i32_ok by (unfold in_i32; lia). cbn [obind]. rewrite u64_id by lia.
  unfold new_block. destruct (alloc _); auto.
  apply run_ok with (k := k) (mulnum := true) (fields := fields); auto.
  cbn. split; [apply holds_new; nia |]. split; auto. split; auto.
  unfold fits. cbn. nia.
Qed.

(** Beyond that the code is wrong: the size of the block is computed in
    int32. A program that creates an array of 2^26 elements of a type with
    four double fields has undefined behaviour; and if the machine wraps, the
    allocation succeeds with an empty block and the first access is out of
    bounds. *)
Theorem C16_mulnum_array_refuted : forall alloc, alloc 0 = true ->
  exists k fields length,
    1 <= fields <= 255 /\ 0 <= length < INT32_MAX /\
    new_mulnum_array alloc Strict k fields length = UB /\
    exists s, new_mulnum_array alloc Wrapping k fields length = Ret s /\
      run Wrapping s [FGet 0 0] = [UB] /\ run Wrapping s [FSet 0 0 1] = [UB].
Proof.
  intros alloc A. exists KDouble, 4, 134217727.
  split; [lia |]. split; [lia |]. split; [reflexivity |].
  unfold new_mulnum_array, new_block, i32.
  change (134217727 <? 0) with false. cbn [obind ksize].
  change (u64 (wrap32 (wrap32 (8 * 4) * wrap32 (134217727 + 1)))) with 0. rewrite A.
  eexists; split; [reflexivity |]. split; reflexivity.
Qed.

(** Likewise [length + 1] for the largest length. *)
Theorem C16_length_refuted : forall alloc k, new_numeric_array alloc Strict k INT32_MAX = UB.
Proof. intros. reflexivity. Qed.

(** Arrays of objects. *)
Theorem C16_object_array : forall isa l index x,
  get_object (Some l) index =
    match znth l index with Some y => Ret y | None => Die INDEX_OUT_OF_RANGE end /\
  set_object isa (Some l) index x =
    match znth l index with
    | None => Die INDEX_OUT_OF_RANGE
    | Some _ => if isa x then Ret (zupd l index x) else Die NOT_ASSIGNABLE
    end /\
  get_object None index = Die ARRAY_UNDEFINED /\ set_object isa None index x = Die ARRAY_UNDEFINED.
Proof.
  intros isa l index x. unfold get_object, set_object.
  assert (E : forall A (a b : A), (if (index <? 0) || (zlen l <=? index) then a else b) =
    match znth l index with None => a | Some _ => b end).
  { intros A a b. destruct (znth l index) as [y |] eqn:E.
    - pose proof (znth_Some _ _ _ E). destruct (Z.ltb_spec index 0); [lia |].
      destruct (Z.leb_spec (zlen l) index); [lia |]. reflexivity.
    - destruct (Z.ltb_spec index 0); cbn [orb]; auto. destruct (Z.leb_spec (zlen l) index); auto.
      destruct (znth_lt l index) as (y & Y); [lia |]. congruence. }
  rewrite !E. destruct (znth l index); auto.
Qed.

(** ** Non-vacuity *)

Example C16_ex : exists s,
  new_numeric_array (fun _ => true) Strict KShort 3 = Ret s /\
  run Strict s [ESet 1 (-2); EGet 0; EGet 1; EGet 2; ESet 3 7; EGet (-1); Len] =
    [Ret ODone; Ret (ONum 0); Ret (ONum (-2)); Ret (ONum 0); Die INDEX_OUT_OF_RANGE;
     Die INDEX_OUT_OF_RANGE; Ret (ONum 3)].
Proof. eexists; split; reflexivity. Qed.

Example C16_mulnum_ex : exists s,
  new_mulnum_array (fun _ => true) Strict KInt 2 3 = Ret s /\
  run Strict s [FSet 1 1 (-5); ASet 2 [8; 9]; AGet 1; FGet 2 0; AGet 0] =
    [Ret ODone; Ret ODone; Ret (OTuple [0; -5]); Ret (ONum 8); Ret (OTuple [0; 0])].
Proof. eexists; split; reflexivity. Qed.

Print Assumptions C16_numeric_array.
Print Assumptions C16_undef.
Print Assumptions C16_mulnum_array_partial.
Print Assumptions C16_mulnum_array_refuted.
Print Assumptions C16_length_refuted.
Print Assumptions C16_object_array.
