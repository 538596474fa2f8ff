(** * Strings: C48 *)

From Verif Require Import Base CLib Str_model Str_spec.

(** ** Lists *)

Lemma nth_error_upd {A} (l : list A) i x j : (i < length l)%nat ->
  nth_error (upd l i x) j = if Nat.eqb i j then Some x else nth_error l j.
Proof.
  revert i j. induction l as [| y l IH]; intros i j L; cbn in L; [lia |].
  destruct i as [| i], j as [| j]; cbn; auto. apply IH. lia.
Qed.
Lemma length_upd {A} (l : list A) i x : length (upd l i x) = length l.
Proof. revert i. induction l; intros [| i]; cbn; auto. Qed.
Lemma upd_ge {A} (l : list A) i x : (length l <= i)%nat -> upd l i x = l.
Proof. revert i. induction l; intros [| i] L; cbn in *; auto; [lia | f_equal; apply IHl; lia]. Qed.
Lemma nth_upd {A} (l : list A) i x j d :
  nth j (upd l i x) d = if Nat.eqb i j && Nat.ltb i (length l) then x else nth j l d.
Proof.
  revert i j. induction l as [| y l IH]; intros i j.
  - destruct i, j; cbn; rewrite ?andb_false_r; auto.
  - destruct i as [| i], j as [| j]; cbn; auto. rewrite IH. reflexivity.
Qed.

(** ** Refinement *)

(** A block holds a value: its first bytes are the value, then a NUL. *)
Definition holds (o : sobj) (a : astr) : Prop :=
  s_length o = zlen (a_value a) /\ s_ro o = a_ro a /\
  exists r, s_block o = a_value a ++ 0 :: r.

Definition small (a : astr) : Prop := zlen (a_value a) < INT32_MAX.

Record R (s : state) (t : astate) : Prop := {
  R_vars : st_vars s = as_vars t;
  R_heap : Forall2 holds (st_heap s) (as_heap t);
  R_small : Forall small (as_heap t)
}.

Lemma Forall2_nth {A B} (P : A -> B -> Prop) l m : Forall2 P l m ->
  forall i, match nth_error l i, nth_error m i with
            | Some a, Some b => P a b
            | None, None => True
            | _, _ => False
            end.
Proof. induction 1; intros [| i]; cbn; auto. apply IHForall2. Qed.

Lemma Forall2_upd {A B} (P : A -> B -> Prop) l m i a b : Forall2 P l m -> P a b -> Forall2 P (upd l i a) (upd m i b).
Proof. intros H. revert i. induction H; intros [| i] Q; cbn; constructor; auto. Qed.
Lemma Forall_upd {A} (P : A -> Prop) l i a : Forall P l -> P a -> Forall P (upd l i a).
Proof. intros H. revert i. induction H; intros [| i] Q; cbn; constructor; auto. Qed.

Lemma Forall2_len {A B} (P : A -> B -> Prop) l m : Forall2 P l m -> length l = length m.
Proof. induction 1; cbn; auto. Qed.

Lemma R_var s t v : R s t -> var s v = avar t v.
Proof. intros H. unfold var, avar. rewrite (R_vars _ _ H). reflexivity. Qed.

Lemma R_obj s t v : R s t ->
  match obj s v, astring t v with
  | Some o, Some a => holds o a /\ small a
  | None, None => True
  | _, _ => False
  end.
Proof.
  intros H. unfold obj, astring. rewrite (R_var _ _ v H). destruct (avar t v) as [i |]; [| exact I].
  pose proof (Forall2_nth _ _ _ (R_heap _ _ H) i) as F.
  destruct (nth_error (st_heap s) i) as [o |], (nth_error (as_heap t) i) as [a |] eqn:E; auto.
  split; auto. apply nth_error_In in E. pose proof (R_small _ _ H) as S. rewrite Forall_forall in S. auto.
Qed.

Lemma R_new s t d o a : R s t -> holds o a -> small a ->
  R (new_in s d o) (mk_astate (upd (as_vars t) d (Some (length (as_heap t)))) (as_heap t ++ [a])).
Proof.
  intros H Ho Ha. constructor; cbn [new_in st_vars st_heap as_vars as_heap].
  - rewrite (R_vars _ _ H). rewrite (Forall2_len _ _ _ (R_heap _ _ H)). reflexivity.
  - apply Forall2_app; [apply (R_heap _ _ H) | auto].
  - apply Forall_app. split; [apply (R_small _ _ H) | auto].
Qed.

Lemma R_set s t d r : R s t -> R (set_var s d r) (abind t d r).
Proof.
  intros H. constructor; cbn [set_var abind st_vars st_heap as_vars as_heap];
    [rewrite (R_vars _ _ H); reflexivity | apply (R_heap _ _ H) | apply (R_small _ _ H)].
Qed.

Lemma R_put s t v o a : R s t -> holds o a -> small a -> R (put s v o) (areplace t v a).
Proof.
  intros H Ho Ha. unfold put, areplace. rewrite (R_var _ _ v H). destruct (avar t v) as [i |]; [| exact H].
  constructor; cbn [st_vars st_heap as_vars as_heap];
    [apply (R_vars _ _ H) | apply Forall2_upd; [apply (R_heap _ _ H) | auto]
    | apply Forall_upd; [apply (R_small _ _ H) | auto]].
Qed.

Lemma holds_new_None n ro : 0 <= n -> holds (mk_sobj (zrep (n + 1) 0) n ro) (mk_astr (zrep n 0) ro).
Proof.
  intros P. split; [| split; [reflexivity |]]; cbn [s_length a_value s_block].
  - rewrite zlen_rep. lia.
  - exists []. unfold zrep. replace (Z.to_nat (n + 1)) with (Z.to_nat n + 1)%nat by lia.
    rewrite repeat_app. reflexivity.
Qed.

Lemma zrep_split n m : 0 <= n -> 0 <= m -> zrep (n + m) 0 = zrep n 0 ++ zrep m 0.
Proof. intros. unfold zrep. rewrite Z2Nat.inj_add by lia. apply repeat_app. Qed.


Lemma step_ok s t x : R s t -> supported t x ->
  snd (step s x) = snd (spec_step t x) /\ R (fst (step s x)) (fst (spec_step t x)).
Proof.
  intros H Su.
  assert (ZL : forall l : list Z, 0 <= zlen l) by (intros; apply zlen_nonneg).
  destruct x as [d bs | d n | d v | d v | d v | d v w | v n | v | v | v | v i | v i b | v];
    cbn [step spec_step supported] in *.
  - unfold new_string. destruct (Z.leb_spec INT32_MAX (zlen bs)); [lia |]. cbn [obind fst snd].
    split; [reflexivity |]. apply R_new; auto. split; [reflexivity |]. split; [reflexivity |].
    exists []. cbn [s_block a_value]. pose proof (ZL bs). zext.
  - destruct (Z.leb_spec 0 n), (Z.ltb_spec n 0); try lia; [| cbn; auto].
    unfold new_string. destruct (Z.leb_spec INT32_MAX n); [lia |]. cbn [obind fst snd].
    split; [reflexivity |]. apply R_new; auto.
    + apply holds_new_None; auto.
    + unfold small. cbn. rewrite zlen_rep. lia.
  - cbn. rewrite (R_var _ _ v H). split; auto. apply R_set; auto.
  - pose proof (R_obj s t v H) as O. rewrite (R_var _ _ v H).
    destruct (obj s v) as [o |], (astring t v) as [[w ro] |]; try contradiction.
    + destruct O as ((_ & Ro & _) & _). cbn [a_ro] in Ro. rewrite Ro. destruct ro; cbn; auto using R_set.
    + cbn; auto using R_set.
  - pose proof (R_obj s t v H) as O.
    destruct (obj s v) as [o |], (astring t v) as [[w ro] |]; try contradiction; [| cbn; auto using R_set].
    destruct O as ((Le & _ & r & Bl) & Sm). unfold small in Sm. cbn [a_value] in *.
    pose proof (ZL w). pose proof (ZL r).
    unfold new_string. destruct (Z.leb_spec INT32_MAX (s_length o)); [lia |]. cbn [obind s_block].
    unfold memcpy. rewrite Bl, Le. rewrite zlen_rep, zlen_app, zlen_cons.
    destruct (Z.leb_spec 0 (zlen w)), (Z.leb_spec (zlen w) (zlen w + (1 + zlen r))),
      (Z.leb_spec (0 + zlen w) (Z.max 0 (zlen w + 1))); try lia. cbn [andb obind fst snd s_length s_ro].
    split; [reflexivity |]. apply R_new; auto.
    split; [reflexivity |]. split; [reflexivity |]. exists []. cbn [s_block a_value]. zext.
  - pose proof (R_obj s t v H) as O. pose proof (R_obj s t w H) as O2.
    destruct (obj s v) as [o |], (astring t v) as [[x1 ro] |]; try contradiction; [| cbn; auto].
    destruct (obj s w) as [o2 |], (astring t w) as [[x2 ro2] |]; try contradiction; [| cbn; auto].
    destruct O as ((Le & _ & r & Bl) & Sm), O2 as ((Le2 & _ & r2 & Bl2) & Sm2).
    specialize (Su _ _ eq_refl eq_refl). unfold small in *. cbn [a_value] in *.
    pose proof (ZL x1). pose proof (ZL x2). pose proof (ZL r). pose proof (ZL r2).
    unfold new_string. rewrite Le, Le2. destruct (Z.leb_spec INT32_MAX (zlen x1 + zlen x2)); [lia |].
    cbn [obind s_block]. unfold memcpy. rewrite Bl, Bl2. rewrite zlen_rep, (zlen_app x1), zlen_cons.
    destruct (Z.leb_spec 0 (zlen x1)), (Z.leb_spec (zlen x1) (zlen x1 + (1 + zlen r))),
      (Z.leb_spec (0 + zlen x1) (Z.max 0 (zlen x1 + zlen x2 + 1))); try lia. cbn [andb obind].
    replace (ztake (zlen x1) (x1 ++ 0 :: r)) with x1 by zext.
    assert (B1 : zblit (zrep (zlen x1 + zlen x2 + 1) 0) 0 x1 = x1 ++ zrep (zlen x2 + 1) 0) by zext.
    rewrite B1. rewrite !zlen_app, zlen_cons, zlen_rep.
    destruct (Z.leb_spec 0 (zlen x2)), (Z.leb_spec (zlen x2) (zlen x2 + (1 + zlen r2))),
      (Z.leb_spec (zlen x1 + zlen x2) (zlen x1 + Z.max 0 (zlen x2 + 1))); try lia.
    cbn [andb obind fst snd s_length s_ro].
    split; [reflexivity |]. unfold afresh. apply R_new; auto.
    + split; [cbn; rewrite zlen_app; reflexivity |]. split; [reflexivity |].
      exists []. cbn [s_block a_value]. zext.
    + unfold small. cbn. rewrite zlen_app. lia.
  - pose proof (R_obj s t v H) as O.
    destruct (obj s v) as [o |], (astring t v) as [[w ro] |]; try contradiction; [| cbn; auto].
    destruct O as ((Le & Ro & r & Bl) & Sm). unfold small in Sm. cbn [a_value a_ro] in *. rewrite Ro.
    destruct ro; [cbn; auto |]. rewrite Le, Bl.
    destruct (Z.leb_spec 0 n); cbn [negb andb]; [| cbn; auto].
    destruct (Z.ltb_spec n (zlen w)); cbn [negb andb]; [| cbn; auto].
    pose proof (ZL r). rewrite zlen_app, zlen_cons.
    destruct (Z.leb_spec (zlen w) (zlen w + (1 + zlen r))); [| lia]. cbn [fst snd].
    split; auto. apply R_put; auto.
    + split; [cbn; rewrite zlen_take; lia |]. split; [reflexivity |].
      exists (zrep (zlen w - n - 1) 0 ++ 0 :: r). cbn [s_block a_value]. zext.
    + unfold small. cbn. rewrite zlen_take. lia.
  - pose proof (R_obj s t v H) as O.
    destruct (obj s v) as [o |], (astring t v) as [[w ro] |]; try contradiction.
    destruct O as ((Le & Ro & r & Bl) & Sm). cbn [fst snd]. split; auto. apply R_put; auto.
    split; [exact Le |]. split; [reflexivity |]. exists r. exact Bl.
  - pose proof (R_obj s t v H) as O.
    destruct (obj s v) as [o |], (astring t v) as [[w ro] |]; try contradiction; [| cbn; auto].
    destruct O as ((Le & Ro & r & Bl) & Sm). cbn [a_ro fst snd] in *. rewrite Ro. auto.
  - pose proof (R_obj s t v H) as O.
    destruct (obj s v) as [o |], (astring t v) as [[w ro] |]; try contradiction; [| cbn; auto].
    destruct O as ((Le & Ro & r & Bl) & Sm). cbn [a_value fst snd] in *. rewrite Le. auto.
  - pose proof (R_obj s t v H) as O.
    destruct (obj s v) as [o |], (astring t v) as [[w ro] |]; try contradiction; [| cbn; auto].
    destruct O as ((Le & Ro & r & Bl) & Sm). cbn [a_value fst snd] in *. split; auto. rewrite Le, Bl, znth_app.
    destruct (Z.ltb_spec i 0); cbn [orb].
    + rewrite znth_neg by lia. reflexivity.
    + destruct (Z.leb_spec (zlen w) i).
      * rewrite znth_ge by lia. reflexivity.
      * destruct (Z.ltb_spec i (zlen w)); [| lia].
        destruct (znth_lt w i ltac:(lia)) as (y & ->). reflexivity.
  - pose proof (R_obj s t v H) as O.
    destruct (obj s v) as [o |], (astring t v) as [[w ro] |]; try contradiction; [| cbn; auto].
    destruct O as ((Le & Ro & r & Bl) & Sm). unfold small in Sm. cbn [a_value a_ro fst snd] in *. rewrite Le, Bl.
    pose proof (ZL r).
    destruct (Z.ltb_spec i 0); cbn [orb].
    + rewrite znth_neg by lia. cbn; auto.
    + destruct (Z.leb_spec (zlen w) i).
      * rewrite znth_ge by lia. cbn; auto.
      * destruct (znth_lt w i ltac:(lia)) as (y & ->).
        rewrite zlen_app, zlen_cons. destruct (Z.ltb_spec i (zlen w + (1 + zlen r))); [| lia].
        cbn [fst snd]. split; auto. apply R_put; auto.
        -- split; [cbn; rewrite zlen_upd; reflexivity |]. split; [exact Ro |]. exists r. cbn [s_block a_value].
           zext.
        -- unfold small. cbn. rewrite zlen_upd. lia.
  - pose proof (R_obj s t v H) as O.
    destruct (obj s v) as [o |], (astring t v) as [[w ro] |]; try contradiction; [| cbn; auto].
    destruct O as ((Le & Ro & r & Bl) & Sm). cbn [a_value fst snd] in *. split; auto. rewrite Bl.
    unfold c_str_at. pose proof (ZL (w ++ 0 :: r)). destruct (Z.leb_spec 0 (zlen (w ++ 0 :: r))); [| lia].
    cbn [andb Z.leb Z.compare]. rewrite zdrop_0, c_str_scan_nul by lia. reflexivity.
Qed.

Lemma R_init n : R (init n) (ainit n).
Proof. constructor; cbn; auto. Qed.

Lemma run_ok xs : forall s t, R s t -> supported_run t xs -> run s xs = spec_run t xs.
Proof.
  induction xs as [| x xs IH]; intros s t H S; [reflexivity |]. destruct S as (S1 & S2).
  destruct (step_ok s t x H S1) as (E & H'). cbn [run spec_run].
  destruct (step s x), (spec_step t x). cbn [fst snd] in *. subst. f_equal. auto.
Qed.

(** Any program on any number of variables: every read, length, element
    access and every native read up to the terminator gives what the abstract
    strings say; no access leaves a block. *)
Theorem C48_strings : forall n xs, supported_run (ainit n) xs -> run (init n) xs = spec_run (ainit n) xs.
Proof. intros n xs S. apply run_ok; auto using R_init. Qed.

(** What shorten does: a smaller length keeps the prefix of that length and
    the terminator follows it; any other length, a read-only string and undef
    change nothing at all. *)
Theorem C48_shorten : forall n xs v k, supported_run (ainit n) xs ->
  forall a, astring (spec_state (ainit n) xs) v = Some a ->
  (forall b, In b (a_value a) -> b <> 0) ->
  run (init n) (xs ++ [Shorten v k; Length v; CStr v]) =
  run (init n) xs ++
    (if negb (a_ro a) && (0 <=? k) && (k <? zlen (a_value a))
     then [Ret Done; Ret (Num k); Ret (Bytes (ztake k (a_value a)))]
     else [Ret Done; Ret (Num (zlen (a_value a))); Ret (Bytes (a_value a))]).
Proof.
  intros n xs v k S a A NZ.
  assert (Sr : forall xs t ys, supported_run t xs -> (supported_run (spec_state t xs) ys) ->
    supported_run t (xs ++ ys) /\ spec_run t (xs ++ ys) = spec_run t xs ++ spec_run (spec_state t xs) ys).
  { clear. induction xs as [| x xs IH]; intros t ys S1 S2; [auto |]. destruct S1 as (S1 & S3).
    cbn [app supported_run spec_run spec_state] in *. destruct (IH _ _ S3 S2) as (P & Q).
    destruct (spec_step t x) as (t', y). cbn [fst] in *. rewrite Q. auto. }
  rewrite !C48_strings; auto.
  2: { apply Sr; cbn; auto. }
  destruct (Sr xs (ainit n) [Shorten v k; Length v; CStr v] S ltac:(cbn; auto)) as (_ & ->).
  f_equal. set (t := spec_state (ainit n) xs) in *. destruct a as (w & ro). cbn [a_value a_ro] in *.
  assert (Cs : forall l : list Z, (forall b, In b l -> b <> 0) -> c_str l = l).
  { induction l as [| b l IHl]; intros N; [reflexivity |]. cbn [c_str].
    destruct (Z.eqb_spec b 0) as [E | _]; [exfalso; apply (N b); cbn; auto |]. f_equal. apply IHl.
    intros; apply N; cbn; auto. }
  assert (Same : snd (spec_step t (Length v)) = Ret (Num (zlen w)) /\ snd (spec_step t (CStr v)) = Ret (Bytes w)).
  { cbn. rewrite A. cbn. rewrite Cs by auto. auto. }
  destruct Same as (Sa & Sb). cbn [snd spec_step] in Sa, Sb.
  cbn [spec_run spec_step]. rewrite A. destruct ro; cbn [negb andb].
  { rewrite Sa, Sb. reflexivity. }
  destruct (Z.leb_spec 0 k); cbn [andb]; [| rewrite Sa, Sb; reflexivity].
  destruct (Z.ltb_spec k (zlen w)); cbn [andb]; [| rewrite Sa, Sb; reflexivity].
  assert (A' : astring (areplace t v (mk_astr (ztake k w) false)) v = Some (mk_astr (ztake k w) false)).
  { unfold astring, areplace, avar in *. destruct (nth v (as_vars t) None) as [i |] eqn:V; [| discriminate].
    cbn [as_vars as_heap]. rewrite V. rewrite nth_error_upd, Nat.eqb_refl; auto.
    apply nth_error_Some. congruence. }
  rewrite A'. cbn [a_value]. rewrite zlen_take, Cs.
  - repeat f_equal. lia.
  - intros b B. apply NZ. rewrite <- (firstn_skipn (Z.to_nat k) w). apply in_or_app. left. exact B.
Qed.

(** ** Read-only strings *)

(** A string is frozen when it is read-only and no variable of type mutable
    string refers to it. *)
Definition frozen (mut : nat -> bool) (t : astate) (i : nat) (w : list Z) : Prop :=
  nth_error (as_heap t) i = Some (mk_astr w true) /\
  forall v, avar t v = Some i -> mut v = false.

Lemma frozen_step mut t x i w : frozen mut t i w -> typed mut x -> frozen mut (fst (spec_step t x)) i w.
Proof.
  intros (Hi & Hv) T.
  assert (Lt : (i < length (as_heap t))%nat) by (apply nth_error_Some; congruence).
  assert (Fresh : forall d u ro, frozen mut (afresh t d u ro) i w).
  { intros d u ro. split; cbn [afresh as_heap].
    - rewrite nth_error_app1 by auto. exact Hi.
    - intros v. unfold avar, afresh. cbn [as_vars]. rewrite nth_upd.
      destruct (Nat.eqb d v && Nat.ltb d (length (as_vars t))); [intros [= E]; lia | apply Hv]. }
  assert (Bind : forall d r, (forall j, r = Some j -> j = i -> mut d = false) -> frozen mut (abind t d r) i w).
  { intros d r Hr. split; [exact Hi |]. intros v. unfold avar, abind. cbn [as_vars]. rewrite nth_upd.
    destruct (Nat.eqb_spec d v) as [<- |]; cbn [andb]; [| apply Hv].
    destruct (Nat.ltb d (length (as_vars t))); [intros E; eapply Hr; eauto | apply Hv]. }
  assert (Repl : forall v a, (forall b, astring t v = Some b -> avar t v = Some i -> a = mk_astr w true) ->
    frozen mut (areplace t v a) i w).
  { intros v a Ha. unfold areplace. destruct (avar t v) as [j |] eqn:V; [| split; auto].
    split; cbn [as_heap].
    - destruct (Nat.ltb_spec j (length (as_heap t))).
      + rewrite nth_error_upd by auto. destruct (Nat.eqb_spec j i) as [-> |]; auto. f_equal.
        eapply (Ha (mk_astr w true)); auto. unfold astring. rewrite V. auto.
      + rewrite upd_ge by auto. auto.
    - intros u. unfold avar. cbn [as_vars]. apply Hv. }
  destruct x as [d bs | d n | d v | d v | d v | d v u | v n | v | v | v | v k | v k b | v];
    cbn [spec_step typed] in *; try (split; assumption).
  - apply Fresh.
  - destruct (n <? 0); [split; assumption | apply Fresh].
  - apply Bind. intros j E ->. destruct (mut d) eqn:M; auto. apply Hv in E. rewrite T in E by auto. discriminate.
  - destruct (astring t v) as [[u ro] |] eqn:A.
    + destruct ro; [split; assumption |]. apply Bind. intros j E ->. exfalso.
      unfold astring in A. rewrite E in A. congruence.
    + apply Bind. intros j E ->. exfalso. unfold astring in A. rewrite E in A. congruence.
  - destruct (astring t v); [apply Fresh | apply Bind; discriminate].
  - destruct (astring t v), (astring t u); try (split; assumption). apply Fresh.
  - destruct (astring t v) as [[u ro] |] eqn:A; [| split; assumption]. destruct ro; [split; assumption |].
    destruct ((0 <=? n) && (n <? zlen u)); [| split; assumption]. apply Repl. intros b B E. exfalso.
    unfold astring in A. rewrite E in A. congruence.
  - destruct (astring t v) as [[u ro] |] eqn:A; [| split; assumption]. apply Repl. intros b B E.
    unfold astring in A. rewrite E in A. rewrite Hi in A. injection A as <- <-. reflexivity.
  - destruct (astring t v) as [[u ro] |] eqn:A; [| split; assumption].
    destruct (znth (a_value (mk_astr u ro)) k); [| split; assumption]. apply Repl. intros b2 B E.
    apply Hv in E. congruence.
Qed.

Lemma frozen_run mut i w xs : forall t, frozen mut t i w -> Forall (typed mut) xs -> frozen mut (spec_state t xs) i w.
Proof.
  induction xs as [| x xs IH]; intros t F T; [exact F |]. inversion T; subst. cbn [spec_state].
  apply IH; auto. apply frozen_step; auto.
Qed.

Lemma var_kept v xs : forall t, (forall x, In x xs -> target x <> Some v) ->
  avar (spec_state t xs) v = avar t v.
Proof.
  induction xs as [| x xs IH]; intros t H; [reflexivity |]. cbn [spec_state].
  rewrite IH by (intros; apply H; cbn; auto).
  assert (T : target x <> Some v) by (apply H; cbn; auto). clear H IH.
  assert (B : forall (d : nat) (r : option nat), d <> v -> nth v (upd (as_vars t) d r) None = avar t v).
  { intros d r N. rewrite nth_upd. destruct (Nat.eqb_spec d v); [contradiction |]. reflexivity. }
  assert (Rp : forall u a, avar (areplace t u a) v = avar t v).
  { intros u a. unfold areplace. destruct (avar t u); reflexivity. }
  destruct x as [d bs | d n | d s | d s | d s | d s u | s n | s | s | s | s k | s k b | s];
    cbn [spec_step target] in *; try reflexivity;
    try (assert (d <> v) by congruence);
    repeat match goal with
    | |- context [match ?e with _ => _ end] => destruct e
    end; cbn [fst afresh abind]; try reflexivity; try apply Rp; apply B; auto.
Qed.

(** Once a string is read-only and no mutable variable refers to it, it stays
    exactly as it is, whatever well-typed program follows; in particular a
    string literal never changes. *)
Theorem C48_read_only : forall mut n xs ys v w,
  Forall (typed mut) (xs ++ ys) -> supported_run (ainit n) (xs ++ ys) ->
  let t := spec_state (ainit n) xs in
  astring t v = Some (mk_astr w true) ->
  (forall u, avar t u = avar t v -> mut u = false) ->
  (forall y, In y ys -> target y <> Some v) ->
  forall i, nth (length (xs ++ ys)) (run (init n) ((xs ++ ys) ++ [Get v i])) UB =
    match znth w i with Some b => Ret (Num (wrap8 b)) | None => Die INDEX_OUT_OF_RANGE end.
Proof.
  intros mut n xs ys v w T S t A M K i.
  assert (Sa : forall xs t ys, supported_run t xs -> supported_run (spec_state t xs) ys -> supported_run t (xs ++ ys)).
  { clear. induction xs as [| x xs IH]; intros t ys S1 S2; [auto |]. destruct S1. split; cbn; auto. }
  rewrite C48_strings by (apply Sa; [auto | cbn; auto]).
  assert (L : forall xs t y, nth (length xs) (spec_run t (xs ++ [y])) UB = snd (spec_step (spec_state t xs) y)).
  { clear. induction xs as [| x xs IH]; intros t y; cbn [app spec_run spec_state length].
    - destruct (spec_step t y). reflexivity.
    - specialize (IH (fst (spec_step t x)) y). destruct (spec_step t x) as (t', o). cbn [nth fst] in *. exact IH. }
  rewrite L.
  assert (Sp : forall xs t ys, spec_state t (xs ++ ys) = spec_state (spec_state t xs) ys).
  { clear. induction xs; intros t ys; cbn; auto. }
  rewrite Sp. fold t. apply Forall_app in T. destruct T as (_ & Ty).
  unfold astring in A. destruct (avar t v) as [j |] eqn:V; [| discriminate].
  assert (F : frozen mut t j w).
  { split; auto. }
  pose proof (frozen_run mut j w ys t F Ty) as (F1 & _).
  cbn [spec_step snd]. unfold astring. rewrite var_kept by auto. rewrite V, F1. reflexivity.
Qed.

Theorem C48_literal : forall mut n xs v w ys, (v < n)%nat ->
  Forall (typed mut) (xs ++ Lit v w :: ys) -> supported_run (ainit n) (xs ++ Lit v w :: ys) ->
  (forall y, In y ys -> target y <> Some v) ->
  forall i, nth (length (xs ++ Lit v w :: ys)) (run (init n) ((xs ++ Lit v w :: ys) ++ [Get v i])) UB =
    match znth w i with Some b => Ret (Num (wrap8 b)) | None => Die INDEX_OUT_OF_RANGE end.
Proof.
  intros mut n xs v w ys Lt T S K i.
  replace (xs ++ Lit v w :: ys) with ((xs ++ [Lit v w]) ++ ys) in * by (rewrite <- app_assoc; reflexivity).
  assert (Sp : forall xs t ys, spec_state t (xs ++ ys) = spec_state (spec_state t xs) ys).
  { clear. induction xs; intros t ys; cbn; auto. }
  assert (Len : forall xs t, length (as_vars (spec_state t xs)) = length (as_vars t)).
  { clear. induction xs as [| x xs IH]; intros t; [reflexivity |]. cbn [spec_state]. rewrite IH.
    destruct x; cbn [spec_step]; unfold areplace;
      repeat match goal with |- context [match ?e with _ => _ end] => destruct e end;
      cbn [fst afresh abind as_vars]; rewrite ?length_upd; auto. }
  assert (Bd : forall xs t, (forall u j, avar t u = Some j -> (j < length (as_heap t))%nat) ->
     forall u j, avar (spec_state t xs) u = Some j -> (j < length (as_heap (spec_state t xs)))%nat).
  { clear. induction xs as [| x xs IH]; intros t H; [exact H |]. cbn [spec_state]. apply IH. clear IH xs.
    assert (Fr : forall d v ro u j, avar (afresh t d v ro) u = Some j -> (j < length (as_heap (afresh t d v ro)))%nat).
    { intros d v ro u j. unfold avar, afresh. cbn [as_vars as_heap]. rewrite nth_upd, app_length. cbn [length].
      destruct (_ && _); [intros [= <-]; lia | intros E; apply H in E; lia]. }
    assert (Bi : forall d r u j, (forall k, r = Some k -> (k < length (as_heap t))%nat) ->
      avar (abind t d r) u = Some j -> (j < length (as_heap (abind t d r)))%nat).
    { intros d r u j Hr. unfold avar, abind. cbn [as_vars as_heap]. rewrite nth_upd.
      destruct (_ && _); [apply Hr | apply H]. }
    assert (Re : forall v a u j, avar (areplace t v a) u = Some j -> (j < length (as_heap (areplace t v a)))%nat).
    { intros v a u j. unfold areplace. destruct (avar t v); [| apply H]. cbn [as_heap]. rewrite length_upd.
      unfold avar. cbn [as_vars]. apply H. }
    intros u j. destruct x as [d bs | d n | d s | d s | d s | d s q | s n | s | s | s | s k | s k b | s]; cbn [spec_step];
      repeat match goal with |- context [match ?e with _ => _ end] => destruct e eqn:? end; cbn [fst];
      try apply Fr; try apply Re; try apply H; try (apply Bi; intros k'; first [apply H | discriminate]). }
  set (t0 := spec_state (ainit n) xs).
  assert (V : avar (spec_state (ainit n) (xs ++ [Lit v w])) v = Some (length (as_heap t0))).
  { rewrite Sp. fold t0. cbn [spec_state spec_step fst]. unfold avar, afresh. cbn [as_vars].
    rewrite nth_upd, Nat.eqb_refl. unfold t0. rewrite Len. cbn [ainit as_vars]. rewrite repeat_length.
    apply Nat.ltb_lt in Lt. rewrite Lt. reflexivity. }
  eapply (C48_read_only mut n (xs ++ [Lit v w]) ys v w); auto.
  - unfold astring. rewrite V. rewrite Sp. fold t0. cbn [spec_state spec_step fst afresh as_heap].
    rewrite nth_error_app2, Nat.sub_diag by lia. reflexivity.
  - intros u. rewrite V. rewrite Sp. fold t0. cbn [spec_state spec_step fst]. unfold avar, afresh. cbn [as_vars].
    rewrite nth_upd. destruct (Nat.eqb_spec v u) as [<- |]; cbn [andb].
    + intros _. apply Forall_app in T. destruct T as (T & _). apply Forall_app in T. destruct T as (_ & T).
      inversion T; subst. assumption.
    + intros E. exfalso. apply (Bd xs (ainit n)) in E; [fold t0 in E; lia |].
      intros u' j E'. unfold avar, ainit in E'. cbn in E'. exfalso. revert E'. clear. revert u'.
      induction n; intros [| u']; cbn; try discriminate. apply IHn.
Qed.

(** make_read_only does not stop a mutable variable that already refers to
    the string: element assignment does not look at the flag. *)
Theorem C48_read_only_refuted : exists mut n xs v w,
  Forall (typed mut) xs /\ supported_run (ainit n) xs /\
  astring (spec_state (ainit n) xs) v = Some (mk_astr w true) /\
  exists u i b, typed mut (Set_ u i b) /\
    run (init n) (xs ++ [Get v i; Set_ u i b; Get v i]) =
    run (init n) xs ++ [Ret (Num 0); Ret Done; Ret (Num 65)].
Proof.
  exists (fun v => Nat.eqb v 1), 2%nat, [NewLen 0 1; Cast 1 0; MakeReadOnly 0], 0%nat, [0].
  split; [repeat constructor |]. split; [repeat split; cbn; try lia; discriminate |].
  split; [reflexivity |]. exists 1%nat, 0, 65. split; [reflexivity |]. reflexivity.
Qed.

(** make_read_only of undef reads through a null pointer. *)
Theorem C48_make_read_only_undef_refuted : run (init 1) [MakeReadOnly 0] = [UB].
Proof. reflexivity. Qed.

Example C48_ex :
  run (init 3) [Lit 0 [65; 66; 67]; Cast 1 0; Copy 2 0; Cast 1 2; Set_ 1 1 88; Shorten 1 2; CStr 2; CStr 0; Get 0 2;
                Shorten 0 1; Length 0; Get 1 2] =
  [Ret Done; Die READ_ONLY_TO_MUTABLE; Ret Done; Ret Done; Ret Done; Ret Done; Ret (Bytes [65; 88]);
   Ret (Bytes [65; 66; 67]); Ret (Num 67); Ret Done; Ret (Num 3); Die INDEX_OUT_OF_RANGE] /\
  supported_run (ainit 3) [Lit 0 [65; 66; 67]; Cast 1 0; Copy 2 0; Cast 1 2; Set_ 1 1 88; Shorten 1 2; CStr 2] /\
  Forall (typed (fun v => Nat.eqb v 1)) [Lit 0 [65; 66; 67]; Cast 1 0; Copy 2 0; Cast 1 2; Set_ 1 1 88; Shorten 1 2].
Proof. split; [reflexivity |]. split; [repeat split; cbn; lia |]. repeat constructor; cbn; discriminate. Qed.

Print Assumptions C48_strings.
Print Assumptions C48_shorten.
Print Assumptions C48_read_only.
Print Assumptions C48_literal.
Print Assumptions C48_read_only_refuted.
Print Assumptions C48_make_read_only_undef_refuted.
