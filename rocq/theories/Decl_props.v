(** * C69: the values of enumeration items; C70: version strings *)
From Coq Require Import Lia.
From Verif Require Import Base Decl_model Decl_spec.
Local Open Scope Z_scope.

(** ** Enumerations *)
(** The values by a counter. *)
Fixpoint values (current : Z) (l : list item) : list Z :=
  match l with
  | [] => []
  | i :: l => let v := match written i with Some v => v | None => current end in v :: values (v + 1) l
  end.
Lemma values_length l : forall c, length (values c l) = length l.
Proof. induction l; intros; cbn; auto. Qed.
Lemma values_spec l : forall c n v, nth_error (values c l) n = Some v <->
  exists k i, (k <= n)%nat /\ nth_error l k = Some i /\ (n < length l)%nat /\
    (forall j i', (k < j <= n)%nat -> nth_error l j = Some i' -> written i' = None) /\
    match written i with Some w => v = w + Z.of_nat (n - k) | None => k = O /\ v = c + Z.of_nat n end.
Proof.
  induction l as [| i l IH]; intros c n v; cbn [values].
  - split; [destruct n; discriminate |]. intros (k & i & _ & H & _). destruct k; discriminate.
  - destruct n as [| n]; cbn [nth_error].
    + split.
      * intros H. injection H as <-. exists O, i. split; [lia |]. split; [reflexivity |]. cbn. split; [lia |]. split; [lia |].
        destruct (written i); [lia | split; [reflexivity | lia]].
      * intros (k & i0 & K & H & _ & _ & W). assert (k = O) by lia. subst k. injection H as <-.
        destruct (written i); [f_equal; cbn in W; lia | f_equal; lia].
    + rewrite IH. split.
      * intros (k & i0 & K & H & L & N & W). destruct (written i0) as [w |] eqn:Wi.
        -- exists (S k), i0. split; [lia |]. split; [exact H |]. split; [cbn; lia |]. rewrite Wi. split; [| cbn; exact W].
           intros [| j] i' J E; [lia |]. apply (N j i'); [lia | exact E].
        -- destruct W as (-> & ->). exists O, i. split; [lia |]. split; [reflexivity |]. split; [cbn; lia |]. split.
           { intros [| j] i' J E; [lia |]. change (nth_error l j = Some i') in E. destruct (Nat.eq_dec j 0) as [-> |]; [congruence |]. apply (N j i'); [lia | exact E]. }
           destruct (written i); [rewrite Nat.sub_0_r; lia | split; [reflexivity | lia]].
      * intros (k & i0 & K & H & L & N & W). destruct k as [| k].
        -- injection H as <-. destruct l as [| i1 l1] eqn:El; [cbn in L; lia |].
           exists O, i1. split; [lia |]. split; [reflexivity |]. split; [cbn in *; lia |]. split.
           { intros j i' J E. apply (N (S j) i'); [lia | exact E]. }
           rewrite (N 1%nat i1); [| lia | reflexivity]. split; [reflexivity |].
           destruct (written i); [rewrite Nat.sub_0_r in W; lia | lia].
        -- exists k, i0. split; [lia |]. split; [exact H |]. split; [cbn in L; lia |]. split.
           { intros j i' J E. apply (N (S j) i'); [lia | exact E]. }
           destruct (written i0); [cbn in W; exact W | lia].
Qed.
Definition as_methods (l : list item) (vs : list Z) : list enum_method := map (fun p => Enum (fst (fst p)) (snd p)) (combine l vs).
Lemma build_values l : forall c, all_int l -> Forall (fun v => v < INT32_MAX) (values c l) ->
  exists c', build_items c l = Ret (c', as_methods l (values c l), false).
Proof.
  induction l as [| [x o] l IH]; intros c A F; [eexists; reflexivity |].
  cbn [values] in F |- *. apply Forall_cons_iff in F as (F1 & F).
  assert (A' : all_int l) by (intros y d I; apply (A y d); now right).
  cbn [build_items]. unfold build_item. destruct o as [[v | low] |]; cbn [fst snd written] in *.
  - unfold increment. destruct (Z.eqb_spec v INT32_MAX); [lia |]. cbn [obind]. destruct (IH _ A' F) as (c' & E). rewrite E. cbn [obind].
    eexists. reflexivity.
  - destruct (A x (Other low) (or_introl eq_refl)) as (v & E & _). discriminate.
  - unfold increment. destruct (Z.eqb_spec c INT32_MAX); [lia |]. cbn [obind]. destruct (IH _ A' F) as (c' & E). rewrite E. cbn [obind].
    eexists. reflexivity.
Qed.
Lemma build_error l : forall c r, build_items c l = Ret r -> snd r = false <-> forall x k, In (x, Some k) l -> exists v, k = Int v.
Proof.
  induction l as [| [x o] l IH]; intros c r H; cbn [build_items] in H.
  - injection H as <-. split; [intros _ ? ? [] | reflexivity].
  - destruct (build_item c (x, o)) as [[[c1 m] e] | | |] eqn:E; cbn [obind] in H; try discriminate.
    destruct (build_items c1 l) as [[[c2 ms] e'] | | |] eqn:E2; cbn [obind] in H; try discriminate. injection H as <-. cbn [snd].
    specialize (IH _ _ E2). cbn [snd] in IH. rewrite Bool.orb_false_iff, IH.
    assert (K : e = false <-> forall k, o = Some k -> exists v, k = Int v).
    { unfold build_item in E. cbn [snd fst] in E. destruct o as [[v | low] |]; destruct (increment _); cbn [obind] in E; try discriminate; injection E as <- <- <-.
      - split; [intros _ k [= <-]; eauto | reflexivity].
      - split; [discriminate |]. intros N. destruct (N _ eq_refl). discriminate.
      - split; [discriminate | reflexivity]. }
    rewrite K. split.
    + intros (H1 & H2) y k [[= <- ->] | I]; eauto.
    + intros N. split; [intros k ->; apply (N x k); now left |]. intros y k I. apply (N y k). now right.
Qed.

Lemma as_methods_nth l vs n : length vs = length l ->
  nth_error (as_methods l vs) n = match nth_error l n, nth_error vs n with Some i, Some v => Some (Enum (fst i) v) | _, _ => None end.
Proof.
  revert vs n. induction l as [| i l IH]; intros [| v vs] n L; try discriminate; [destruct n; reflexivity |].
  destruct n; [reflexivity |]. cbn. apply IH. now injection L.
Qed.

(** Each enumeration whose written values are ints and whose values are below the greatest
    int becomes the methods of its names, in order, with the documented values, whatever
    enumerations came before. *)
Theorem C69_values_partial before l after r : all_int l ->
  (forall n v, is_value l n v -> v < INT32_MAX) ->
  build_enumerations 0 (before ++ l :: after) = Ret r ->
  exists ms, nth_error (fst r) (length before) = Some ms /\ length ms = length l /\
    forall n m, nth_error ms n = Some m <->
      exists i, nth_error l n = Some i /\ e_name m = fst i /\ is_value l n (e_value m).
Proof.
  intros A S' H.
  assert (F : Forall (fun v => v < INT32_MAX) (values 0 l)).
  { apply Forall_forall. intros v I. apply In_nth_error in I as (n & I). apply (S' n). apply values_spec in I. exact I. }
  assert (G : forall b r, build_enumerations 0 (b ++ l :: after) = Ret r ->
     nth_error (fst r) (length b) = Some (as_methods l (values 0 l))).
  { clear r H. induction b as [| e b IH]; intros r H; cbn [app build_enumerations] in H.
    - destruct (build_values l 0 A F) as (c' & E). rewrite E in H. cbn [obind] in H.
      destruct (build_enumerations 0 after) as [[mss errs] | | |]; cbn [obind] in H; try discriminate. injection H as <-. reflexivity.
    - destruct (build_items 0 e) as [[[c1 ms1] e1] | | |]; cbn [obind] in H; try discriminate.
      destruct (build_enumerations 0 (b ++ l :: after)) as [[mss errs] | | |] eqn:E; cbn [obind] in H; try discriminate. injection H as <-.
      exact (IH _ eq_refl). }
  exists (as_methods l (values 0 l)). split; [now apply G |].
  split; [unfold as_methods; rewrite map_length, combine_length, values_length; lia |].
  intros n m. rewrite as_methods_nth by apply values_length. split.
  - destruct (nth_error l n) as [i |]; [| discriminate]. destruct (nth_error (values 0 l) n) as [v |] eqn:V; [| discriminate].
    intros [= <-]. exists i. split; [reflexivity |]. split; [reflexivity |]. apply values_spec in V. exact V.
  - intros (i & -> & N & V). apply (proj2 (values_spec l 0 n (e_value m))) in V. rewrite V. destruct m. cbn in *. now rewrite N.
Qed.

(** A compilation accepts its enumerations exactly if every written value is an int. *)
Theorem C69_accepts_partial ls r : build_enumerations 0 ls = Ret r ->
  snd r = false <-> forall l x k, In l ls -> In (x, Some k) l -> exists v, k = Int v.
Proof.
  revert r. induction ls as [| e ls IH]; intros r H; cbn [build_enumerations] in H.
  - injection H as <-. split; [intros _ ? ? ? [] | reflexivity].
  - destruct (build_items 0 e) as [[[c1 ms1] e1] | | |] eqn:E; cbn [obind] in H; try discriminate.
    destruct (build_enumerations 0 ls) as [[mss errs] | | |]; cbn [obind] in H; try discriminate. injection H as <-. cbn [snd].
    specialize (IH _ eq_refl). cbn [snd] in IH. pose proof (build_error _ _ _ E) as B. cbn [snd] in B.
    rewrite Bool.orb_false_iff, IH, B. split.
    + intros (H1 & H2) l x k [<- | I]; eauto.
    + intros N. split; intros; eapply N; cbn; eauto.
Qed.

(** The code is defined if all values are below the greatest int. *)
Theorem C69_defined_partial ls : (forall l, In l ls -> all_int l /\ forall n v, is_value l n v -> v < INT32_MAX) ->
  exists mss, build_enumerations 0 ls = Ret (mss, false).
Proof.
  induction ls as [| l ls IH]; intros H; [eexists; reflexivity |]. cbn [build_enumerations].
  destruct (H l (or_introl eq_refl)) as (A & V).
  assert (F : Forall (fun v => v < INT32_MAX) (values 0 l)).
  { apply Forall_forall. intros v I. apply In_nth_error in I as (n & I). apply (V n). apply values_spec in I. exact I. }
  destruct (build_values l 0 A F) as (c' & E). rewrite E. cbn [obind].
  destruct IH as (mss & ->); [intros l' I; apply H; now right |]. eexists. reflexivity.
Qed.

(** An item with the greatest int: the counter overflows, even if no item follows. *)
Theorem C69_overflow_refuted : exists l, all_int l /\ (forall n v, is_value l n v -> in_i32 v) /\ build_enumerations 0 [l] = UB.
Proof.
  exists [([65], Some (Int INT32_MAX))]. split; [| split; [| reflexivity]].
  - intros x c [[= <- <-] | []]. eexists. split; [reflexivity | unfold in_i32; lia].
  - intros n v H. apply values_spec with (c := 0) in H. destruct n as [| n]; cbn in H; [injection H as <-; unfold in_i32; lia | destruct n; discriminate].
Qed.

(** A call gives the value of the item, for items with different names. *)
Theorem C69_call ms m : NoDup (map e_name ms) -> In m ms -> call_enum ms (e_name m) = Some (e_value m).
Proof.
  induction ms as [| m' ms IH]; intros N I; [destruct I |]. cbn in N. apply NoDup_cons_iff in N as (N1 & N). cbn [call_enum].
  destruct (list_eq_dec Z.eq_dec (e_name m') (e_name m)) as [E |].
  - destruct I as [-> | I]; [reflexivity |]. exfalso. apply N1. rewrite E. now apply in_map.
  - destruct I as [-> | I]; [congruence |]. now apply IH.
Qed.

Example C69_ex : build_enumerations 0 [[([65], None); ([66], Some (Int 5)); ([67], None); ([68], Some (Int 2))]; [([69], None)]]
  = Ret ([[Enum [65] 0; Enum [66] 5; Enum [67] 6; Enum [68] 2]; [Enum [69] 0]], false).
Proof. reflexivity. Qed.
Example C69_ex_call : call_enum [Enum [65] 0; Enum [66] 5] [66] = Some 5.
Proof. reflexivity. Qed.

(** ** Versions *)
Lemma isdigit_spec c : isdigit c = true <-> digit c.
Proof. unfold isdigit, digit. rewrite Bool.andb_true_iff, !Z.leb_le. lia. Qed.
Lemma skip_split l : exists a, l = a ++ skip_digits l /\ Forall digit a /\ (skip_digits l = [] \/ exists c r, skip_digits l = c :: r /\ isdigit c = false).
Proof.
  induction l as [| c l (a & E & F & D)]; [exists []; repeat split; auto |]. cbn [skip_digits]. destruct (isdigit c) eqn:I.
  - exists (c :: a). cbn [app]. rewrite <- E. repeat split; [| exact D]. constructor; [now apply isdigit_spec | exact F].
  - exists []. repeat split; [constructor |]. right. eauto.
Qed.
Lemma skip_app a r : Forall digit a -> (r = [] \/ exists c r', r = c :: r' /\ isdigit c = false) -> skip_digits (a ++ r) = r.
Proof.
  intros F D. induction F as [| c a H F IH]; cbn [app skip_digits].
  - destruct D as [-> | (c & r' & -> & I)]; cbn; [reflexivity | now rewrite I].
  - apply isdigit_spec in H. now rewrite H.
Qed.
Lemma scan_digits a r dots k : Forall digit a -> 0 <= dots ->
  scan (a ++ r) dots k = scan r dots (if 0 <? dots then k + zlen a else k).
Proof.
  intros F. revert k. induction F as [| c a H F IH]; intros k D; cbn [app].
  - unfold zlen. cbn. rewrite Z.add_0_r. now destruct (0 <? dots).
  - cbn [scan]. pose proof H as I. apply isdigit_spec in I. rewrite I. rewrite Bool.orb_true_r. cbn [negb].
    destruct (Z.eqb_spec c 46); [unfold digit in H; lia |]. rewrite Bool.andb_true_r. rewrite IH by exact D.
    destruct (0 <? dots); [| reflexivity]. f_equal. unfold zlen. cbn [length]. lia.
Qed.
Lemma scan_dots l : forall d k d' k', scan l d k = Some (d', k') -> d <= d'.
Proof.
  induction l as [| c l IH]; intros d k d' k' H; cbn [scan] in H; [injection H as <- <-; lia |].
  destruct (negb _); [discriminate |]. apply IH in H. destruct (c =? 46); lia.
Qed.
Lemma last_digit s : byte_at s (zlen s - 1) = match rev s with c :: _ => Ret c | [] => UB end.
Proof.
  unfold byte_at. destruct (rev s) as [| c r] eqn:R.
  - apply (f_equal (@rev Z)) in R. rewrite rev_involutive in R. subst s. reflexivity.
  - apply (f_equal (@rev Z)) in R. rewrite rev_involutive in R. cbn in R. subst s.
    unfold znth, zlen. rewrite app_length. cbn [length].
    destruct (Z.ltb_spec (Z.of_nat (length (rev r) + 1) - 1) 0); [lia |].
    replace (Z.to_nat (Z.of_nat (length (rev r) + 1) - 1)) with (length (rev r)) by lia.
    rewrite <- app_assoc. rewrite nth_error_app2 by lia. now rewrite Nat.sub_diag.
Qed.
Lemma forall_last (b : str) : b <> [] -> Forall digit b -> exists c r, rev b = c :: r /\ isdigit c = true.
Proof.
  intros N F. destruct (rev b) as [| c r] eqn:R; [apply (f_equal (@rev Z)) in R; rewrite rev_involutive in R; elim N; exact R |].
  exists c, r. split; [reflexivity |]. apply isdigit_spec. rewrite Forall_forall in F. apply F. apply in_rev. rewrite R. now left.
Qed.

(** The result for one statement. *)
Lemma statement_spec s : exists r, version_statement None (Some s) = Ret r /\ (version_string s -> r = inl s) /\
  (forall v, r = inl v -> v = s /\ version_string s).
Proof.
  unfold version_statement. destruct (skip_split s) as (a & E & Fa & D).
  assert (Sc : scan s 0 0 = scan (skip_digits s) 0 0) by (rewrite E at 1; rewrite scan_digits by (auto; lia); reflexivity).
  assert (V : version_string s -> a <> [] /\ (skip_digits s = [] \/ exists b, skip_digits s = 46 :: b /\ b <> [] /\ Forall digit b /\ exists k, length b = (3 * k)%nat)).
  { intros (a' & N & F' & [-> | (b & -> & Nb & Fb & Lk)]).
    - assert (Sk : skip_digits a' = []) by (rewrite <- (app_nil_r a'); apply skip_app; auto). rewrite Sk in *. rewrite app_nil_r in E. subst a'. auto.
    - assert (Sk : skip_digits (a' ++ 46 :: b) = 46 :: b) by (apply skip_app; [exact F' | right; eauto]). rewrite Sk in *.
      apply app_inv_tail in E. subst a'. split; [exact N |]. right. eauto. }
  assert (V0 : a <> [] -> skip_digits s = [] -> version_string s).
  { intros N Sk. exists a. repeat split; [exact N | exact Fa |]. left. rewrite E at 1. rewrite Sk. apply app_nil_r. }
  assert (V1 : forall b, a <> [] -> skip_digits s = 46 :: b -> b <> [] -> Forall digit b -> (exists k, length b = (3 * k)%nat) -> version_string s).
  { intros b N Sk Nb Fb Lk. exists a. repeat split; [exact N | exact Fa |]. right. exists b. repeat split; auto. rewrite E at 1. now rewrite Sk. }
  rewrite Sc. rewrite last_digit. unfold strtod_rest.
  assert (H0 : byte_at s 0 = Ret (hd 0 (s ++ [0]))). { unfold byte_at, znth. cbn. destruct s; reflexivity. }
  rewrite H0.
  destruct D as [Sk | (c & r & Sk & I)]; rewrite Sk in *.
  - cbn [scan obind]. rewrite app_nil_r in E. subst a. destruct s as [| c s]; [cbn; eexists; split; [reflexivity |]; split; [intros X; destruct (V X); congruence | discriminate] |].
    cbn [app hd]. pose proof (Forall_inv Fa) as Hc. apply isdigit_spec in Hc. rewrite Hc. cbn [negb].
    destruct (forall_last (c :: s) ltac:(discriminate) Fa) as (c' & r & -> & Hc'). cbn [obind]. rewrite Hc'. cbn.
    eexists. split; [reflexivity |]. split; [reflexivity |]. intros v [= <-]. split; [reflexivity |]. apply V0; [discriminate | reflexivity].
  - cbn [scan]. rewrite I. rewrite Bool.orb_false_r. destruct (Z.eqb_spec c 46) as [-> | Nc]; cbn [negb].
    2:{ eexists. split; [reflexivity |]. split; [| discriminate]. intros X. destruct (V X) as (_ & [K | (b & K & _)]); [discriminate | injection K as -> _; congruence]. }
    rewrite Bool.andb_false_r. change (0 + 1) with 1. destruct (skip_split r) as (b & Eb & Fb & Db). 
    assert (Sb : scan r 1 0 = scan (skip_digits r) 1 (zlen b)) by (rewrite Eb at 1; rewrite scan_digits by (auto; lia); reflexivity).
    cbn iota. rewrite Sb.
    assert (Ha : a <> [] -> isdigit (hd 0 (s ++ [0])) = true).
    { intros N. rewrite E. destruct a as [| c0 a0]; [congruence |]. cbn. apply isdigit_spec. exact (Forall_inv Fa). }
    assert (Ha' : a = [] -> isdigit (hd 0 (s ++ [0])) = false). { intros ->. rewrite E. reflexivity. }
    destruct Db as [Sr | (c2 & r2 & Sr & I2)]; rewrite Sr in *.
    + rewrite app_nil_r in Eb. subst b. cbn [scan obind].
      destruct (isdigit (hd 0 (s ++ [0]))) eqn:Hh; cbn [negb].
      2:{ eexists. split; [reflexivity |]. split; [| discriminate]. intros X. destruct (V X) as (N & _). apply Ha in N. congruence. }
      assert (N : a <> []) by (intros N; apply Ha' in N; congruence).
      assert (R : rev s = rev r ++ 46 :: rev a). { rewrite E at 1. rewrite rev_app_distr. cbn. now rewrite <- app_assoc. }
      rewrite R. destruct r as [| c1 r1] eqn:Er.
      * cbn. eexists. split; [reflexivity |]. split; [| discriminate]. intros X. destruct (V X) as (_ & [K | (b & K & Nb & _)]); [discriminate | injection K as <-; congruence].
      * rewrite <- Er in *. destruct (forall_last r ltac:(congruence) Fb) as (c' & r' & Rr & Hc'). rewrite Rr. cbn [app obind]. rewrite Hc'. cbn [negb].
        change (1 <=? 1) with true. cbn [negb]. change (46 =? 46) with true. cbn iota.
        destruct (Z.eqb_spec (Z.rem (zlen r) 3) 0) as [R3 | R3]; cbn [negb].
        -- eexists. split; [reflexivity |]. split; [reflexivity |]. intros v [= <-]. split; [reflexivity |]. apply (V1 r); auto; [congruence |].
           rewrite Z.rem_mod_nonneg in R3 by (unfold zlen; lia). apply Z.mod_divide in R3; [| lia]. destruct R3 as (k & R3). exists (Z.to_nat k). unfold zlen in R3. lia.
        -- eexists. split; [reflexivity |]. split; [| discriminate]. intros X. destruct (V X) as (_ & [K | (b & K & Nb & _ & k & Lk)]); [discriminate |].
           injection K as <-. exfalso. apply R3. unfold zlen. rewrite Lk. replace (Z.of_nat (3 * k)) with (Z.of_nat k * 3) by lia. apply Z.rem_mul. lia.
    + assert (NV : ~ version_string s).
      { intros X. destruct (V X) as (_ & [K | (b' & K & Nb & Fb' & _)]); [discriminate |]. injection K as <-.
        assert (Sk2 : skip_digits r = []) by (rewrite <- (app_nil_r r); apply skip_app; auto). congruence. }
      destruct (scan (c2 :: r2) 1 (zlen b)) as [[d k] |] eqn:Es.
      2:{ eexists. split; [reflexivity |]. split; [tauto | discriminate]. }
      cbn [scan] in Es. rewrite I2 in Es. rewrite Bool.orb_false_r in Es. destruct (Z.eqb_spec c2 46); cbn [negb] in Es; [| discriminate].
      apply scan_dots in Es. cbn [obind].
      destruct (negb (isdigit (hd 0 (s ++ [0])))); [eexists; split; [reflexivity |]; split; [tauto | discriminate] |].
      assert (Rn : rev s <> []). { intros R. apply (f_equal (@rev Z)) in R. rewrite rev_involutive in R. rewrite R in E. destruct a; discriminate. }
      destruct (rev s) as [| cl rl]; [congruence |]. cbn [obind].
      destruct (negb (isdigit cl)); [eexists; split; [reflexivity |]; split; [tauto | discriminate] |].
      destruct (Z.leb_spec d 1); [lia |]. cbn [negb]. eexists. split; [reflexivity |]. split; [tauto | discriminate].
Qed.

(** The version statements of a class are accepted exactly if there is none, or one with a
    version string, which then is the version of the class. The check is always defined. *)
Theorem C70_accepts l v : version_statements None l = Ret (inl v) <->
  (l = [] /\ v = None) \/ (exists s, l = [Some s] /\ v = Some s /\ version_string s).
Proof.
  destruct l as [| [s |] l]; cbn [version_statements].
  - split; [intros [= <-]; auto | intros [(_ & ->) | (s & H & _)]; [reflexivity | discriminate]].
  - destruct (statement_spec s) as (r & E & A & B). rewrite E. cbn [obind]. destruct r as [s' | e].
    + destruct (B _ eq_refl) as (-> & V). destruct l as [| x l]; cbn [version_statements].
      * split; [intros [= <-]; right; eauto | intros [(K & _) | (s0 & [= <-] & -> & _)]; [discriminate | reflexivity]].
      * cbn. split; [discriminate | intros [(K & _) | (s0 & K & _)]; discriminate].
    + split; [discriminate |]. intros [(K & _) | (s0 & [= <- ->] & _ & V)]; [discriminate |]. specialize (A V). discriminate.
  - split; [discriminate |]. intros [(K & _) | (s & K & _)]; discriminate.
Qed.
Theorem C70_defined l : exists r, version_statements None l = Ret r.
Proof.
  destruct l as [| [s |] l]; cbn [version_statements]; [eexists; reflexivity | | eexists; reflexivity].
  destruct (statement_spec s) as (r & E & _). rewrite E. cbn [obind]. destruct r as [s' | e]; [| eexists; reflexivity].
  destruct l; cbn; eexists; reflexivity.
Qed.
Example C70_ex : version_string [49; 48; 46; 48; 48; 49; 48; 48; 51].
Proof. exists [49; 48]. split; [discriminate |]. split; [repeat constructor; unfold digit; lia |]. right. exists [48; 48; 49; 48; 48; 51].
  repeat split; [discriminate | repeat constructor; unfold digit; lia | exists 2%nat; reflexivity]. Qed.
Example C70_ex_bad : version_statements None [Some [49; 46; 48; 48]] = Ret (inr Digits) /\ version_statements None [Some []] = Ret (inr Begin)
  /\ version_statements None [Some [49]; Some [49]] = Ret (inr Already).
Proof. vm_compute. auto. Qed.

Print Assumptions C69_values_partial.
Print Assumptions C69_accepts_partial.
Print Assumptions C69_defined_partial.
Print Assumptions C69_overflow_refuted.
Print Assumptions C69_call.
Print Assumptions C70_accepts.
Print Assumptions C70_defined.
