(** * Immutable lists: invariant *)
From Verif Require Import Base Immutable_model Immutable_spec.
Local Open Scope Z_scope.

Lemma set_nth_same {A} (l : list A) : forall n x, (n < length l)%nat -> nth_error (set_nth l n x) n = Some x.
Proof. induction l as [| y l IH]; intros [| n] x L; cbn in *; try lia; [reflexivity |]. apply IH. lia. Qed.
Lemma set_nth_other {A} (l : list A) : forall n m x, n <> m -> nth_error (set_nth l n x) m = nth_error l m.
Proof. induction l as [| y l IH]; intros [| n] [| m] x N; cbn; try reflexivity; [congruence |]. apply IH. congruence. Qed.
Lemma set_nth_length {A} (l : list A) : forall n x, length (set_nth l n x) = length l.
Proof. induction l as [| y l IH]; intros [| n] x; cbn; auto. Qed.
Lemma nth_error_app_old {A} (l l' : list A) n x : nth_error l n = Some x -> nth_error (l ++ l') n = Some x.
Proof. intros H. rewrite nth_error_app1; [exact H |]. apply nth_error_Some. congruence. Qed.
Lemma nth_error_snoc {A} (l : list A) x : nth_error (l ++ [x]) (length l) = Some x.
Proof. rewrite nth_error_app2, Nat.sub_diag by lia. reflexivity. Qed.
Lemma nth_error_snoc_inv {A} (l : list A) x n y : nth_error (l ++ [x]) n = Some y -> nth_error l n = Some y \/ (n = length l /\ y = x).
Proof.
  intros H. destruct (Nat.lt_ge_cases n (length l)) as [L | L]; [rewrite nth_error_app1 in H by lia; auto |]. rewrite nth_error_app2 in H by lia.
  destruct (n - length l)%nat as [| m] eqn:E; cbn in H; [right; split; [lia | congruence] |]. destruct m; discriminate.
Qed.
Lemma nth_error_lt {A} (l : list A) n x : nth_error l n = Some x -> (n < length l)%nat.
Proof. intros H. apply nth_error_Some. congruence. Qed.

(** Values the client may hold: not the array of a list, no string of a list as mutable. *)
Definition ok (s : state) (v : value) : Prop :=
  match v with
  | VNums (Some a) => (a < length (nums s))%nat /\ forall k len, nth_error (nlists s) k <> Some (len, a)
  | VStrs (Some a) => (a < length (strs s))%nat /\ forall k len, nth_error (slists s) k <> Some (len, a)
  | VMutable q => (q < length (strings s))%nat /\ forall k len a l, nth_error (slists s) k = Some (len, a) -> nth_error (strs s) a = Some l -> ~ In (Some q) l
  | _ => True
  end.
Definition frozen (s : state) (q : option nat) : Prop := match q with Some q => exists b, nth_error (strings s) q = Some (b, true) | None => True end.
Record inv (s : state) : Prop := {
  inv_ok : Forall (ok s) (regs s);
  inv_n : forall k len a, nth_error (nlists s) k = Some (len, a) -> exists l, nth_error (nums s) a = Some l /\ zlen l = len;
  inv_s : forall k len a, nth_error (slists s) k = Some (len, a) -> exists l, nth_error (strs s) a = Some l /\ zlen l = len /\ Forall (frozen s) l }.

(** What no operation changes. *)
Record keep (s s' : state) : Prop := {
  keep_r : forall r v, nth_error (regs s) r = Some v -> nth_error (regs s') r = Some v;
  keep_n : forall k e, nth_error (nlists s) k = Some e -> nth_error (nlists s') k = Some e;
  keep_s : forall k e, nth_error (slists s) k = Some e -> nth_error (slists s') k = Some e;
  keep_nc : forall k len a l, nth_error (nlists s) k = Some (len, a) -> nth_error (nums s) a = Some l -> nth_error (nums s') a = Some l;
  keep_sc : forall k len a l, nth_error (slists s) k = Some (len, a) -> nth_error (strs s) a = Some l -> nth_error (strs s') a = Some l;
  keep_t : forall k len a l q b, nth_error (slists s) k = Some (len, a) -> nth_error (strs s) a = Some l -> In (Some q) l ->
    nth_error (strings s) q = Some (b, true) -> nth_error (strings s') q = Some (b, true) }.
Lemma keep_refl s : keep s s.
Proof. constructor; auto. Qed.
Lemma keep_trans s s1 s2 : keep s s1 -> keep s1 s2 -> keep s s2.
Proof.
  intros [A1 A2 A3 A4 A5 A6] [B1 B2 B3 B4 B5 B6]. constructor; eauto.
Qed.

Definition good (s s' : state) : Prop := inv s' /\ keep s s'.
Lemma good_trans s s1 s2 : good s s1 -> good s1 s2 -> good s s2.
Proof. intros [_ K1] [I K2]. split; [exact I | eauto using keep_trans]. Qed.

Lemma push_good v s : inv s -> ok s v -> good s (push v s).
Proof.
  intros [I1 I2 I3] O. split.
  - constructor; cbn; auto. apply Forall_app. split; [exact I1 | repeat constructor; exact O].
  - constructor; cbn; auto. intros r w H. now apply nth_error_app_old.
Qed.
Lemma add_nums_good l s : inv s -> good s (add_nums l s).
Proof.
  intros [I1 I2 I3]. split.
  - constructor; cbn; auto.
    + eapply Forall_impl; [| exact I1]. intros [| | | | [a |] | [a |] | |]; cbn; auto. rewrite app_length. intros [L H]. split; [lia | exact H].
    + intros k len a H. destruct (I2 _ _ _ H) as (l' & H1 & H2). exists l'. split; [now apply nth_error_app_old | exact H2].
  - constructor; cbn; auto. intros. now apply nth_error_app_old.
Qed.
Lemma add_strs_good l s : inv s -> good s (add_strs l s).
Proof.
  intros [I1 I2 I3]. split.
  - constructor; cbn; auto.
    + eapply Forall_impl; [| exact I1]. intros [| | | q | [a |] | [a |] | |]; cbn; auto.
      * intros [L H]. split; [exact L |]. intros k len a l' K S0. destruct (I3 _ _ _ K) as (l0 & H1 & _). apply (H k len a l' K). rewrite (nth_error_app_old _ [l] _ _ H1) in S0. congruence.
      * rewrite app_length. intros [L H]. split; [lia | exact H].
    + intros k len a H. destruct (I3 _ _ _ H) as (l' & H1 & H2). exists l'. split; [now apply nth_error_app_old | exact H2].
  - constructor; cbn; auto. intros. now apply nth_error_app_old.
Qed.
Lemma set_nums_good a l s : inv s -> In (VNums (Some a)) (regs s) -> good s (set_nums a l s).
Proof.
  intros [I1 I2 I3] H. pose proof (proj1 (Forall_forall _ _) I1 _ H) as (L & N).
  assert (K : forall k len b, nth_error (nlists s) k = Some (len, b) -> nth_error (set_nth (nums s) a l) b = nth_error (nums s) b).
  { intros k len b Hk. apply set_nth_other. intros ->. now apply (N k len). }
  split.
  - constructor; cbn; auto.
    + eapply Forall_impl; [| exact I1]. intros [| | | | [b |] | [b |] | |]; cbn; auto. now rewrite set_nth_length.
    + intros k len b Hk. rewrite (K _ _ _ Hk). eauto.
  - constructor; cbn; auto. intros k len b l' Hk. now rewrite (K _ _ _ Hk).
Qed.
Lemma set_strs_good a l s : inv s -> In (VStrs (Some a)) (regs s) -> good s (set_strs a l s).
Proof.
  intros [I1 I2 I3] H. pose proof (proj1 (Forall_forall _ _) I1 _ H) as (L & N).
  assert (K : forall k len b, nth_error (slists s) k = Some (len, b) -> nth_error (set_nth (strs s) a l) b = nth_error (strs s) b).
  { intros k len b Hk. apply set_nth_other. intros ->. now apply (N k len). }
  split.
  - constructor; cbn; auto.
    + eapply Forall_impl; [| exact I1]. intros [| | | q | [b |] | [b |] | |]; cbn; auto.
      * intros [L' H']. split; [exact L' |]. intros k len b l' Hk. rewrite (K _ _ _ Hk). eauto.
      * now rewrite set_nth_length.
    + intros k len b Hk. rewrite (K _ _ _ Hk). eauto.
  - constructor; cbn; auto. intros k len b l' Hk. now rewrite (K _ _ _ Hk).
Qed.
(** Strings: those of lists stay. *)
Lemma set_strings_good t s : inv s -> (length (strings s) <= length t)%nat ->
  (forall k len a l q b, nth_error (slists s) k = Some (len, a) -> nth_error (strs s) a = Some l -> In (Some q) l ->
     nth_error (strings s) q = Some (b, true) -> nth_error t q = Some (b, true)) -> good s (set_strings t s).
Proof.
  intros [I1 I2 I3] L K. split.
  - constructor; cbn; auto.
    + eapply Forall_impl; [| exact I1]. intros [| | | q | [b |] | [b |] | |]; cbn; auto. intros [L' H']. split; [lia | exact H'].
    + intros k len a Hk. destruct (I3 _ _ _ Hk) as (l & H1 & H2 & H3). exists l. repeat split; auto. apply Forall_forall. intros [q |] Hq; cbn; [| exact Logic.I].
      pose proof (proj1 (Forall_forall _ _) H3 _ Hq) as (b & Hb). exists b. eauto.
  - constructor; cbn; auto.
Qed.
Lemma add_nlist_good len a l s : inv s -> nth_error (nums s) a = Some l -> zlen l = len -> ~ In (VNums (Some a)) (regs s) -> good s (add_nlist (len, a) s).
Proof.
  intros [I1 I2 I3] H1 H2 H3. split.
  - constructor; cbn; auto.
    + apply Forall_forall. intros v Hv. pose proof (proj1 (Forall_forall _ _) I1 _ Hv) as O. destruct v as [| | | q | [b |] | [b |] | |]; cbn in *; auto.
      destruct O as (L & N). split; [exact L |]. intros k len' K. apply nth_error_snoc_inv in K. destruct K as [K | [_ K]]; [now apply (N k len') |]. injection K as -> ->. contradiction.
    + intros k len' b K. apply nth_error_snoc_inv in K. destruct K as [K | [_ K]]; [eauto |]. injection K as -> ->. eauto.
  - constructor; cbn; auto. intros. now apply nth_error_app_old.
Qed.
Lemma add_slist_good len a l s : inv s -> nth_error (strs s) a = Some l -> zlen l = len -> Forall (frozen s) l -> ~ In (VStrs (Some a)) (regs s) ->
  (forall q, In (VMutable q) (regs s) -> ~ In (Some q) l) -> good s (add_slist (len, a) s).
Proof.
  intros [I1 I2 I3] H1 H2 HF H3 HM. split.
  - constructor; cbn; auto.
    + apply Forall_forall. intros v Hv. pose proof (proj1 (Forall_forall _ _) I1 _ Hv) as O. destruct v as [| | | q | [b |] | [b |] | |]; cbn in *; auto.
      * destruct O as (L & N). split; [exact L |]. intros k len' b l' K S0. apply nth_error_snoc_inv in K. destruct K as [K | [_ K]]; [eauto |]. injection K as -> ->.
        rewrite H1 in S0. injection S0 as <-. now apply HM.
      * destruct O as (L & N). split; [exact L |]. intros k len' K. apply nth_error_snoc_inv in K. destruct K as [K | [_ K]]; [now apply (N k len') |]. injection K as -> ->. contradiction.
    + intros k len' b K. apply nth_error_snoc_inv in K. destruct K as [K | [_ K]]; [eauto |]. injection K as -> ->. eauto.
  - constructor; cbn; auto. intros. now apply nth_error_app_old.
Qed.

Lemma reg_in s r v : reg s r = v -> v <> VVoid -> In v (regs s).
Proof. unfold reg. intros <- N. destruct (Nat.lt_ge_cases r (length (regs s))) as [L | L]; [now apply nth_In |]. rewrite nth_overflow in N by lia. congruence. Qed.
Lemma fresh_nums s : inv s -> ~ In (VNums (Some (length (nums s)))) (regs s).
Proof. intros [I1 _ _] H. pose proof (proj1 (Forall_forall _ _) I1 _ H) as (L & _). lia. Qed.
Lemma fresh_strs s : inv s -> ~ In (VStrs (Some (length (strs s)))) (regs s).
Proof. intros [I1 _ _] H. pose proof (proj1 (Forall_forall _ _) I1 _ H) as (L & _). lia. Qed.

Lemma new_array_inv {A} n (x : A) l : new_array n x = Ret l -> l = zrep n x /\ 0 <= n.
Proof. unfold new_array. destruct (Z.leb_spec 0 n); [| discriminate]. intros [= <-]. auto. Qed.
Lemma zlen_zrep {A} n (x : A) : 0 <= n -> zlen (zrep n x) = n.
Proof. intros L. unfold zlen, zrep. rewrite repeat_length. lia. Qed.

Lemma memcpy_all {A} (src : list A) x : memcpy (zrep (zlen src) x) src (zlen src) = Ret src.
Proof.
  unfold memcpy. pose proof (zlen_nonneg src). rewrite zlen_zrep by lia. rewrite !Z.leb_refl. destruct (Z.leb_spec 0 (zlen src)); [| lia]. cbn [andb].
  rewrite ztake_all by lia. unfold zdrop. rewrite skipn_all2; [now rewrite app_nil_r |]. unfold zrep. now rewrite repeat_length.
Qed.
(** The array of a new list. *)
Lemma nlist_good s l : inv s -> good s (push (VNList (length (nlists s))) (add_nlist (zlen l, length (nums s)) (add_nums l s))).
Proof.
  intros I. pose proof (add_nums_good l s I) as G1. eapply good_trans; [exact G1 |]. destruct G1 as (I1 & _).
  eapply good_trans; [eapply add_nlist_good; eauto; cbn; [apply nth_error_snoc | now apply fresh_nums] |].
  apply push_good; [| exact Logic.I]. eapply add_nlist_good; eauto; cbn; [apply nth_error_snoc | now apply fresh_nums].
Qed.
Lemma slist_good s l : inv s -> Forall (frozen s) l -> (forall q, In (VMutable q) (regs s) -> ~ In (Some q) l) ->
  good s (push (VSList (length (slists s))) (add_slist (zlen l, length (strs s)) (add_strs l s))).
Proof.
  intros I F M. pose proof (add_strs_good l s I) as G1. eapply good_trans; [exact G1 |]. destruct G1 as (I1 & _).
  assert (G2 : good (add_strs l s) (add_slist (zlen l, length (strs s)) (add_strs l s))) by (eapply add_slist_good; eauto; cbn; [apply nth_error_snoc | now apply fresh_strs]).
  eapply good_trans; [exact G2 |]. apply push_good; [apply G2 | exact Logic.I].
Qed.
Lemma array_n_good s l : inv s -> good s (push (VNums (Some (length (nums s)))) (add_nums l s)).
Proof.
  intros I. pose proof (add_nums_good l s I) as G1. eapply good_trans; [exact G1 |]. apply push_good; [apply G1 |]. cbn. rewrite app_length. cbn. split; [lia |].
  intros k len K. destruct (inv_n _ I _ _ _ K) as (l' & H & _). apply nth_error_lt in H. lia.
Qed.
Lemma array_s_good s l : inv s -> good s (push (VStrs (Some (length (strs s)))) (add_strs l s)).
Proof.
  intros I. pose proof (add_strs_good l s I) as G1. eapply good_trans; [exact G1 |]. apply push_good; [apply G1 |]. cbn. rewrite app_length. cbn. split; [lia |].
  intros k len K. destruct (inv_s _ I _ _ _ K) as (l' & H & _). apply nth_error_lt in H. lia.
Qed.
(** Appending strings. *)
Lemma append_good s t : inv s -> good s (set_strings (strings s ++ t) s).
Proof. intros I. apply set_strings_good; [exact I | rewrite app_length; lia |]. intros. now apply nth_error_app_old. Qed.
Lemma fresh_string s t k len a l : inv s -> nth_error (slists s) k = Some (len, a) -> nth_error (strs s) a = Some l -> ~ In (Some (length (strings s) + t)%nat) l.
Proof.
  intros I K S0 H. destruct (inv_s _ I _ _ _ K) as (l' & H1 & _ & F). rewrite H1 in S0. injection S0 as ->.
  pose proof (proj1 (Forall_forall _ _) F _ H) as (b & Hb). apply nth_error_lt in Hb. lia.
Qed.

(** The copies of the strings of an array: fresh and read-only, with the same texts. *)
Lemma copy_loop_ok l : forall dn i dst t0 dst' t, length dn = i -> copy_loop l i (dn ++ dst) t0 = Ret (dst', t) -> length dst = length l ->
  exists ids new, t = t0 ++ new /\ dst' = dn ++ ids /\ length ids = length l /\
    forall j x, nth_error ids j = Some x -> exists q p b ro, x = Some q /\ (length t0 <= q)%nat /\ nth_error t q = Some (b, true) /\
      nth_error l j = Some (Some p) /\ nth_error t p = Some (b, ro).
Proof.
  induction l as [| q l IH]; intros dn i dst t0 dst' t Li H Ld; cbn in H.
  - injection H as <- <-. exists [], []. destruct dst; [| discriminate]. rewrite !app_nil_r. repeat split; auto. intros [| j]; discriminate.
  - destruct q as [p |]; [| discriminate]. cbn in H. destruct (nth_error t0 p) as [[b ro] |] eqn:P; [| discriminate]. cbn in H. rewrite nth_error_snoc in H. cbn in H.
    destruct dst as [| d dst]; [discriminate |].
    assert (E : set_nth (dn ++ d :: dst) i (Some (length t0)) = (dn ++ [Some (length t0)]) ++ dst).
    { rewrite <- Li. clear. induction dn; cbn; [reflexivity |]. now rewrite IHdn. }
    assert (E2 : set_nth (t0 ++ [(b, false)]) (length t0) (b, true) = t0 ++ [(b, true)]).
    { clear. induction t0; cbn; [reflexivity |]. now rewrite IHt0. }
    rewrite E, E2 in H. apply IH in H; [| rewrite app_length; cbn; lia | cbn in Ld; lia].
    destruct H as (ids & new & -> & -> & LI & H). exists (Some (length t0) :: ids), ((b, true) :: new). rewrite <- !app_assoc. split; [reflexivity |]. split; [reflexivity |]. split; [cbn; lia |].
    intros [| j] x Hx; cbn in Hx.
    + injection Hx as <-. exists (length t0), p, b, ro. split; [reflexivity |]. split; [lia |]. split; [| split; [reflexivity |]].
      * cbn. rewrite nth_error_app2, Nat.sub_diag by lia. reflexivity.
      * now apply nth_error_app_old.
    + destruct (H j x Hx) as (q & p' & b' & ro' & X & L & T & Lj & T'). exists q, p', b', ro'. rewrite <- !app_assoc in T, T'. cbn in T, T'. rewrite app_length in L. repeat split; auto. lia.
Qed.

Lemma make_read_only_inv t q t' : make_read_only t q = Ret t' -> exists p b ro, q = Some p /\ nth_error t p = Some (b, ro) /\ t' = set_nth t p (b, true).
Proof. unfold make_read_only. destruct q as [p |]; [| discriminate]. destruct (nth_error t p) as [[b ro] |] eqn:E; [| discriminate]. intros [= <-]. exists p, b, ro. auto. Qed.
Lemma ro_good s q t : inv s -> make_read_only (strings s) q = Ret t -> good s (set_strings t s).
Proof.
  intros I H. apply make_read_only_inv in H. destruct H as (p & b & ro & -> & P & ->). apply set_strings_good; [exact I | rewrite set_nth_length; lia |].
  intros k len a l p' b' _ _ _ Hp'. destruct (Nat.eq_dec p p') as [<- | N].
  - rewrite set_nth_same by (eapply nth_error_lt; eauto). congruence.
  - now rewrite set_nth_other.
Qed.
Lemma copy_good s q v t : inv s -> copy (strings s) q = Ret (v, t) -> good s (push (match v with Some q => VMutable q | None => VString None end) (set_strings t s)).
Proof.
  intros I H. unfold copy in H. destruct q as [p |].
  - destruct (nth_error (strings s) p) as [[b ro] |]; [| discriminate]. injection H as <- <-. pose proof (append_good s [(b, false)] I) as G. eapply good_trans; [exact G |].
    apply push_good; [apply G |]. cbn. rewrite app_length. cbn. split; [lia |]. intros k len a l K S0. replace (length (strings s)) with (length (strings s) + 0)%nat by lia. eapply fresh_string; eauto.
  - injection H as <- <-. assert (E : set_strings (strings s) s = s) by (destruct s; reflexivity). rewrite E. apply push_good; [exact I | exact Logic.I].
Qed.

Ltac bind H := match type of H with
  | (let! _ := ?m in _) = Ret _ => let x := fresh "x" in let E := fresh "E" in destruct m as [x | | |] eqn:E; try discriminate H; cbn [obind] in H
  end.
Lemma step_good o s s' : checked o -> inv s -> step false o s = Ret s' -> good s s'.
Proof.
  intros C I H. destruct o; cbn [step] in H; try contradiction C.
  - bind H. injection H as <-. now apply array_n_good.
  - bind H. injection H as <-. now apply array_s_good.
  - injection H as <-. pose proof (append_good s [(b, false)] I) as G. eapply good_trans; [exact G |]. apply push_good; [apply G |]. cbn. rewrite app_length. cbn. split; [lia |].
    intros k len a l K S0. replace (length (strings s)) with (length (strings s) + 0)%nat by lia. eapply fresh_string; eauto.
  - destruct (reg s r); try discriminate. injection H as <-. apply push_good; [exact I | exact Logic.I].
  - destruct (reg s r) as [| | [q |] | | | | |]; try discriminate. destruct (nth_error (strings s) q) as [[b [|]] |] eqn:Q; try discriminate. injection H as <-.
    apply push_good; [exact I |]. cbn. split; [eapply nth_error_lt; eauto |]. intros k len a l K S0 Hq. destruct (inv_s _ I _ _ _ K) as (l' & H1 & _ & F). rewrite H1 in S0. injection S0 as ->.
    pose proof (proj1 (Forall_forall _ _) F _ Hq) as (b' & Hb). congruence.
  - destruct (reg s r); try discriminate; bind H; injection H as <-; pose proof (ro_good _ _ _ I E) as G; (eapply good_trans; [exact G |]); apply push_good; [apply G | exact Logic.I | apply G | exact Logic.I].
  - destruct (reg s r); try discriminate; bind H; destruct x as [v t]; injection H as <-; eapply copy_good; eauto.
  - destruct (reg s r) eqn:R; try discriminate. destruct (nth_error (strings s) q) as [[t ro] |] eqn:Q; [| discriminate]. bind H. injection H as <-.
    pose proof (proj1 (Forall_forall _ _) (inv_ok _ I) _ (reg_in _ _ _ R ltac:(discriminate))) as (L & N).
    assert (G : good s (set_strings (set_nth (strings s) q (zupd t i b, ro)) s)).
    { apply set_strings_good; [exact I | rewrite set_nth_length; lia |]. intros k len a l p b' K S0 Hp Hb. rewrite set_nth_other; [exact Hb |]. intros ->. eapply N; eauto. }
    eapply good_trans; [exact G |]. apply push_good; [apply G | exact Logic.I].
  - injection H as <-. apply push_good; [exact I | exact Logic.I].
  - injection H as <-. apply push_good; [exact I | exact Logic.I].
  - destruct (reg s r) as [| | | | [a |] | | |] eqn:R; try discriminate. bind H. bind H. injection H as <-.
    pose proof (set_nums_good a (zupd x i z) s I (reg_in _ _ _ R ltac:(discriminate))) as G. eapply good_trans; [exact G |]. apply push_good; [apply G | exact Logic.I].
  - destruct (reg s r); try discriminate. bind H. bind H. injection H as <-. apply push_good; [exact I | exact Logic.I].
  - destruct (reg s r) as [| | | | | [a |] | |] eqn:R; try discriminate. destruct (reg s r'); try discriminate; bind H; bind H; injection H as <-.
    + pose proof (set_strs_good a (zupd x i q) s I (reg_in _ _ _ R ltac:(discriminate))) as G. eapply good_trans; [exact G |]. apply push_good; [apply G | exact Logic.I].
    + pose proof (set_strs_good a (zupd x i (Some q)) s I (reg_in _ _ _ R ltac:(discriminate))) as G. eapply good_trans; [exact G |]. apply push_good; [apply G | exact Logic.I].
  - destruct (reg s r) as [| | | | | [a |] | |] eqn:R; try discriminate. bind H. bind H. injection H as <-.
    pose proof (set_strs_good a (zupd x i None) s I (reg_in _ _ _ R ltac:(discriminate))) as G. eapply good_trans; [exact G |]. apply push_good; [apply G | exact Logic.I].
  - destruct (reg s r); try discriminate. bind H. bind H. injection H as <-. apply push_good; [exact I | exact Logic.I].
  - destruct (reg s r) as [| | | | [a |] | | |] eqn:R; try discriminate.
    + bind H. bind H. bind H. injection H as <-. apply new_array_inv in E0. destruct E0 as (-> & L). rewrite memcpy_all in E1. injection E1 as <-. now apply nlist_good.
    + injection H as <-. replace 0 with (zlen (@nil Z)) by reflexivity. now apply nlist_good.
  - bind H. injection H as <-. apply new_array_inv in E. destruct E as (-> & L). rewrite <- (zlen_zrep n 0 L) at 1. now apply nlist_good.
  - destruct (reg s r); try discriminate. destruct (nth_error (nlists s) k) as [[len a] |]; [| discriminate]. injection H as <-. apply push_good; [exact I | exact Logic.I].
  - destruct (reg s r); try discriminate. destruct (nth_error (nlists s) k) as [[len a] |]; [| discriminate]. bind H. bind H. injection H as <-. apply push_good; [exact I | exact Logic.I].
  - destruct (reg s r); try discriminate. destruct (nth_error (nlists s) k) as [[len a] |]; [| discriminate]. bind H. bind H. bind H. injection H as <-. now apply array_n_good.
  - destruct (reg s r) as [| | | | | [a |] | |] eqn:R; try discriminate.
    + bind H. bind H. bind H. destruct x1 as [l t]. injection H as <-. apply new_array_inv in E0. destruct E0 as (-> & L).
      destruct (copy_loop_ok x [] 0 (zrep (zlen x) None) (strings s) l t eq_refl E1) as (ids & new & -> & -> & LI & Hids); [unfold zrep; rewrite repeat_length; unfold zlen; lia |].
      cbn [app]. pose proof (append_good s new I) as G. eapply good_trans; [exact G |]. replace (zlen x) with (zlen ids) by (unfold zlen; congruence).
      apply (slist_good (set_strings (strings s ++ new) s)); [apply G | |].
      * apply Forall_forall. intros y Hy. apply In_nth_error in Hy. destruct Hy as (j & Hj). destruct (Hids j y Hj) as (q & p & b & ro & -> & Lq & Tq & _). cbn. eauto.
      * intros q Hq Hin. apply In_nth_error in Hin. destruct Hin as (j & Hj). destruct (Hids j _ Hj) as (q' & p & b & ro & X & Lq & _). injection X as <-.
        pose proof (proj1 (Forall_forall _ _) (inv_ok _ I) _ Hq) as (Lt & _). lia.
    + injection H as <-. replace 0 with (zlen (@nil (option nat))) by reflexivity. apply slist_good; [exact I | constructor | intros q _ []].
  - bind H. injection H as <-. apply new_array_inv in E. destruct E as (-> & L). rewrite <- (zlen_zrep n (@None nat) L) at 1. apply slist_good; [exact I | |].
    + apply Forall_forall. intros y Hy. apply repeat_spec in Hy. subst y. exact Logic.I.
    + intros q _ Hq. apply repeat_spec in Hq. discriminate.
  - destruct (reg s r); try discriminate. destruct (nth_error (slists s) k) as [[len a] |]; [| discriminate]. injection H as <-. apply push_good; [exact I | exact Logic.I].
  - destruct (reg s r); try discriminate. destruct (nth_error (slists s) k) as [[len a] |]; [| discriminate]. bind H. bind H. injection H as <-. apply push_good; [exact I | exact Logic.I].
  - destruct (reg s r); try discriminate. destruct (nth_error (slists s) k) as [[len a] |]; [| discriminate]. bind H. bind H. bind H. injection H as <-. now apply array_s_good.
Qed.
Lemma run_good h : forall s s', Forall checked h -> inv s -> run false h s = Ret s' -> good s s'.
Proof.
  induction h as [| o h IH]; intros s s' F I H; cbn in H.
  - injection H as <-. split; [exact I | apply keep_refl].
  - inversion F as [| ? ? C F']; subst. destruct (step false o s) as [s1 | | |] eqn:E; try discriminate; [| now apply IH].
    pose proof (step_good _ _ _ C I E) as G. eapply good_trans; [exact G |]. apply IH; auto. apply G.
Qed.
Lemma inv_empty : inv empty.
Proof. constructor; cbn; [constructor | intros [| k]; discriminate | intros [| k]; discriminate]. Qed.
Lemma reachable_inv s : reachable false s -> inv s.
Proof. intros (h & F & H). apply (run_good h empty s F inv_empty H). Qed.
