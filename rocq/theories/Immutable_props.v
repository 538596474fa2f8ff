(** * C73: immutable lists never change *)
From Verif Require Import Base CLib Immutable_model Immutable_spec Immutable_proofs.
Local Open Scope Z_scope.

Lemma result_push v s : last (regs (push v s)) VVoid = v.
Proof. cbn. apply last_last. Qed.
Lemma reg_nth s r v : v <> VVoid -> reg s r = v <-> nth_error (regs s) r = Some v.
Proof.
  intros N. unfold reg. split.
  - intros <-. apply nth_error_nth'. destruct (Nat.lt_ge_cases r (length (regs s))); [assumption |]. rewrite nth_overflow in N by lia. congruence.
  - intros H. now apply nth_error_nth with (d := VVoid) in H.
Qed.
Lemma get_ok {A} (l : list A) i : get (zlen l) l i = match znth l i with Some x => Ret x | None => Die (out_of_range i) end.
Proof.
  unfold get, element, out_of_range. destruct (Z.leb_spec 0 i); cbn [negb].
  - destruct (Z.ltb_spec i (zlen l)); cbn [negb]; [destruct (znth l i) eqn:E; [reflexivity |] |].
    + exfalso. unfold znth in E. destruct (Z.ltb_spec i 0); [lia |]. apply nth_error_None in E. unfold zlen in *. lia.
    + unfold znth. destruct (Z.ltb_spec i 0); [lia |]. rewrite (proj2 (nth_error_None l (Z.to_nat i))); [reflexivity | unfold zlen in *; lia].
  - unfold znth. destruct (Z.ltb_spec i 0); [| lia]. reflexivity.
Qed.
Lemma znth_ext {A} (l l' : list A) : (forall i, znth l i = znth l' i) -> l = l'.
Proof.
  intros H. assert (E : forall n, nth_error l n = nth_error l' n).
  { intros n. specialize (H (Z.of_nat n)). unfold znth in H. destruct (Z.ltb_spec (Z.of_nat n) 0); [lia |]. now rewrite Nat2Z.id in H. }
  clear H. revert l' E. induction l as [| x l IH]; intros [| y l'] E; auto.
  - specialize (E O). discriminate.
  - specialize (E O). discriminate.
  - pose proof (E O) as E0. cbn in E0. injection E0 as ->. f_equal. apply IH. intros n. apply (E (S n)).
Qed.

Lemma shows_numbers_direct b s r k a l : nth_error (regs s) r = Some (VNList k) -> nth_error (nlists s) k = Some (zlen l, a) -> nth_error (nums s) a = Some l -> shows_numbers b s r l.
Proof.
  intros R K N. unfold shows_numbers, result. cbn [step]. apply reg_nth in R; [| discriminate]. rewrite R, K. split.
  - cbn [obind]. now rewrite result_push.
  - intros i. cbn [deref]. rewrite N. cbn [obind]. rewrite get_ok. destruct (znth l i); cbn [obind]; rewrite ?result_push; reflexivity.
Qed.
(** What a list shows is what its array has. *)
Lemma shows_numbers_iff b s r l : inv s -> shows_numbers b s r l <->
  exists k len a, nth_error (regs s) r = Some (VNList k) /\ nth_error (nlists s) k = Some (len, a) /\ nth_error (nums s) a = Some l.
Proof.
  intros I. unfold shows_numbers, result. cbn [step]. split.
  - intros (H1 & H2). destruct (reg s r) as [| | | | | | k |] eqn:R; try discriminate. apply reg_nth in R; [| discriminate].
    destruct (nth_error (nlists s) k) as [[len a] |] eqn:K; [| discriminate]. destruct (inv_n _ I _ _ _ K) as (l' & N & Ln). exists k, len, a. repeat split; auto.
    rewrite N. f_equal. apply znth_ext. intros i. specialize (H2 i). cbn [deref] in H2. rewrite N in H2. cbn [obind] in H2. rewrite <- Ln, get_ok in H2.
    destruct (znth l' i), (znth l i); cbn [obind] in H2; rewrite ?result_push in H2; congruence.
  - intros (k & len & a & R & K & N). destruct (inv_n _ I _ _ _ K) as (l' & N' & Ln). rewrite N in N'. injection N' as <-. subst len. now apply (shows_numbers_direct b s r k a l).
Qed.

(** ** Lists of numbers *)
(** A new list shows the numbers of the array; later changes of the array do not matter,
    by C73_numbers_stay. *)
Theorem C73_numbers_new s r a l : reachable false s -> nth_error (regs s) r = Some (VNums (Some a)) -> nth_error (nums s) a = Some l ->
  exists s', step false (N_new r) s = Ret s' /\ shows_numbers false s' (length (regs s)) l.
Proof.
  intros Re R N. apply reachable_inv in Re. apply reg_nth in R; [| discriminate]. cbn [step]. rewrite R. cbn [deref]. rewrite N. cbn [obind].
  unfold new_array. pose proof (zlen_nonneg l). destruct (Z.leb_spec 0 (zlen l)); [| lia]. cbn [obind]. rewrite memcpy_all. cbn [obind]. eexists. split; [reflexivity |].
  apply shows_numbers_iff; [apply (nlist_good s l Re) |]. exists (length (nlists s)), (zlen l), (length (nums s)). cbn. repeat split; apply nth_error_snoc.
Qed.
Theorem C73_numbers_undef s r : reachable false s -> nth_error (regs s) r = Some (VNums None) ->
  exists s', step false (N_new r) s = Ret s' /\ shows_numbers false s' (length (regs s)) [].
Proof.
  intros Re R. apply reachable_inv in Re. apply reg_nth in R; [| discriminate]. cbn [step]. rewrite R. eexists. split; [reflexivity |].
  apply shows_numbers_iff; [apply (nlist_good s [] Re) |]. exists (length (nlists s)), 0, (length (nums s)). cbn. repeat split; apply nth_error_snoc.
Qed.
Theorem C73_numbers_new_len s n : reachable false s ->
  (n < 0 -> step false (N_new_len n) s = Die "The length $length must be greater than or equal to 0.") /\
  (0 <= n -> exists s', step false (N_new_len n) s = Ret s' /\ shows_numbers false s' (length (regs s)) (zrep n 0)).
Proof.
  intros Re. apply reachable_inv in Re. cbn [step]. unfold new_array. split; intros L; (destruct (Z.leb_spec 0 n); [| try lia]); try lia; [reflexivity |].
  cbn [obind]. eexists. split; [reflexivity |].
  apply shows_numbers_iff; [rewrite <- (zlen_zrep n 0 L) at 1; apply (nlist_good s (zrep n 0) Re) |]. exists (length (nlists s)), n, (length (nums s)). cbn. repeat split; apply nth_error_snoc.
Qed.
(** Whatever the client does, a list shows the same numbers for ever. *)
Theorem C73_numbers_stay s r l h s' : reachable false s -> shows_numbers false s r l -> Forall checked h -> run false h s = Ret s' -> shows_numbers false s' r l.
Proof.
  intros Re Sh F H. apply reachable_inv in Re. destruct (run_good _ _ _ F Re H) as (I' & K). apply (shows_numbers_iff _ _ _ _ Re) in Sh. apply (shows_numbers_iff _ _ _ _ I').
  destruct Sh as (k & len & a & R & Kk & N). exists k, len, a. repeat split; [eapply keep_r | eapply keep_n | eapply keep_nc]; eauto.
Qed.
(** to_array gives a new array with these numbers. *)
Theorem C73_numbers_to_array s r l : reachable false s -> shows_numbers false s r l ->
  exists s', step false (N_to_array r) s = Ret s' /\ last (regs s') VVoid = VNums (Some (length (nums s))) /\ nth_error (nums s') (length (nums s)) = Some l.
Proof.
  intros Re Sh. apply reachable_inv in Re. apply (shows_numbers_iff _ _ _ _ Re) in Sh. destruct Sh as (k & len & a & R & K & N). apply reg_nth in R; [| discriminate].
  cbn [step]. rewrite R, K. destruct (inv_n _ Re _ _ _ K) as (l' & N' & <-). rewrite N in N'. injection N' as <-. unfold new_array. pose proof (zlen_nonneg l). destruct (Z.leb_spec 0 (zlen l)); [| lia].
  cbn [obind deref]. rewrite N. cbn [obind]. rewrite memcpy_all. cbn [obind]. eexists. split; [reflexivity |]. split; [apply result_push |]. cbn. apply nth_error_snoc.
Qed.

(** ** Lists of strings *)
Definition has_texts (s : state) (l : list (option nat)) (ts : list (option text)) : Prop := Forall2 (has_text s) l ts.
Lemma forall2_length {A B} (P : A -> B -> Prop) l l' : Forall2 P l l' -> length l = length l'.
Proof. induction 1; cbn; congruence. Qed.
Lemma forall2_impl {A B} (P Q : A -> B -> Prop) l l' : (forall x y, P x y -> Q x y) -> Forall2 P l l' -> Forall2 Q l l'.
Proof. intros H. induction 1; constructor; auto. Qed.
Lemma forall2_znth {A B} (P : A -> B -> Prop) l l' : zlen l = zlen l' -> (forall i x y, znth l i = Some x -> znth l' i = Some y -> P x y) -> Forall2 P l l'.
Proof.
  revert l'. induction l as [| x l IH]; intros [| y l'] L H; try (unfold zlen in L; cbn in L; lia); constructor.
  - apply (H 0); reflexivity.
  - apply IH; [unfold zlen in *; cbn in L; lia |]. intros i a b Ha Hb. apply (H (i + 1)); unfold znth in *; destruct (Z.ltb_spec i 0); try discriminate; destruct (Z.ltb_spec (i + 1) 0); try lia;
      rewrite Z2Nat.inj_add, Nat.add_1_r by lia; assumption.
Qed.
Lemma znth_forall2 {A B} (P : A -> B -> Prop) l l' i : Forall2 P l l' -> match znth l i, znth l' i with Some x, Some y => P x y | None, None => True | _, _ => False end.
Proof.
  intros F. unfold znth. destruct (i <? 0); [exact I |]. generalize (Z.to_nat i). intros n. revert n. induction F as [| x y l l' H F IH]; intros [| n]; cbn; auto. apply IH.
Qed.
Lemma shows_texts_direct b s r k a l ts : nth_error (regs s) r = Some (VSList k) -> nth_error (slists s) k = Some (zlen l, a) -> nth_error (strs s) a = Some l -> has_texts s l ts -> shows_texts b s r ts.
Proof.
  intros R K N F. unfold shows_texts, result. cbn [step]. apply reg_nth in R; [| discriminate]. rewrite R, K. split.
  - cbn [obind]. rewrite result_push. do 2 f_equal. unfold zlen. f_equal. eapply forall2_length; eauto.
  - intros i. pose proof (znth_forall2 _ _ _ i F) as Fi. cbn [deref]. rewrite N. cbn [obind]. rewrite get_ok. destruct (znth l i) as [q |], (znth ts i) as [t |]; try contradiction.
    + exists q. cbn [obind]. now rewrite result_push.
    + reflexivity.
Qed.
Lemma shows_texts_iff b s r ts : inv s -> shows_texts b s r ts <->
  exists k len a l, nth_error (regs s) r = Some (VSList k) /\ nth_error (slists s) k = Some (len, a) /\ nth_error (strs s) a = Some l /\ has_texts s l ts.
Proof.
  intros I. unfold shows_texts, result. cbn [step]. split.
  - intros (H1 & H2). destruct (reg s r) as [| | | | | | | k] eqn:R; try discriminate. apply reg_nth in R; [| discriminate].
    destruct (nth_error (slists s) k) as [[len a] |] eqn:K; [| discriminate]. destruct (inv_s _ I _ _ _ K) as (l & N & Ln & _). exists k, len, a, l. repeat split; auto.
    cbn [obind] in H1. rewrite result_push in H1. injection H1 as H1. apply forall2_znth; [lia |].
    intros i x y Hx Hy. specialize (H2 i). rewrite Hy in H2. destruct H2 as (q & E & T). cbn [deref] in E. rewrite N in E. cbn [obind] in E. rewrite <- Ln, get_ok, Hx in E. cbn [obind] in E.
    rewrite result_push in E. injection E as ->. exact T.
  - intros (k & len & a & l & R & K & N & F). destruct (inv_s _ I _ _ _ K) as (l' & N' & Ln & _). rewrite N in N'. injection N' as <-. subst len. now apply (shows_texts_direct b s r k a l ts).
Qed.

(** A new list shows the texts the strings of the array have now. *)
Theorem C73_texts_new s r a l ts : reachable false s -> nth_error (regs s) r = Some (VStrs (Some a)) -> nth_error (strs s) a = Some l ->
  has_texts s l (map Some ts) -> exists s', step false (S_new r) s = Ret s' /\ shows_texts false s' (length (regs s)) (map Some ts).
Proof.
  intros Re R N F. apply reachable_inv in Re. pose proof (proj2 (reg_nth s r (VStrs (Some a)) ltac:(discriminate)) R) as R'.
  assert (CL : forall m dn dst t0, Forall2 (fun q t => exists p ro, q = Some p /\ nth_error t0 p = Some (t, ro)) m dst -> forall x, exists d t, copy_loop m dn x t0 = Ret (d, t)).
  { clear. induction m as [| q m IH]; intros dn dst t0 F x; [cbn; eauto |]. inversion F as [| ? t ? ts (p & ro & -> & P) F']; subst. cbn. rewrite P. cbn. rewrite nth_error_snoc. cbn.
    eapply (IH _ ts). eapply forall2_impl; [| exact F']. intros q' t' (p' & ro' & -> & P'). exists p'.
    assert (Np : p' <> length t0) by (apply nth_error_lt in P'; lia). exists ro'. split; [reflexivity |]. rewrite set_nth_other by congruence. now apply nth_error_app_old. }
  assert (F' : Forall2 (fun q t => exists p ro, q = Some p /\ nth_error (strings s) p = Some (t, ro)) l ts).
  { unfold has_texts in F. revert F. clear. revert ts. induction l as [| q l IH]; intros [| t ts] F; inversion F; subst; constructor; auto. destruct q as [p |]; cbn in *; [| contradiction].
    match goal with H : exists _, _ |- _ => destruct H as (ro & H) end. eauto. }
  cbn [step]. rewrite R'. cbn [deref]. rewrite N. cbn [obind]. unfold new_array. pose proof (zlen_nonneg l). destruct (Z.leb_spec 0 (zlen l)); [| lia]. cbn [obind].
  destruct (CL l 0%nat ts (strings s) F' (zrep (zlen l) None)) as (d & t & E). rewrite E. cbn [obind]. eexists. split; [reflexivity |].
  match goal with |- shows_texts _ ?s' _ _ => assert (G : good s s') end.
  { apply (step_good (S_new r) s); [exact Logic.I | exact Re |]. cbn [step]. rewrite R'. cbn [deref]. rewrite N. cbn [obind]. unfold new_array. destruct (Z.leb_spec 0 (zlen l)); [| lia]. cbn [obind]. rewrite E. reflexivity. }
  apply shows_texts_iff; [apply G |]. exists (length (slists s)), (zlen l), (length (strs s)), d. cbn. split; [apply nth_error_snoc |]. split; [apply nth_error_snoc |]. split; [apply nth_error_snoc |].
  destruct (copy_loop_ok l [] 0 (zrep (zlen l) None) (strings s) d t eq_refl E) as (ids & new & -> & -> & LI & Hids); [unfold zrep; rewrite repeat_length; unfold zlen; lia |]. cbn [app].
  apply forall2_znth; [unfold zlen; rewrite map_length; pose proof (forall2_length _ _ _ F'); lia |].
  intros i x y Hx Hy. unfold znth in Hx, Hy. destruct (i <? 0); [discriminate |]. destruct (Hids _ _ Hx) as (q & p & b & ro & -> & _ & Tq & Lj & Tp). cbn.
  assert (Y : y = Some b).
  { rewrite nth_error_map in Hy. destruct (nth_error ts (Z.to_nat i)) as [t |] eqn:Ht; [| discriminate]. cbn in Hy. injection Hy as <-. f_equal.
    pose proof (znth_forall2 _ _ _ (Z.of_nat (Z.to_nat i)) F') as Fi. unfold znth in Fi. destruct (Z.ltb_spec (Z.of_nat (Z.to_nat i)) 0); [lia |]. rewrite Nat2Z.id, Lj, Ht in Fi.
    destruct Fi as (p' & ro' & X & P'). injection X as <-. apply (nth_error_app_old _ new) in P'. congruence. }
  subst y. cbn. eauto.
Qed.
Theorem C73_texts_new_len s n : reachable false s ->
  (n < 0 -> step false (S_new_len n) s = Die "The length $length must be greater than or equal to 0.") /\
  (0 <= n -> exists s', step false (S_new_len n) s = Ret s' /\ shows_texts false s' (length (regs s)) (zrep n None)).
Proof.
  intros Re. apply reachable_inv in Re. cbn [step]. unfold new_array. split; intros L; (destruct (Z.leb_spec 0 n); [| try lia]); try lia; [reflexivity |].
  cbn [obind]. eexists. split; [reflexivity |].
  match goal with |- shows_texts _ ?s' _ _ => assert (G : good s s') end.
  { apply (step_good (S_new_len n) s); [exact Logic.I | exact Re |]. cbn [step]. unfold new_array. destruct (Z.leb_spec 0 n); [reflexivity | lia]. }
  apply shows_texts_iff; [apply G |]. exists (length (slists s)), n, (length (strs s)), (zrep n None). cbn. split; [apply nth_error_snoc |]. split; [apply nth_error_snoc |]. split; [apply nth_error_snoc |].
  unfold has_texts, zrep. induction (Z.to_nat n); cbn; constructor; auto. exact Logic.I.
Qed.
Theorem C73_texts_stay s r ts h s' : reachable false s -> shows_texts false s r ts -> Forall checked h -> run false h s = Ret s' -> shows_texts false s' r ts.
Proof.
  intros Re Sh F H. apply reachable_inv in Re. destruct (run_good _ _ _ F Re H) as (I' & K). apply (shows_texts_iff _ _ _ _ Re) in Sh. apply (shows_texts_iff _ _ _ _ I').
  destruct Sh as (k & len & a & l & R & Kk & N & T). exists k, len, a, l. split; [eapply keep_r; eauto |]. split; [eapply keep_s; eauto |]. split; [eapply keep_sc; eauto |].
  destruct (inv_s _ Re _ _ _ Kk) as (l' & N' & _ & Fr). rewrite N in N'. injection N' as <-. unfold has_texts in *.
  assert (Q : forall q b, In (Some q) l -> nth_error (strings s) q = Some (b, true) -> nth_error (strings s') q = Some (b, true)) by (intros; eapply keep_t; eauto).
  clear - T Fr Q. induction T as [| q t l ts H T IH]; constructor.
  - destruct q as [q |], t as [t |]; cbn in *; auto. destruct H as (ro & H). pose proof (Forall_inv Fr) as (b & Hb). exists true. apply Q; [now left |]. congruence.
  - inversion Fr; subst. apply IH; auto. intros; apply Q; auto. now right.
Qed.
(** to_array gives a new array of strings with these texts. *)
Theorem C73_texts_to_array s r ts : reachable false s -> shows_texts false s r ts ->
  exists s' l, step false (S_to_array r) s = Ret s' /\ last (regs s') VVoid = VStrs (Some (length (strs s))) /\ nth_error (strs s') (length (strs s)) = Some l /\ has_texts s' l ts.
Proof.
  intros Re Sh. apply reachable_inv in Re. apply (shows_texts_iff _ _ _ _ Re) in Sh. destruct Sh as (k & len & a & l & R & K & N & T). apply reg_nth in R; [| discriminate].
  cbn [step]. rewrite R, K. destruct (inv_s _ Re _ _ _ K) as (l' & N' & <- & _). rewrite N in N'. injection N' as <-. unfold new_array. pose proof (zlen_nonneg l). destruct (Z.leb_spec 0 (zlen l)); [| lia].
  cbn [obind deref]. rewrite N. cbn [obind]. rewrite memcpy_all. cbn [obind]. eexists. exists l. split; [reflexivity |]. split; [apply result_push |]. split; [cbn; apply nth_error_snoc | exact T].
Qed.

(** ** Where the implementation differs *)
(** Immutable::DoubleList: a client changes the list through the array from to_array. *)
Theorem C73_double_list_refuted : exists h s s', Forall checked h /\ run true h empty = Ret s /\ shows_numbers true s 1 [0; 0] /\
  run true [N_to_array 1; Set_num 2 0 7] s = Ret s' /\ shows_numbers true s' 1 [7; 0].
Proof.
  exists [New_nums 2; N_new 0]. do 2 eexists. split; [repeat constructor |]. split; [reflexivity |]. split; [| split; [reflexivity |]].
  - eapply shows_numbers_direct with (k := 0%nat); reflexivity.
  - eapply shows_numbers_direct with (k := 0%nat); reflexivity.
Qed.
(** Immutable::StringList->new of an array with undef reads through a null pointer. *)
Theorem C73_undef_refuted : forall s r a l, nth_error (regs s) r = Some (VStrs (Some a)) -> nth_error (strs s) a = Some l -> In None l -> step false (S_new r) s = UB.
Proof.
  intros s r a l R N H. apply reg_nth in R; [| discriminate]. cbn [step]. rewrite R. cbn [deref]. rewrite N. cbn [obind]. unfold new_array. pose proof (zlen_nonneg l).
  destruct (Z.leb_spec 0 (zlen l)); [| lia]. cbn [obind]. enough (E : forall l i d t, In None l -> copy_loop l i d t = UB) by (now rewrite E).
  clear. induction l as [| q l IH]; intros i d t H; [destruct H |]. destruct H as [-> | H]; [reflexivity |]. cbn. destruct q as [q |]; [| reflexivity]. cbn. destruct (nth_error t q) as [[b ro] |]; [| reflexivity]. cbn.
  rewrite nth_error_snoc. cbn. now apply IH.
Qed.
(** With the cast from object to mutable string, which checks nothing (C27), the strings of
    a list can be changed. *)
Theorem C73_cast_refuted : exists h s s', Forall checked h /\ run false h empty = Ret s /\ shows_texts false s 4 [Some (bytes "ab")] /\
  run false [S_get 4 0; Cast_object 5; Set_byte 6 0 120] s = Ret s' /\ shows_texts false s' 4 [Some (bytes "xb")].
Proof.
  exists [New_string (bytes "ab"); As_string 0; New_strs 1; Set_str 2 0 1; S_new 2]. do 2 eexists. split; [repeat constructor |]. split; [reflexivity |].
  split; [| split; [reflexivity |]]; (eapply shows_texts_direct with (k := 0%nat) (a := 1%nat) (l := [Some 1%nat]); [reflexivity | reflexivity | reflexivity |]); repeat constructor; eexists; reflexivity.
Qed.

(** ** Example: a list survives the changes of the array it was made of, of the array made of
    it, and of the string it was made of. *)
Definition history : list op := [New_nums 3; Set_num 0 1 5; N_new 0; Set_num 0 1 6; N_to_array 2; Set_num 4 1 7; N_get 2 1; N_get 2 3;
  New_string (bytes "ab"); As_string 7; New_strs 1; Set_str 9 0 8; S_new 9; Set_byte 7 0 120; S_get 11 0; As_mutable 13].
Example C73_ex : Forall checked history /\ exists s, run false history empty = Ret s /\ nth_error (regs s) 6 = Some (VNum 5) /\ shows_numbers false s 2 [0; 5; 0]
  /\ nth_error (regs s) 13 = Some (VString (Some 1%nat)) /\ strings s = [(bytes "xb", false); (bytes "ab", true)].
Proof.
  split; [repeat constructor |]. eexists. split; [reflexivity |]. split; [reflexivity |]. split; [| split; reflexivity].
  apply shows_numbers_iff.
  - apply reachable_inv. exists history. split; [repeat constructor | reflexivity].
  - do 3 eexists. repeat split; reflexivity.
Qed.

Print Assumptions C73_numbers_new.
Print Assumptions C73_numbers_undef.
Print Assumptions C73_numbers_new_len.
Print Assumptions C73_numbers_stay.
Print Assumptions C73_numbers_to_array.
Print Assumptions C73_texts_new.
Print Assumptions C73_texts_new_len.
Print Assumptions C73_texts_stay.
Print Assumptions C73_texts_to_array.
Print Assumptions C73_double_list_refuted.
Print Assumptions C73_undef_refuted.
Print Assumptions C73_cast_refuted.
