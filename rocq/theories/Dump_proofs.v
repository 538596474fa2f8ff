(** * Proofs about the dump *)

From Verif Require Import Base Utf8_model Utf8_spec Utf8_proofs Dec Dump_model Dump_spec.

(** ** Strings *)

Lemma hex_digit_spec d : 0 <= d < 16 -> hex_digit d = nth (Z.to_nat d) hex 0.
Proof.
  intros B. assert (D : In d (map Z.of_nat (seq 0 16))).
  { apply in_map_iff. exists (Z.to_nat d). split; [lia |]. apply in_seq. lia. }
  cbn in D. repeat destruct D as [<- | D]; try reflexivity. destruct D.
Qed.

Lemma x02X_spec b : in_u8 b -> x02X b = escaped b.
Proof.
  intros B. unfold in_u8 in B. unfold x02X, escaped.
  rewrite !hex_digit_spec; auto.
  - apply Z.mod_pos_bound. lia.
  - split; [apply Z.div_pos; lia | apply Z.div_lt_upper_bound; lia].
Qed.

Lemma wf_char_one c cp : wf_char c cp -> zlen c = 1 -> c = [cp] /\ 0 <= cp <= 127.
Proof.
  intros W L. destruct W as [b0 B | | |].
  - split; auto.
  - unfold zlen in L. cbn in L. lia.
  - unfold zlen in L. cbn in L. lia.
  - unfold zlen in L. cbn in L. lia.
Qed.

Lemma wf_char_long c cp : wf_char c cp -> zlen c <> 1 -> 128 <= cp.
Proof.
  intros W L. inversion W; subst; unfold byte_in, tail_byte, byte_in in *; try (unfold zlen in L; cbn in L; lia); lia.
Qed.

Lemma zdrop_znth {A} (s : list A) p : 0 <= p < zlen s ->
  exists b, znth s p = Some b /\ zdrop p s = b :: zdrop (p + 1) s.
Proof.
  intros B. destruct (znth s p) as [b |] eqn:E.
  - exists b. split; auto. apply zdrop_cons; auto.
  - exfalso. unfold znth in E. destruct (Z.ltb_spec p 0); [lia |]. apply nth_error_None in E. unfold zlen in B. lia.
Qed.

Lemma dump_chars_spec s : Forall in_u8 s -> forall fuel off buf, 0 <= off <= zlen s ->
  zlen s - off < Z.of_nat fuel ->
  exists t, dump_chars fuel (s ++ [0]) (zlen s) off buf = Ret (buf ++ t) /\ shows (zdrop off s) t.
Proof.
  intros U. induction fuel as [| fuel IH]; intros off buf B F; [lia |]. cbn [dump_chars].
  destruct (Z.geb_spec off (zlen s)) as [G | G].
  - exists []. rewrite app_nil_r. split; auto.
    assert (E : zdrop off s = []).
    { unfold zdrop. apply skipn_all2. unfold zlen in G. lia. }
    rewrite E. constructor.
  - destruct (zdrop_znth s off ltac:(lia)) as (b & Eb & Ed).
    assert (Ub : in_u8 b).
    { rewrite Forall_forall in U. apply U. unfold znth in Eb. destruct (off <? 0); [discriminate |].
      eapply nth_error_In; eauto. }
    assert (Er : rd (s ++ [0]) off = Ret b).
    { apply rd_ok. unfold znth in *. destruct (Z.ltb_spec off 0); [lia |]. rewrite nth_error_app1; auto.
      unfold zlen in G. lia. }
    rewrite iterate_nul by (auto; lia). rewrite Er.
    assert (HL : zlen (zdrop off s) = zlen s - off) by (autorewrite with zlen; lia).
    assert (UD : Forall in_u8 (zdrop off s)) by now apply zdrop_bytes.
    destruct (iterate_total (zdrop off s) 0 (zlen s - off)) as (r & c & E & R); auto; try lia.
    rewrite E. cbn [obind]. destruct R as [R | (-> & ->)].
    + destruct (iterate_sound (zdrop off s) 0 (zlen s - off) r c UD ltac:(lia) ltac:(lia) E ltac:(lia)) as (W & Q).
      assert (Es : zdrop off s = zsub (zdrop off s) 0 r ++ zdrop (off + r) s) by zext.
      assert (Ez : zsub (s ++ [0]) off r = zsub (zdrop off s) 0 r) by zext.
      assert (Lz : zlen (zsub (zdrop off s) 0 r) = r) by (autorewrite with zlen; lia).
      destruct (Z.gtb_spec r 0) as [_ | N]; [| lia].
      destruct ((r =? 1) && negb (isprint b)) eqn:P.
      * apply andb_prop in P. destruct P as (P1 & P2). apply Z.eqb_eq in P1. subst r.
        destruct (IH (off + 1) (buf ++ x02X b) ltac:(lia) ltac:(lia)) as (t & Et & S).
        exists (escaped b ++ t). split; [rewrite Et, x02X_spec, <- app_assoc by auto; reflexivity |].
        rewrite Ed. apply sh_control; auto. destruct (wf_char_one _ _ W Lz) as (Ec & Bc).
        rewrite Ec in Es. rewrite Ed in Es. cbn in Es. inversion Es; subst c. unfold isprint in P2. lia.
      * destruct (IH (off + r) (buf ++ zsub (s ++ [0]) off r) ltac:(lia) ltac:(lia)) as (t & Et & S).
        exists (zsub (zdrop off s) 0 r ++ t). split; [rewrite Et, Ez, <- app_assoc; reflexivity |].
        rewrite Es at 1. destruct (Z.eq_dec r 1) as [-> | N1].
        -- destruct (wf_char_one _ _ W Lz) as (Ec & Bc). assert (c = b) as ->.
           { rewrite Ec in Es. rewrite Ed in Es. cbn in Es. inversion Es; auto. }
           unfold isprint in P. apply sh_char with b; auto; lia.
        -- pose proof (wf_char_long _ _ W ltac:(lia)). apply sh_char with c; auto; lia.
    + cbn [Z.gtb Z.compare]. destruct (IH (off + 1) (buf ++ x02X b) ltac:(lia) ltac:(lia)) as (t & Et & S).
      exists (escaped b ++ t). split; [rewrite Et, x02X_spec, <- app_assoc by auto; reflexivity |].
      rewrite Ed. apply sh_invalid; auto. intros ch cp rest W H.
      assert (HQ : zsub (zdrop off s) 0 (zlen s - off) = zdrop off s) by zext.
      destruct (iterate_exact (zdrop off s) 0 (zlen s - off)) as [X _]; auto; try lia.
      rewrite HQ in X. specialize (X ch cp rest (eq_trans Ed H) W). rewrite E in X. inversion X.
      pose proof (wf_char_len _ _ W). lia.
Qed.

(** ** Loops *)

Lemma spaces_indent d : spaces d = indent d.
Proof. induction d as [| d IH]; cbn; [reflexivity |]. now rewrite IH. Qed.
Lemma brackets_spec n : brackets n = concat (repeat [91; 93] n).
Proof. induction n as [| n IH]; cbn; [reflexivity |]. now rewrite IH. Qed.

Fixpoint emit (l : list (list Z)) : list Z :=
  match l with [] => [] | x :: r => x ++ separator r ++ emit r end.

Lemma emit_block d l : emit (map (fun x => indent d ++ x) l) = block d l.
Proof.
  destruct l as [| x r]; [reflexivity |]. cbn [map emit block]. rewrite <- app_assoc. f_equal. f_equal.
  revert x. induction r as [| y r IH]; intros x; cbn [map emit concat separator]; [reflexivity |].
  rewrite IH by auto. rewrite <- !app_assoc. reflexivity.
Qed.

Inductive walk : list Z -> list (Z * bool) -> list Z -> Prop :=
| w_nil s : walk s [] s
| w_full a s m s' : ~ In a s -> walk (a :: s) m s' -> walk s ((a, true) :: m) s'
| w_reuse a s m s' : In a s -> walk s m s' -> walk s ((a, false) :: m) s'.

Lemma walk_app s m s1 m2 s2 : walk s m s1 -> walk s1 m2 s2 -> walk s (m ++ m2) s2.
Proof. induction 1; intros W; cbn; auto; constructor; auto. Qed.
Lemma walk_incl s m s' : walk s m s' -> incl s s'.
Proof.
  induction 1 as [s | a s m s' N W IH | a s m s' I W IH]; intros x X; auto. apply IH. now right.
Qed.

Lemma walk_first s m s' : walk s m s' -> forall before a full after, m = before ++ (a, full) :: after ->
  (full = true <-> ~ (In a (map fst before) \/ In a s)).
Proof.
  induction 1 as [s | a s m s' N W IH | a s m s' I W IH]; intros before x full after E.
  - destruct before; discriminate.
  - destruct before as [| y before]; cbn in E; inversion E; subst.
    + cbn. tauto.
    + rewrite (IH _ _ _ _ eq_refl). cbn. tauto.
  - destruct before as [| y before]; cbn in E; inversion E; subst.
    + cbn. split; [discriminate | tauto].
    + rewrite (IH _ _ _ _ eq_refl). cbn. split; [intros H K; apply H | intros H K; apply H]; intuition (subst; auto).
Qed.

Lemma walk_first_in_full m s' : walk [] m s' -> first_in_full m.
Proof. intros W b a f r E. rewrite (walk_first _ _ _ W _ _ _ _ E). cbn. tauto. Qed.

Section Sound.
  Variable heap : Z -> option object.
  Variable fmt_g fmt_p : Z -> list Z.
  Hypothesis INJ : forall a b, heap a <> None -> heap b <> None -> fmt_p a = fmt_p b -> a = b.
  Hypothesis BYTES : forall a s, heap a = Some (OString s) -> Forall in_u8 s.

  Definition known (seen : list Z) : Prop := forall a, In a seen -> heap a <> None.
  Definition mkst (buf : list Z) (seen : list Z) : dstate := (buf, map fmt_p seen).

  (** What a step that shows [tx] and has the marks [mk] does. *)
  Definition did (st' : dstate) (buf seen tx : list Z) (mk : list (Z * bool)) : Prop :=
    exists seen', st' = mkst (buf ++ tx) seen' /\ walk seen mk seen' /\ known seen'.

  Lemma items_sound {A W : Type} (f : A -> dstate -> outcome dstate) (P : A -> W -> Prop)
      (tx : W -> list Z) (mk : W -> list (Z * bool)) :
    (forall x buf seen st', known seen -> f x (mkst buf seen) = Ret st' -> exists w, P x w /\ did st' buf seen (tx w) (mk w)) ->
    forall l buf seen st', known seen -> items f l (mkst buf seen) = Ret st' ->
    exists ws, Forall2 P l ws /\ did st' buf seen (emit (map tx ws)) (flat_map mk ws).
  Proof using.
    intros F. induction l as [| x l IH]; intros buf seen st' K E; cbn [items] in E.
    - inversion E; subst. exists []. split; [constructor |]. exists seen. cbn. rewrite app_nil_r.
      repeat split; auto. constructor.
    - destruct (f x (mkst buf seen)) as [st1 | | |] eqn:Q; cbn [obind] in E; try discriminate.
      destruct (F _ _ _ _ K Q) as (w & Pw & s1 & -> & W1 & K1).
      unfold add, mkst in E. cbn [fst snd] in E. change (?b, map fmt_p s1) with (mkst b s1) in E.
      destruct (IH _ _ _ K1 E) as (ws & Pws & s2 & -> & W2 & K2).
      exists (w :: ws). split; [constructor; auto |]. exists s2. split; [| split; auto].
      + f_equal. cbn [map emit]. rewrite <- !app_assoc. do 2 f_equal. f_equal.
        inversion Pws; subst; reflexivity.
      + cbn [flat_map]. eapply walk_app; eauto.
  Qed.

  Lemma address_eq p : no_weaken_address p = address p.
  Proof using. unfold no_weaken_address, address. pose proof (Z.div_mod p 2). lia. Qed.
  Lemma address_idem p : address (address p) = address p.
  Proof using. unfold address. f_equal. rewrite Z.mul_comm. apply Z.div_mul. lia. Qed.

  Lemma represents_ext p q t : address p = address q -> represents heap p t -> represents heap q t.
  Proof using.
    intros E R. destruct R; rewrite E in *; econstructor; eauto.
  Qed.

  Definition sound_at (fuel : nat) : Prop := forall depth p buf seen st', address p = p -> known seen ->
    dump_recursive heap fmt_g fmt_p fuel depth p (mkst buf seen) = Ret st' ->
    exists t, represents heap p t /\ did st' buf seen (text fmt_g fmt_p depth t) (marks t).

  Lemma beq_spec a b : beq a b = true <-> a = b.
  Proof using. unfold beq. destruct (list_eq_dec Z.eq_dec a b); split; congruence. Qed.

  Lemma seen_spec a seen : heap a <> None -> known seen ->
    (existsb (beq (fmt_p a)) (map fmt_p seen) = true <-> In a seen).
  Proof using INJ.
    intros H K. rewrite existsb_exists. split.
    - intros (x & I & E). apply beq_spec in E. subst x. apply in_map_iff in I. destruct I as (b & E & I).
      now rewrite <- (INJ b a (K _ I) H E).
    - intros I. exists (fmt_p a). split; [now apply in_map | now apply beq_spec].
  Qed.

  Lemma Forall2_eq_map {A B} (g : A -> B) l ws : Forall2 (fun x w => w = g x) l ws -> ws = map g l.
  Proof using. induction 1; cbn; congruence. Qed.

  Lemma flat_map_nil {A B} (l : list A) : flat_map (fun _ => @nil B) l = [].
  Proof using. induction l; auto. Qed.

  Lemma marks_map {A} (g : A -> tree) l : (forall x, marks (g x) = []) -> flat_map marks (map g l) = [].
  Proof using. intros H. induction l as [| x l IH]; cbn; auto. now rewrite H. Qed.

  Lemma add_mkst b s x : add (mkst b s) x = mkst (b ++ x) s.
  Proof using. reflexivity. Qed.

  (** Loops whose steps print and change nothing else. *)
  Lemma items_plain {A} (f : A -> dstate -> outcome dstate) (tx : A -> list Z) :
    (forall x buf seen, f x (mkst buf seen) = Ret (mkst (buf ++ tx x) seen)) ->
    forall l buf seen, items f l (mkst buf seen) = Ret (mkst (buf ++ emit (map tx l)) seen).
  Proof using.
    intros F. induction l as [| x l IH]; intros buf seen; cbn [items map emit].
    - now rewrite app_nil_r.
    - rewrite F. cbn [obind]. unfold add, mkst. cbn [fst snd].
      change (?b, map fmt_p seen) with (mkst b seen) at 1. rewrite IH. rewrite <- !app_assoc.
      unfold mkst. do 4 f_equal. destruct l; reflexivity.
  Qed.

  Ltac norm := unfold array_end, add, mkst, named; cbn [fst snd]; rewrite ?spaces_indent, ?brackets_spec, ?address_eq, <- ?app_assoc; cbn [app];
    repeat match goal with H : address ?p = ?p |- context [address ?p] => rewrite H end.

  Lemma sound fuel : sound_at fuel.
  Proof using INJ BYTES.
    induction fuel as [| fuel IH]; intros depth p buf seen st' A K E; [discriminate |].
    cbn [dump_recursive] in E. rewrite address_eq, A in E. destruct (Z.eqb_spec p 0) as [-> | NZ].
    { inversion E; subst. exists TUndef. split; [constructor; reflexivity |]. exists seen.
      split; [reflexivity |]. split; [constructor | auto]. }
    assert (NZ' : address p <> 0) by congruence.
    destruct (heap p) as [o |] eqn:H; [| discriminate].
    assert (H' : heap (address p) = Some o) by congruence.
    destruct o as [s | ty l | ty names l | ty dim l | ty fields].
    - destruct (dump_chars_spec s (BYTES _ _ H) (S (length s)) 0 (buf ++ [34])) as (t & Et & S).
      { pose proof (zlen_nonneg s). lia. }
      { unfold zlen. lia. }
      change (fst (mkst buf seen)) with buf in E. rewrite Et in E. inversion E; subst.
      exists (TText t). split; [econstructor; eauto |]. exists seen. split; [| split; [constructor | auto]].
      norm. reflexivity.
    - rewrite add_mkst in E. rewrite (items_plain _ (fun n => indent (S depth) ++ fmt_num fmt_g n)) in E.
      2:{ intros x b sn. norm. replace (depth + 1)%nat with (S depth) by lia. reflexivity. }
      inversion E; subst. eexists. split; [eapply rep_nums; eauto |].
      exists seen. split; [| split; [cbn [marks]; rewrite marks_map by auto; constructor | auto]].
      rewrite A. norm. cbn [text]. rewrite map_map. cbn [text]. rewrite <- emit_block, map_map. norm. reflexivity.
    - rewrite add_mkst in E. rewrite (items_plain _ (fun ns => indent (S depth) ++ text fmt_g fmt_p (S depth) (TRecord (combine names ns)))) in E.
      2:{ intros x b sn. rewrite !add_mkst.
          rewrite (items_plain _ (fun x => indent (S (S depth)) ++ fst x ++ [32; 61; 62; 32] ++ fmt_num fmt_g (snd x))).
          2:{ intros y b' sn'. norm. replace (depth + 2)%nat with (S (S depth)) by lia. reflexivity. }
          cbn [obind]. norm. replace (depth + 1)%nat with (S depth) by lia. cbn [text].
          rewrite <- emit_block, map_map. norm. reflexivity. }
      inversion E; subst. eexists. split; [eapply rep_mulnums; eauto |].
      exists seen. split; [| split; [cbn [marks]; rewrite marks_map by auto; constructor | auto]].
      rewrite A. norm. cbn [text]. rewrite <- emit_block, !map_map. norm. reflexivity.
    - destruct (items _ _ _) as [st1 | | |] eqn:Q in E; cbn [obind] in E; try discriminate. inversion E; subst. clear E.
      rewrite add_mkst in Q.
      apply (items_sound _ (represents heap) (fun t => indent (S depth) ++ text fmt_g fmt_p (S depth) t) marks) in Q; auto.
      2:{ intros q b sn st2 Kn Eq. rewrite add_mkst, address_eq in Eq. apply IH in Eq; auto using address_idem.
          destruct Eq as (t & R & s2 & -> & W & K2). exists t. split; [eapply represents_ext; [apply address_idem | eauto] |].
          exists s2. split; auto. norm. replace (depth + 1)%nat with (S depth) by lia. reflexivity. }
      destruct Q as (ts & F & s2 & -> & W & K2). eexists. split; [eapply rep_objects; eauto |].
      exists s2. split; auto. rewrite A. norm. cbn [text]. rewrite <- emit_block, map_map. norm. reflexivity.
    - destruct (existsb (beq (fmt_p p)) (snd (mkst buf seen))) eqn:X; cbn [mkst snd] in X.
      + apply seen_spec in X; auto; [| congruence]. inversion E; subst.
        exists (TReuse (address p)). split; [econstructor; eauto |]. exists seen. rewrite A. split; [| split; auto].
        * norm. reflexivity.
        * cbn. constructor; auto. constructor.
      + assert (NI : ~ In p seen).
        { intros I. apply seen_spec in I; auto; congruence. }
        assert (K1 : known (p :: seen)) by (intros a [<- | I]; [congruence | auto]).
        destruct (items _ _ _) as [st1 | | |] eqn:Q in E; cbn [obind] in E; try discriminate. inversion E; subst. clear E.
        change (fst (mkst buf seen), fmt_p p :: snd (mkst buf seen)) with (mkst buf (p :: seen)) in Q.
        rewrite add_mkst in Q.
        set (rf := fun (x : list Z * fvalue) (w : list Z * tree) =>
                     fst x = fst w /\ match snd x with FNum n => snd w = TNum n | FRef q => represents heap q (snd w) end).
        apply (items_sound _ rf (fun w => indent (S depth) ++ named (fst w) (text fmt_g fmt_p (S depth) (snd w)))
                 (fun w => marks (snd w))) in Q; auto.
        2:{ intros (nm, v) b sn st2 Kn Eq. cbn [fst snd] in Eq. rewrite add_mkst in Eq. destruct v as [n | q].
            - inversion Eq; subst. exists (nm, TNum n). split; [split; reflexivity |]. exists sn.
              split; [| split; [constructor | auto]]. norm. replace (depth + 1)%nat with (S depth) by lia. reflexivity.
            - rewrite address_eq in Eq.
              apply IH in Eq; auto using address_idem. destruct Eq as (t & R & s2 & -> & W & K2).
              exists (nm, t). split; [split; [reflexivity |]; cbn; eapply represents_ext; [apply address_idem | eauto] |].
              exists s2. split; auto. norm. replace (depth + 1)%nat with (S depth) by lia. reflexivity. }
        destruct Q as (ts & F & s2 & -> & W & K2).
        exists (TObject ty (address p) ts). split.
        * econstructor; eauto. clear -F. induction F as [| (nm, v) (nm', t) l ws (E1 & E2) F IH]; [constructor |].
          cbn in E1, E2. subst nm'. destruct v as [n | q]; [subst t |]; constructor; auto.
        * exists s2. rewrite A. split; [| split; auto].
          -- norm. cbn [text]. rewrite <- emit_block, map_map. norm. reflexivity.
          -- cbn [marks]. constructor; auto.
  Qed.
End Sound.

(** ** Every reachable instance is shown *)

Lemma tree_nested_ind (P : tree -> Prop) :
  P TUndef -> (forall s, P (TText s)) -> (forall n, P (TNum n)) -> (forall a, P (TReuse a)) ->
  (forall ty dim a ts, Forall P ts -> P (TArray ty dim a ts)) ->
  (forall fields, P (TRecord fields)) ->
  (forall ty a fields, Forall (fun x => P (snd x)) fields -> P (TObject ty a fields)) ->
  forall t, P t.
Proof.
  intros H1 H2 H3 H4 H5 H6 H7. fix IH 1. intros [| s | n | a | ty dim a ts | fields | ty a fields].
  - exact H1.
  - apply H2.
  - apply H3.
  - apply H4.
  - apply H5. induction ts as [| x ts IHt]; constructor; [apply IH | exact IHt].
  - apply H6.
  - apply H7. induction fields as [| x fields IHf]; constructor; [apply IH | exact IHf].
Qed.

Inductive subtree : tree -> tree -> Prop :=
| sub_refl t : subtree t t
| sub_array ty dim a ts t u : In t ts -> subtree u t -> subtree u (TArray ty dim a ts)
| sub_object ty a fields name t u : In (name, t) fields -> subtree u t -> subtree u (TObject ty a fields).

Lemma subtree_trans t u : subtree u t -> forall w, subtree t w -> subtree u w.
Proof.
  intros S w H. induction H; auto.
  - eapply sub_array; eauto.
  - eapply sub_object; eauto.
Qed.

Lemma subtree_marks t w : subtree t w -> forall x, In x (marks t) -> In x (marks w).
Proof.
  induction 1 as [t | ty dim a ts t u I S IH | ty a fields name t u I S IH]; intros x X; auto.
  - cbn. apply in_flat_map. eauto.
  - cbn. right. apply in_flat_map. exists (name, t). auto.
Qed.

Lemma mark_subtree w : forall a, In (a, true) (marks w) -> exists ty fields, subtree (TObject ty a fields) w.
Proof.
  induction w as [| s | n | b | ty dim b ts IH | fields | ty b fields IH] using tree_nested_ind; intros a I; cbn in I;
    try tauto.
  - destruct I as [I | []]. discriminate.
  - apply in_flat_map in I. destruct I as (t & It & I). rewrite Forall_forall in IH.
    destruct (IH t It a I) as (ty' & fs & S). exists ty', fs. eapply sub_array; eauto.
  - destruct I as [E | I].
    + inversion E; subst. exists ty, fields. constructor.
    + apply in_flat_map in I. destruct I as ((nm, t) & It & I). rewrite Forall_forall in IH.
      destruct (IH _ It a I) as (ty' & fs & S). exists ty', fs. eapply sub_object; eauto.
Qed.

Section Cover.
  Variable heap : Z -> option object.
  Hypothesis NULL : forall o, heap 0 = Some o -> False.

  Lemma represents_fields_in fields ts : represents_fields heap fields ts ->
    forall name t, In (name, t) ts -> (exists n, t = TNum n) \/ exists p, In (name, FRef p) fields /\ represents heap p t.
  Proof using.
    induction 1 as [| nm n l ts R IH | nm p t l ts R1 R IH]; intros name x [].
    - inversion H; subst. eauto.
    - destruct (IH _ _ H) as [? | (q & I & Q)]; auto. right. exists q. split; auto. now right.
    - inversion H; subst. right. exists p. split; [now left | auto].
    - destruct (IH _ _ H) as [? | (q & I & Q)]; auto. right. exists q. split; auto. now right.
  Qed.
  Lemma represents_fields_ref fields ts : represents_fields heap fields ts ->
    forall name p, In (name, FRef p) fields -> exists t, In (name, t) ts /\ represents heap p t.
  Proof using.
    induction 1 as [| nm n l ts R IH | nm p t l ts R1 R IH]; intros name q [].
    - discriminate.
    - destruct (IH _ _ H) as (t & I & Q). exists t. split; auto. now right.
    - inversion H; subst. exists t. split; [now left | auto].
    - destruct (IH _ _ H) as (u & I & Q). exists u. split; auto. now right.
  Qed.

  Lemma Forall2_In_l {A B} (R : A -> B -> Prop) l r : Forall2 R l r -> forall x, In x l -> exists y, In y r /\ R x y.
  Proof using.
    induction 1 as [| a b l r H F IH]; intros x []; subst.
    - exists b. split; [now left | auto].
    - destruct (IH _ H0) as (y & I & Q). exists y. split; [now right | auto].
  Qed.
  Lemma Forall2_In_r {A B} (R : A -> B -> Prop) l r : Forall2 R l r -> forall y, In y r -> exists x, In x l /\ R x y.
  Proof using.
    induction 1 as [| a b l r H F IH]; intros x []; subst.
    - exists a. split; [now left | auto].
    - destruct (IH _ H0) as (y & I & Q). exists y. split; [now right | auto].
  Qed.

  (** A subtree with references in it shows some pointer. *)
  Lemma subtree_represents w p : represents heap p w -> forall ty a fields, subtree (TObject ty a fields) w ->
    exists q, address q = a /\ represents heap q (TObject ty a fields).
  Proof using.
    revert p. induction w as [| s | n | b | ty dim b ts IH | fields | ty b fields IH] using tree_nested_ind;
      intros p R ty' a fs S; inversion S as [| x1 x2 x3 x4 t x5 I1 I2 | x1 x2 x3 nm t x4 I1 I2]; subst; try (inversion R; fail).
    - inversion R as [| | x1 x2 l N Eh | x1 x2 x3 l N Eh | x1 x2 x3 l x4 N Eh F | |]; subst.
      + apply in_map_iff in I1. destruct I1 as (n & <- & _). inversion I2.
      + apply in_map_iff in I1. destruct I1 as (n & <- & _). inversion I2.
      + destruct (Forall2_In_r _ _ _ F _ I1) as (q & _ & Q). rewrite Forall_forall in IH. exact (IH _ I1 _ Q _ _ _ I2).
    - inversion R; subst. eauto.
    - inversion R as [| | | | | x1 x2 x3 x4 N Eh F |]; subst.
      destruct (represents_fields_in _ _ F _ _ I1) as [(n & ->) | (q & _ & Q)].
      + inversion I2.
      + rewrite Forall_forall in IH. exact (IH _ I1 _ Q _ _ _ I2).
  Qed.

  Lemma first_occurrence (m : list (Z * bool)) a : In a (map fst m) ->
    exists l1 f l2, m = l1 ++ (a, f) :: l2 /\ ~ In a (map fst l1).
  Proof using.
    induction m as [| (c, f) m IH]; intros []; cbn in *.
    - subst c. exists [], f, m. auto.
    - destruct (Z.eq_dec c a) as [-> | N]; [exists [], f, m; auto |].
      destruct (IH H) as (l1 & g & l2 & -> & X). exists ((c, f) :: l1), g, l2. split; auto. cbn. tauto.
  Qed.
  Lemma first_full_exists m : first_in_full m -> forall a b, In (a, b) m -> In (a, true) m.
  Proof using.
    intros F a b I. destruct (first_occurrence m a) as (l1 & f & l2 & E & N).
    { apply in_map_iff. exists (a, b). auto. }
    apply (F _ _ _ _ E) in N. subst. apply in_or_app. right. now left.
  Qed.

  Definition full (t : tree) : Prop := match t with TReuse _ => False | _ => True end.

  (** Every object that can be reached has a subtree that shows it in full. *)
  Lemma covered p w : represents heap p w -> first_in_full (marks w) -> full w ->
    forall q, reaches heap p q -> exists t, subtree t w /\ represents heap q t /\ full t.
  Proof using NULL.
    intros R F W q H. induction H as [| q r H IH E NZ].
    - exists w. split; [constructor | auto].
    - destruct IH as (t & S & Q & Ft).
      assert (X : exists u, subtree u t /\ represents heap r u).
      { destruct E as [(ty & dim & l & Eh & I) | (ty & fields & name & Eh & I)].
        - destruct Q as [q Z0 | q s t N Eq S1 | q ty' l' N Eq | q ty' nms l' N Eq | q ty' dim' l' ts N Eq F2
                         | q ty' fs ts N Eq F2 | q ty' fs N Eq]; try congruence.
          + rewrite Eh in Eq. inversion Eq; subst. destruct (Forall2_In_l _ _ _ F2 _ I) as (u & Iu & U).
            exists u. split; auto. eapply sub_array; eauto. constructor.
        - destruct Q as [q Z0 | q s t N Eq S1 | q ty' l' N Eq | q ty' nms l' N Eq | q ty' dim' l' ts N Eq F2
                         | q ty' fs ts N Eq F2 | q ty' fs N Eq]; try congruence.
          + rewrite Eh in Eq. inversion Eq; subst. destruct (represents_fields_ref _ _ F2 _ _ I) as (u & Iu & U).
            exists u. split; auto. eapply sub_object; eauto. constructor.
          + destruct Ft. }
      destruct X as (u & Su & U). assert (SW : subtree u w) by (eapply subtree_trans; eauto).
      destruct u as [| s | n | a | ty dim a ts | fields | ty a fields]; try (eexists; split; [exact SW | split; [exact U | exact Logic.I]]).
      assert (In (a, true) (marks w)).
      { apply (first_full_exists _ F a false). eapply subtree_marks; eauto. now left. }
      apply mark_subtree in H0. destruct H0 as (ty & fs & S2).
      destruct (subtree_represents _ _ R _ _ _ S2) as (q' & Ea & R').
      exists (TObject ty a fs). split; auto. split; [| exact Logic.I].
      eapply represents_ext; [| exact R']. inversion U; subst. congruence.
  Qed.
End Cover.

(** ** Termination *)

Section Term.
  Variable heap : Z -> option object.
  Variable fmt_g fmt_p : Z -> list Z.
  Hypothesis INJ : forall a b, heap a <> None -> heap b <> None -> fmt_p a = fmt_p b -> a = b.
  Hypothesis BYTES : forall a s, heap a = Some (OString s) -> Forall in_u8 s.
  Hypothesis DANGLE : no_dangling heap.
  Variable classes : list Z.
  Hypothesis CLASSES : forall a ty fields, heap a = Some (OClass ty fields) -> In a classes.
  Variable rank : Z -> nat.
  Hypothesis RANK : forall a ty dim l q ty' dim' l',
    heap a = Some (OObjects ty dim l) -> In q l -> heap (address q) = Some (OObjects ty' dim' l') ->
    (rank (address q) < rank a)%nat.

  Definition unseen (seen : list Z) : nat :=
    length (filter (fun a => if in_dec Z.eq_dec a seen then false else true) classes).

  Lemma unseen_incl s s' : incl s s' -> (unseen s' <= unseen s)%nat.
  Proof using.
    intros I. unfold unseen. clear CLASSES. induction classes as [| a l IH]; cbn [filter]; auto.
    destruct (in_dec Z.eq_dec a s) as [Y | N], (in_dec Z.eq_dec a s') as [Y' | N']; cbn [length]; try lia.
    destruct (N' (I _ Y)).
  Qed.
  Lemma unseen_less a s : In a classes -> ~ In a s -> (unseen (a :: s) < unseen s)%nat.
  Proof using.
    intros I N. unfold unseen. clear CLASSES. induction classes as [| b l IH]; [destruct I |].
    assert (L : (length (filter (fun x => if in_dec Z.eq_dec x (a :: s) then false else true) l) <=
                 length (filter (fun x => if in_dec Z.eq_dec x s then false else true) l))%nat).
    { clear. induction l as [| x l IH]; cbn [filter]; auto.
      destruct (in_dec Z.eq_dec x (a :: s)) as [Y | N], (in_dec Z.eq_dec x s) as [Y' | N']; cbn [length]; try lia.
      destruct N. now right. }
    cbn [filter]. destruct (Z.eq_dec b a) as [-> | D].
    - destruct (in_dec Z.eq_dec a (a :: s)) as [_ | X]; [| destruct X; now left].
      destruct (in_dec Z.eq_dec a s); [contradiction |]. cbn [length]. lia.
    - destruct I as [I | I]; [contradiction |]. specialize (IH I).
      destruct (in_dec Z.eq_dec b (a :: s)) as [[Y | Y] | N1], (in_dec Z.eq_dec b s) as [Y' | N2]; cbn [length]; try lia; try congruence; try contradiction.
      destruct N1. now right.
  Qed.

  Definition ends (u : nat) (p : Z) : Prop := exists n, forall fuel, (n <= fuel)%nat ->
    forall depth buf seen, known heap seen -> (unseen seen <= u)%nat ->
    exists st', dump_recursive heap fmt_g fmt_p fuel depth p (mkst fmt_p buf seen) = Ret st'.

  (** What an ended step leaves. *)
  Lemma ends_step u p : address p = p -> ends u p -> exists n, forall fuel, (n <= fuel)%nat ->
    forall depth buf seen, known heap seen -> (unseen seen <= u)%nat ->
    exists buf' seen', dump_recursive heap fmt_g fmt_p fuel depth p (mkst fmt_p buf seen) = Ret (mkst fmt_p buf' seen') /\
      known heap seen' /\ incl seen seen'.
  Proof using INJ BYTES.
    intros A (n & H). exists n. intros fuel L depth buf seen K U. destruct (H fuel L depth buf seen K U) as (st' & E).
    destruct (sound heap fmt_g fmt_p INJ BYTES fuel depth p buf seen st' A K E) as (t & _ & s' & -> & W & K').
    eexists _, s'. split; [exact E |]. split; auto. eapply walk_incl; eauto.
  Qed.

  Lemma all_end : forall u p, address p = p -> (p = 0 \/ heap p <> None) -> ends u p.
  Proof using INJ BYTES DANGLE CLASSES RANK.
    intros u. induction u as [u IHu] using (well_founded_induction lt_wf).
    assert (OK : forall p q, refers heap p q -> address q = 0 \/ heap (address q) <> None) by exact DANGLE.
    (* everything but arrays of objects *)
    assert (NA : forall p, address p = p -> (p = 0 \/ heap p <> None) ->
                 (forall ty dim l, heap p <> Some (OObjects ty dim l)) -> ends u p).
    { intros p A H NO. destruct (Z.eq_dec p 0) as [-> | NZ].
      { exists 1%nat. intros [| fuel] L; [lia |]. intros. cbn. eauto. }
      destruct H as [-> | H]; [contradiction |].
      destruct (heap p) as [o |] eqn:E; [clear H | contradiction].
      destruct o as [s | ty l | ty names l | ty dim l | ty fields].
      - exists 1%nat. intros [| fuel] L depth buf seen K U; [lia |]. cbn [dump_recursive].
        rewrite (proj2 (Z.eqb_neq p 0) NZ), address_eq, A, E.
        destruct (dump_chars_spec s (BYTES _ _ E) (S (length s)) 0 (buf ++ [34])) as (t & Et & _).
        { pose proof (zlen_nonneg s). lia. }
        { unfold zlen. lia. }
        change (fst (mkst fmt_p buf seen)) with buf. rewrite Et. cbn. eauto.
      - exists 1%nat. intros [| fuel] L depth buf seen K U; [lia |]. cbn [dump_recursive].
        rewrite (proj2 (Z.eqb_neq p 0) NZ), address_eq, A, E.
        rewrite add_mkst. rewrite (items_plain fmt_p _ (fun n => spaces (depth + 1) ++ fmt_num fmt_g n)); [cbn; eauto |].
        intros x b sn. rewrite !add_mkst, <- app_assoc. reflexivity.
      - exists 1%nat. intros [| fuel] L depth buf seen K U; [lia |]. cbn [dump_recursive].
        rewrite (proj2 (Z.eqb_neq p 0) NZ), address_eq, A, E. rewrite add_mkst.
        set (g := fun x : list Z * num => spaces (depth + 2) ++ fst x ++ [32; 61; 62; 32] ++ fmt_num fmt_g (snd x)).
        rewrite (items_plain fmt_p _ (fun ns => spaces (depth + 1) ++ [123; 10] ++ emit (map g (combine names ns)) ++ [32; 32; 125]));
          [cbn; eauto |]. intros x b sn. rewrite !add_mkst.
        rewrite (items_plain fmt_p _ g) by (intros; reflexivity).
        cbn [obind]. rewrite add_mkst, <- !app_assoc. reflexivity.
      - now destruct (NO ty dim l).
      - (* an instance of a class *)
        destruct u as [| u].
        + (* all are known *)
          exists 1%nat. intros [| fuel] L depth buf seen K U; [lia |]. cbn [dump_recursive].
          rewrite (proj2 (Z.eqb_neq p 0) NZ), address_eq, A, E.
          assert (I : In p seen).
          { destruct (in_dec Z.eq_dec p seen) as [I | N]; auto. pose proof (unseen_less p seen (CLASSES _ _ _ E) N). lia. }
          assert (X : existsb (beq (fmt_p p)) (map fmt_p seen) = true).
          { apply (seen_spec heap fmt_p INJ); auto; congruence. }
          cbn [mkst snd]. rewrite X. eauto.
        + set (f := fun fuel (dx : nat) (x : list Z * fvalue) (st : dstate) =>
                     let st := add st (spaces (dx + 1) ++ fst x ++ [32; 61; 62; 32]) in
                     match snd x with
                     | FNum n => Ret (add st (fmt_num fmt_g n))
                     | FRef q => dump_recursive heap fmt_g fmt_p fuel (dx + 1) (no_weaken_address q) st
                     end).
          assert (X : exists n, forall fuel, (n <= fuel)%nat -> forall dx buf seen, known heap seen -> (unseen seen <= u)%nat ->
                        exists st', items (f fuel dx) fields (mkst fmt_p buf seen) = Ret st').
          { (* the same bound for every depth *)
            assert (Y : forall x, In x fields -> exists n, forall fuel, (n <= fuel)%nat -> forall dx buf seen, known heap seen ->
                        (unseen seen <= u)%nat -> exists buf' seen', f fuel dx x (mkst fmt_p buf seen) = Ret (mkst fmt_p buf' seen') /\
                          known heap seen' /\ incl seen seen').
            { intros (nm, v) I. destruct v as [n | q].
              - exists 0%nat. intros fuel _ dx b sn Kn Un. unfold f. cbn [fst snd]. rewrite !add_mkst.
                eexists _, sn. split; [reflexivity |]. split; auto. intros x Hx; auto.
              - destruct (ends_step u (address q) (address_idem q)) as (n & Hn).
                { apply IHu; [lia | apply address_idem |]. apply (OK p). right.
                  exists ty, fields, nm. rewrite A. auto. }
                exists n. intros fuel L dx b sn Kn Un. unfold f. cbn [fst snd]. rewrite add_mkst, address_eq. apply Hn; auto. }
            clear -Y. induction fields as [| x l IH].
            - exists 0%nat. intros. cbn. eauto.
            - destruct (Y x (or_introl eq_refl)) as (n1 & H1).
              destruct IH as (n2 & H2); [intros y I; apply Y; now right |].
              exists (Nat.max n1 n2). intros fuel L dx buf seen K U.
              destruct (H1 fuel ltac:(lia) dx buf seen K U) as (b1 & s1 & E1 & K1 & I1). cbn [items]. rewrite E1. cbn [obind].
              rewrite add_mkst. apply H2; auto; [lia |]. pose proof (unseen_incl _ _ I1). lia. }
          destruct X as (n & X). exists (S n). intros [| fuel] L depth buf seen K U; [lia |]. cbn [dump_recursive].
          rewrite (proj2 (Z.eqb_neq p 0) NZ), address_eq, A, E.
          destruct (existsb (beq (fmt_p p)) (snd (mkst fmt_p buf seen))) eqn:Q; [eauto |]. cbn [mkst snd] in Q.
          assert (NI : ~ In p seen).
          { intros I. apply (seen_spec heap fmt_p INJ) in I; auto; congruence. }
          change (fst (mkst fmt_p buf seen), fmt_p p :: snd (mkst fmt_p buf seen)) with (mkst fmt_p buf (p :: seen)).
          rewrite add_mkst. change (items _ fields ?st) with (items (f fuel depth) fields st).
          destruct (X fuel ltac:(lia) depth (buf ++ (ty ++ [32; 40] ++ fmt_p p ++ [41; 32] ++ [123; 10])) (p :: seen)) as (st' & Es).
          { intros a [<- | I]; [congruence | auto]. }
          { pose proof (unseen_less p seen (CLASSES _ _ _ E) NI). lia. }
          rewrite Es. cbn. eauto. }
    assert (G : forall r p, (rank p <= r)%nat -> address p = p -> (p = 0 \/ heap p <> None) -> ends u p).
    { induction r as [r IHr] using (well_founded_induction lt_wf). intros p Lr A H.
      destruct (heap p) as [o |] eqn:E; [| apply NA; auto; [destruct H as [H | H]; [auto | contradiction] | congruence]].
      destruct o as [s | ty l | ty names l | ty dim l | ty fields]; try (apply NA; auto; [right |]; congruence).
      assert (EL : forall q, In q l -> ends u (address q)).
      { intros q I. assert (B : address q = 0 \/ heap (address q) <> None).
        { apply (OK p). left. exists ty, dim, l. rewrite A. auto. }
        destruct (heap (address q)) as [o |] eqn:Eq.
        - destruct o as [s | ty' l' | ty' names l' | ty' dim' l' | ty' fields];
            try (apply NA; [apply address_idem | right |]; congruence).
          apply (IHr (rank (address q))); auto using address_idem.
          + pose proof (RANK _ _ _ _ _ _ _ _ E I Eq). lia.
          + right. congruence.
        - apply NA; [apply address_idem | | congruence]. destruct B; [auto | contradiction]. }
      destruct (Z.eq_dec p 0) as [-> | NZ].
      { exists 1%nat. intros [| fuel] L; [lia |]. intros. cbn. eauto. }
      assert (X : exists n, forall fuel, (n <= fuel)%nat -> forall dx buf seen, known heap seen -> (unseen seen <= u)%nat ->
                  exists st', items (fun q st => dump_recursive heap fmt_g fmt_p fuel (dx + 1) (no_weaken_address q) (add st (spaces (dx + 1))))
                                l (mkst fmt_p buf seen) = Ret st').
      { clear E H. induction l as [| x l IH].
        - exists 0%nat. intros. cbn. eauto.
        - destruct (ends_step u (address x) (address_idem x) (EL x (or_introl eq_refl))) as (n1 & H1).
          destruct IH as (n2 & H2); [intros y I; apply EL; now right |].
          exists (Nat.max n1 n2). intros fuel L dx buf seen K U. cbn [items]. rewrite add_mkst, address_eq.
          destruct (H1 fuel ltac:(lia) (dx + 1)%nat (buf ++ spaces (dx + 1)) seen K U) as (b1 & s1 & E1 & K1 & I1).
          rewrite E1. cbn [obind]. rewrite add_mkst. apply H2; auto; [lia |]. pose proof (unseen_incl _ _ I1). lia. }
      destruct X as (n & X). exists (S n). intros [| fuel] L depth buf seen K U; [lia |]. cbn [dump_recursive].
      rewrite (proj2 (Z.eqb_neq p 0) NZ), address_eq, A, E. rewrite add_mkst.
      destruct (X fuel ltac:(lia) depth (buf ++ [91; 10]) seen K U) as (st' & Es). rewrite Es. cbn. eauto. }
    intros p A H. apply (G (rank p) p); auto.
  Qed.
End Term.

(** ** Fuel *)

Lemma items_mono {A} (f g : A -> dstate -> outcome dstate) :
  (forall x st st', f x st = Ret st' -> g x st = Ret st') ->
  forall l st st', items f l st = Ret st' -> items g l st = Ret st'.
Proof.
  intros H. induction l as [| x l IH]; intros st st' E; cbn [items] in *; auto.
  destruct (f x st) as [st1 | | |] eqn:Q; try discriminate. rewrite (H _ _ _ Q). cbn [obind] in *. auto.
Qed.

Lemma dump_mono heap fmt_g fmt_p : forall fuel depth p st st',
  dump_recursive heap fmt_g fmt_p fuel depth p st = Ret st' -> forall fuel', (fuel <= fuel')%nat ->
  dump_recursive heap fmt_g fmt_p fuel' depth p st = Ret st'.
Proof.
  induction fuel as [| fuel IH]; intros depth p st st' E fuel' L; [discriminate |].
  destruct fuel' as [| fuel']; [lia |]. cbn [dump_recursive] in *. destruct (p =? 0); auto.
  destruct (heap (no_weaken_address p)) as [[s | ty l | ty names l | ty dim l | ty fields] |]; auto.
  - destruct (items _ l _) as [st1 | | |] eqn:Q in E; cbn [obind] in E; try discriminate.
    erewrite items_mono; [exact E | | exact Q]. intros x s1 s2 X. cbn in X. apply (IH _ _ _ _ X). lia.
  - destruct (existsb _ _); auto.
    destruct (items _ fields _) as [st1 | | |] eqn:Q in E; cbn [obind] in E; try discriminate.
    erewrite items_mono; [exact E | | exact Q]. intros (nm, [n | q]) s1 s2 X; cbn in *; auto. apply (IH _ _ _ _ X). lia.
Qed.
