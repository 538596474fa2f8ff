(** * Proofs about numeric methods: the machine follows the meaning *)

From Verif Require Import Code_model Code_spec.
From Verif Require Import Base VmArith_model VmArith_proofs Expr_model Expr_spec Expr_proofs Prog_model Prog_spec Prog_proofs.

Section Float.
  Context {F D : Type} (fl : floats F D).
  Local Notation val := (val F D).
  Local Notation expr := (expr F D).
  Local Notation regs := (regs F D).
  Local Notation store := (nat -> val).
  Local Notation VI := (VI F D).
  Local Notation linstr := (linstr F D).
  Local Notation world := (world F D).
  Local Notation lstep := (lstep F D fl).
  Local Notation cond := (cond F D).
  Local Notation stmt := (stmt F D).
  Local Notation ast := (ast F D).

  (** ** Instructions in a row *)
  Fixpoint lrun (R : regs) (l : list linstr) : outcome regs :=
    match l with [] => Ret R | i :: l => let! R := lstep R i in lrun R l end.

  Lemma obind_assoc {A B C} (o : outcome A) (f : A -> outcome B) (g : B -> outcome C) :
    obind (obind o f) g = obind o (fun x => obind (f x) g).
  Proof. destruct o; reflexivity. Qed.

  Lemma lrun_app l l' R : lrun R (l ++ l') = let! R := lrun R l in lrun R l'.
  Proof. revert R. induction l as [| i l IH]; intros R; cbn [app lrun]; [reflexivity |].
    rewrite obind_assoc. destruct (lstep R i); cbn [obind]; auto. Qed.
  Lemma lrun_LI c R : lrun R (map (LI F D) c) = run F D fl R c.
  Proof. revert R. induction c as [| i c IH]; intros R; cbn [map lrun run]; [reflexivity |].
    change (lstep R (LI F D i)) with (step F D fl R i). destruct (step F D fl R i); cbn [obind]; auto. Qed.

  Lemma lstep_die i R msg : lstep R i = Die msg -> throws F D i = true.
  Proof.
    assert (Z : forall k o a b m, o <> ODiv -> o <> OMod -> o <> ODivU -> o <> OModU -> int_op k o a b <> Die m).
    { intros k o a b m. unfold int_op, add_i, sub_i, mul_i, shl_i, sar_i, shr_i, and_i, or_i, xor_i, not_i, neg_i, c_signed.
      destruct o; try congruence; intros _ _ _ _;
        repeat match goal with |- context [if ?c then _ else _] => destruct c end; discriminate. }
    destruct i as [i | t x | t x y | t x]; cbn [Prog_model.lstep throws]; try discriminate.
    - destruct i as [t x v | t x y | u t x y | b t x y z | c t x y z | s d x y]; cbn [step]; try discriminate.
      + unfold run_un, z_val, bits_of. intros H. exfalso. revert H.
        destruct u, t; cbn;
          repeat match goal with |- context [R ?t ?x] => destruct (R t x); cbn end; try discriminate;
          match goal with |- context [neg_i ?k ?z] => pose proof (Z k ONeg z 0) as N
                        | |- context [not_i ?z] => pose proof (Z 32 ONot z 0) as N end; cbn [int_op] in N;
          match goal with |- context [neg_i ?k ?z] => destruct (neg_i k z) eqn:E
                        | |- context [not_i ?z] => destruct (not_i z) eqn:E end; cbn; try discriminate;
          intros _; refine (N _ _ _ _ _ eq_refl); discriminate.
      + unfold run_bin, z_val, bits_of. destruct b, t; cbn -[int_op];
          repeat match goal with |- context [R ?t ?x] => destruct (R t x); cbn -[int_op] end; try discriminate; try reflexivity;
          match goal with |- context [int_op ?k ?o ?a ?b] =>
            destruct (int_op k o a b) eqn:E; cbn; try discriminate;
            intros [= ->]; exfalso; revert E; apply Z; discriminate end.
      + unfold run_cmp. destruct t; cbn;
          repeat match goal with |- context [R ?t ?x] => destruct (R t x); cbn end; discriminate.
      + unfold run_conv. intros H. exfalso. revert H.
        generalize (R s y); intros [z | f | f]; destruct s, d; unfold opt_val; cbn; try discriminate;
          repeat match goal with |- context [match ?x with Some _ => _ | None => _ end] => destruct x; cbn
                        | |- context [opt_val _ _ ?x] => destruct x; cbn end; discriminate.
    - intros H. exfalso. revert H. unfold cond_val. destruct t; cbn;
          repeat match goal with |- context [R ?t ?x] => destruct (R t x); cbn end; discriminate.
  Qed.

  Definition at_ (tbl : list linstr) (k : nat) (l : list linstr) : Prop :=
    forall j, (j < length l)%nat -> nth_error tbl (k + j) = nth_error l j.
  Lemma at_app tbl k l l' : at_ tbl k (l ++ l') -> at_ tbl k l /\ at_ tbl (k + length l) l'.
  Proof.
    intros H. split; intros j L.
    - rewrite H by (rewrite app_length; lia). now rewrite nth_error_app1.
    - rewrite <- Nat.add_assoc, H by (rewrite app_length; lia).
      rewrite nth_error_app2 by lia. f_equal. lia.
  Qed.
  Lemma at_cons tbl k i l : at_ tbl k (i :: l) -> nth_error tbl k = Some i /\ at_ tbl (S k) l.
  Proof.
    intros H. split.
    - specialize (H 0%nat). rewrite Nat.add_0_r in H. apply H. cbn. lia.
    - intros j L. replace (S k + j)%nat with (k + S j)%nat by lia. apply (H (S j)). cbn. lia.
  Qed.

  (** ** The shape of the nodes *)
  Fixpoint plain (lp : bool) (n : node) : bool :=
    match n with
    | NSkip | NDo _ | NTry _ _ | NReturn _ => true
    | NSeq a b => plain lp a && plain lp b
    | NNext | NLast => lp
    | NBlock b => plain lp b
    | NIf _ c _ t e => plain false c && plain lp t && plain lp e
    | NLoop i b n c _ => plain false i && plain true b && plain false n && plain false c
    | _ => false
    end.

  Lemma plain_mono n lp : plain false n = true -> plain lp n = true.
  Proof.
    destruct lp; [| auto]. induction n; cbn [plain]; rewrite ?andb_true_iff; try tauto; auto; try discriminate.
  Qed.

  Lemma plain_supported n : plain false n = true -> supported n = true.
  Proof.
    assert (A : forall lp n, plain lp n = true -> flow_ok lp false n = true).
    { intros lp n0. revert lp. induction n0; intros lp; cbn [plain flow_ok]; rewrite ?andb_true_iff; try tauto; try discriminate; firstorder. }
    assert (B : forall n lp, plain lp n = true -> has_eval n = false /\ has_decl n = false).
    { induction n0; intros lp; cbn [plain has_eval has_decl]; rewrite ?andb_true_iff; try (split; reflexivity); try discriminate;
        intros H; repeat match goal with H : _ /\ _ |- _ => destruct H end;
        repeat match goal with IH : forall lp, plain lp ?n = true -> _, H : plain _ ?n = true |- _ =>
          destruct (IH _ H) as (? & ?); clear IH end;
        repeat match goal with E : has_eval _ = false |- _ => rewrite E; clear E end;
        repeat match goal with E : has_decl _ = false |- _ => rewrite E; clear E end; auto. }
    assert (C : forall n lp, plain lp n = true -> eval_ok false n = true).
    { induction n0; intros lp; cbn [plain eval_ok]; rewrite ?andb_true_iff; try reflexivity; try discriminate;
        intros H; repeat match goal with H : _ /\ _ |- _ => destruct H end; cbn [andb negb]; intuition eauto. }
    assert (S : forall n lp, plain lp n = true -> scope_ok true n = (true, true)).
    { induction n0; intros lp; cbn [plain scope_ok]; rewrite ?andb_true_iff; try reflexivity; try discriminate;
        intros H; repeat match goal with H : _ /\ _ |- _ => destruct H end;
        repeat match goal with H : plain _ ?n = true |- _ =>
          match goal with
          | _ : has_decl n = false |- _ => fail 1
          | _ => destruct (B _ _ H)
          end end;
        repeat match goal with IH : forall lp, plain lp ?n = true -> _, H : plain _ ?n = true |- _ =>
          rewrite (IH _ H); clear IH end;
        cbn [fst];
        repeat match goal with E : has_decl _ = false |- _ => rewrite E; clear E end; cbn;
        repeat match goal with IH : forall lp, plain lp ?n = true -> _, H : plain _ ?n = true |- _ =>
          rewrite (IH _ H); clear IH end; cbn;
        rewrite ?andb_true_r, ?orb_true_r; reflexivity. }
    intros H. unfold supported. rewrite (A _ _ H), (C _ _ H), (S _ _ H). reflexivity.
  Qed.

  Lemma plain_nodes l k lp : plain lp (nodes F D k l) = true.
  Proof. revert k. induction l as [| i l IH]; intros k; cbn [nodes plain]; [reflexivity |].
    rewrite IH. destruct (throws F D i); reflexivity. Qed.

  Lemma plain_gen T m rt (a : ast) : forall lp k n l, gen_ast F D T m rt lp k a = Some (n, l) -> plain lp n = true.
  Proof.
    induction a; intros lp k n l; cbn [gen_ast].
    - intros [= <- _]. reflexivity.
    - destruct (gen_ast _ _ _ _ _ lp k a1) as [[na la] |] eqn:E1; [| discriminate].
      destruct (gen_ast _ _ _ _ _ lp _ a2) as [[nb lb] |] eqn:E2; [| discriminate].
      intros [= <- _]. cbn [plain]. rewrite (IHa1 _ _ _ _ E1), (IHa2 _ _ _ _ E2). reflexivity.
    - destruct (Expr_model.compile _ _ _ _ _); [| discriminate]. intros [= <- _]. apply plain_nodes.
    - intros [= <- _]. reflexivity.
    - destruct (gen_ast _ _ _ _ _ lp k a) as [[na la] |] eqn:E1; [| discriminate]. intros [= <- _]. cbn [plain]. eauto.
    - destruct (gen_ast _ _ _ _ _ false k a1) as [[n1 l1] |] eqn:E1; [| discriminate].
      destruct (gen_cond _ _ _ _ _) as [[lc r] |]; [| discriminate].
      destruct (gen_ast _ _ _ _ _ lp _ a2) as [[n2 l2] |] eqn:E2; [| discriminate].
      destruct (gen_ast _ _ _ _ _ lp _ a3) as [[n3 l3] |] eqn:E3; [| discriminate].
      intros [= <- _]. cbn [plain].
      rewrite (IHa1 _ _ _ _ E1), (IHa2 _ _ _ _ E2), (IHa3 _ _ _ _ E3), plain_nodes. reflexivity.
    - destruct (gen_ast _ _ _ _ _ false k a1) as [[n1 l1] |] eqn:E1; [| discriminate].
      destruct (gen_ast _ _ _ _ _ true _ a2) as [[n2 l2] |] eqn:E2; [| discriminate].
      destruct (gen_ast _ _ _ _ _ false _ a3) as [[n3 l3] |] eqn:E3; [| discriminate].
      destruct (gen_ast _ _ _ _ _ false _ a4) as [[n4 l4] |] eqn:E4; [| discriminate].
      destruct (gen_cond _ _ _ _ _) as [[lc r] |]; [| discriminate].
      intros [= <- _]. cbn [plain].
      rewrite (IHa1 _ _ _ _ E1), (IHa2 _ _ _ _ E2), (IHa3 _ _ _ _ E3), (IHa4 _ _ _ _ E4), plain_nodes. reflexivity.
    - destruct lp; [| discriminate]. intros [= <- _]. reflexivity.
    - destruct lp; [| discriminate]. intros [= <- _]. reflexivity.
    - destruct (gen_ast _ _ _ _ _ lp k a) as [[na la] |] eqn:E1; [| discriminate].
      destruct (gen_return _ _ _ _ _ _) as [[lc r] |]; [| discriminate].
      intros [= <- _]. cbn [plain]. rewrite (IHa _ _ _ _ E1), plain_nodes. reflexivity.
  Qed.

  (** ** Execution *)
  Section Exec.
    Variable tbl : list linstr.
    Variables (me : nat) (call_ : nat -> world -> option (Z * world)).
    Local Notation P := (machine F D fl tbl).
    Local Notation sst := (sst world (option regs)).
    Local Notation sem f := (sem P me call_ f).
    Local Notation here w R := (mks w (Some R) 0 [] : sst).

    Lemma leave_nil k (s : sst) : s_live s = [] -> leave P k s = s.
    Proof. destruct s as [g r e l]. cbn [s_live]. intros ->. unfold leave. cbn [s_live s_g s_r s_err].
      rewrite skipn_nil, firstn_nil. reflexivity. Qed.

    (** After undefined behaviour. *)
    Definition poisoned (lp : bool) (o : option (signal * sst)) : Prop :=
      exists sg s, o = Some (sg, s) /\ s_r s = None /\ s_live s = [] /\
        match sg with
        | SNormal => True
        | SNext | SLast => lp = true
        | SReturn => w_ub F D (s_g s) = true
        | _ => False
        end.

    Definition sloop (body inc c : node) (r : nat) (f b0 b1 : nat) : nat -> bool -> sst -> option (signal * sst) :=
      fix iter (k : nat) (again : bool) (si : sst) {struct k} : option (signal * sst) :=
        match (if again then sem f inc si else Some (SNormal, si)) with
        | Some (SNormal, si) =>
            match sem f c si with
            | Some (SNormal, si) =>
                if p_test P r (s_r si) then
                  match sem f body si with
                  | Some (SNormal, s') | Some (SNext, s') =>
                      match k with
                      | O => None
                      | S k => iter k true (leave P b1 s')
                      end
                  | Some (SLast, s') => Some (SNormal, leave P b0 s')
                  | other => other
                  end
                else Some (SNormal, leave P b0 si)
            | other => other
            end
        | other => other
        end.
    Lemma sem_loop f init body inc c r s :
      sem f (NLoop init body inc c r) s =
      match sem f init s with
      | Some (SNormal, s1) => sloop body inc c r f (lives s) (lives s1) f false s1
      | other => other
      end.
    Proof. reflexivity. Qed.

    Lemma poison_loop f body inc c r b0 b1 k again s lp :
      (forall s, s_r s = None -> s_live s = [] -> poisoned false (sem f inc s)) ->
      (forall s, s_r s = None -> s_live s = [] -> poisoned false (sem f c s)) ->
      s_r s = None -> s_live s = [] -> poisoned lp (sloop body inc c r f b0 b1 k again s).
    Proof.
      intros Hi Hc Rn Ln.
      assert (A : poisoned false (if again then sem f inc s else Some (SNormal, s))).
      { destruct again; [auto |]. exists SNormal, s. auto. }
      destruct A as (sg & s1 & E & R1 & L1 & Q).
      destruct k; cbn [sloop]; rewrite E; (destruct sg; try contradiction; try discriminate Q;
        [| exists SReturn, s1; auto]);
        destruct (Hc _ R1 L1) as (sg & s2 & E2 & R2 & L2 & Q2); rewrite E2;
        (destruct sg; try contradiction; try discriminate Q2; [| exists SReturn, s2; auto]);
        rewrite R2; cbn [p_test machine]; rewrite leave_nil by auto; exists SNormal, s2; auto.
    Qed.

    Lemma poison f n : forall lp s, plain lp n = true -> s_r s = None -> s_live s = [] -> poisoned lp (sem f n s).
    Proof.
      induction n; intros lp s Pl Rn Ln; cbn [plain] in Pl; try discriminate.
      - exists SNormal, s. auto.
      - apply andb_true_iff in Pl. destruct Pl as (P1 & P2). cbn [Code_spec.sem].
        destruct (IHn1 _ _ P1 Rn Ln) as (sg & s1 & E & R1 & L1 & Q). rewrite E.
        destruct sg; try contradiction; try (eexists _, s1; split; [reflexivity | split; [| split]]; auto).
        apply IHn2; auto.
      - cbn [Code_spec.sem machine p_do]. rewrite Rn. cbn. eexists SNormal, _. split; [reflexivity |]. auto.
      - cbn [Code_spec.sem machine p_try]. rewrite Rn. cbn. eexists SNormal, _. split; [reflexivity |]. auto.
      - cbn [Code_spec.sem machine p_return]. rewrite Rn. cbn. eexists SReturn, _. split; [reflexivity |]. auto.
      - exists SNext, s. auto.
      - exists SLast, s. auto.
      - cbn [Code_spec.sem]. destruct (IHn _ _ Pl Rn Ln) as (sg & s1 & E & R1 & L1 & Q). rewrite E.
        destruct sg; try contradiction; try (eexists _, s1; split; [reflexivity | split; [| split]]; auto).
        rewrite leave_nil by auto. exists SNormal, s1. auto.
      - rewrite !andb_true_iff in Pl. destruct Pl as ((P1 & P2) & P3). cbn [Code_spec.sem].
        destruct (IHn1 _ _ P1 Rn Ln) as (sg & s1 & E & R1 & L1 & Q). rewrite E.
        destruct sg; try contradiction; try discriminate Q; [| exists SReturn, s1; auto].
        rewrite R1. cbn [p_test machine].
        destruct (IHn3 _ _ P3 R1 L1) as (sg & s2 & E2 & R2 & L2 & Q2). rewrite E2.
        destruct sg; try contradiction; try (eexists _, s2; split; [reflexivity | split; [| split]]; auto).
        destruct (has_decl n3 && negb no_scope); rewrite ?leave_nil by auto; exists SNormal, s2; auto.
      - rewrite !andb_true_iff in Pl. destruct Pl as (((P1 & P2) & P3) & P4). rewrite sem_loop.
        destruct (IHn1 _ _ P1 Rn Ln) as (sg & s1 & E & R1 & L1 & Q). rewrite E.
        destruct sg; try contradiction; try discriminate Q; [| exists SReturn, s1; auto].
        apply poison_loop; auto.
    Qed.

    (** *** Results *)
    Definition msgd (w : world) (msg : string) : world := World F D (w_args F D w) (w_ret F D w) (Some msg) (w_ub F D w).
    Definition retd (w : world) (v : val) : world := World F D (w_args F D w) (Some v) (w_msg F D w) (w_ub F D w).

    Definition res {A} (lp : bool) (w : world) (Q : A -> regs -> Prop) (o : outcome A) (x : option (signal * sst)) : Prop :=
      match o with
      | Ret a => exists R, x = Some (SNormal, here w R) /\ Q a R
      | Die msg => exists R, x = Some (SThrow ERROR_ID, here (msgd w msg) R)
      | UB => poisoned lp x
      | Fuel => False
      end.

    Lemma res_mono {A} lp lp' w (Q Q' : A -> regs -> Prop) o x :
      res lp w Q o x -> (forall a R, Q a R -> Q' a R) -> (lp = true -> lp' = true) -> res lp' w Q' o x.
    Proof.
      destruct o; cbn [res]; auto.
      - intros (R & E & H) K _. exists R. auto.
      - intros (sg & s & E & Rn & Ln & H) _ K. exists sg, s. destruct sg; auto.
    Qed.

    Lemma run_nodes f l : forall k w R, at_ tbl k l ->
      match lrun R l with
      | Ret R' => sem f (nodes F D k l) (here w R) = Some (SNormal, here w R')
      | Die msg => exists R', sem f (nodes F D k l) (here w R) = Some (SThrow ERROR_ID, here (msgd w msg) R')
      | UB | Fuel => poisoned false (sem f (nodes F D k l) (here w R))
      end.
    Proof.
      induction l as [| i l IH]; intros k w R A; cbn [lrun nodes]; [reflexivity |].
      apply at_cons in A. destruct A as (E & A).
      assert (Bad : lstep R i = UB \/ lstep R i = Fuel ->
        poisoned false (sem f (NSeq (if throws F D i then NTry k 0 else NDo k) (nodes F D (S k) l)) (here w R))).
      { intros H. cbn [Code_spec.sem].
        assert (K : Code_spec.sem P me call_ f (if throws F D i then NTry k 0 else NDo k) (here w R) =
                    Some (SNormal, mks w None 0 [])).
        { destruct (throws F D i); cbn [Code_spec.sem machine p_try p_do s_g s_r]; rewrite E;
            destruct H as [-> | ->]; reflexivity. }
        rewrite K. apply poison; auto using plain_nodes. }
      destruct (lstep R i) as [R1 | msg | |] eqn:Si; cbn [obind].
      - specialize (IH (S k) w R1 A).
        assert (K : sem f (if throws F D i then NTry k 0 else NDo k) (here w R) = Some (SNormal, here w R1)).
        { destruct (throws F D i); cbn [Code_spec.sem machine p_try p_do s_g s_r]; rewrite E, Si; reflexivity. }
        cbn [Code_spec.sem]. rewrite K. exact IH.
      - rewrite (lstep_die _ _ _ Si). exists R. cbn [Code_spec.sem machine p_try s_g s_r]. rewrite E, Si. reflexivity.
      - auto.
      - auto.
    Qed.

    Lemma res_nodes {A} f l k w R (Q : A -> regs -> Prop) o :
      at_ tbl k l -> orel Q o (lrun R l) -> o <> Fuel -> res false w Q o (sem f (nodes F D k l) (here w R)).
    Proof.
      intros At H N. pose proof (run_nodes f l k w R At) as K. destruct H; cbn [res].
      - eauto.
      - exact K.
      - exact K.
      - congruence.
    Qed.

    Lemma poisoned_seq f lp a b s : poisoned lp (sem f a s) -> plain lp b = true -> poisoned lp (sem f (NSeq a b) s).
    Proof.
      intros (sg & s1 & E & Rn & Ln & Q) Pl. cbn [Code_spec.sem]. rewrite E.
      destruct sg; try contradiction; try (eexists _, s1; split; [reflexivity | split; [| split]]; auto).
      apply poison; auto.
    Qed.

    Lemma res_seq {A B} f lp w (Q : A -> regs -> Prop) (Q' : B -> regs -> Prop) o g a b s :
      res lp w Q o (sem f a s) -> (forall v R, Q v R -> res lp w Q' (g v) (sem f b (here w R))) -> plain lp b = true ->
      res lp w Q' (let! v := o in g v) (sem f (NSeq a b) s).
    Proof.
      intros H K Pl. destruct o; cbn [res obind] in *.
      - destruct H as (R & E & HQ). cbn [Code_spec.sem]. rewrite E. auto.
      - destruct H as (R & E). exists R. cbn [Code_spec.sem]. rewrite E. reflexivity.
      - apply poisoned_seq; auto.
      - contradiction.
    Qed.

    (** The jump of a condition. *)
    Lemma test_val r (R : regs) z : R TInt r = VI z -> p_test P r (Some R) = negb (z =? 0).
    Proof. intros E. cbn. rewrite E. reflexivity. Qed.

    Definition tested (r : nat) (Q : Z * store -> regs -> Prop) (p : Z * store) (R : regs) : Prop :=
      R TInt r = VI (fst p) /\ Q p R.

    Lemma sem_if_end (ns : bool) e o (s' : sst) : s_live s' = [] -> o = Some (SNormal, s') ->
      match o with
      | Some (SNormal, s1) => Some (SNormal, if has_decl e && negb ns then leave P 0 s1 else s1)
      | other => other
      end = o.
    Proof. intros L ->. destruct (has_decl e && negb ns); rewrite ?leave_nil by auto; reflexivity. Qed.

    Lemma res_if {A} f lp w r Q (Q' : A -> regs -> Prop) o gt ge ns c t e s :
      res false w (tested r Q) o (sem f c s) ->
      (forall p R, Q p R -> fst p <> 0 -> res lp w Q' (gt p) (sem f t (here w R))) ->
      (forall p R, Q p R -> fst p = 0 -> res lp w Q' (ge p) (sem f e (here w R))) ->
      plain lp e = true ->
      res lp w Q' (let! p := o in if fst p =? 0 then ge p else gt p) (sem f (NIf ns c r t e) s).
    Proof.
      intros H Kt Ke Pe. destruct o as [p | msg | |]; cbn [res obind] in *.
      - destruct H as (R & E & V & HQ). cbn [Code_spec.sem]. rewrite E.
        change (s_r (here w R)) with (Some R). rewrite (test_val _ _ _ V).
        change (lives (here w R)) with 0%nat.
        assert (K : res lp w Q' (if fst p =? 0 then ge p else gt p)
                     (if negb (fst p =? 0) then sem f t (here w R) else sem f e (here w R))).
        { destruct (Z.eqb_spec (fst p) 0); cbn [negb]; auto. }
        destruct (if fst p =? 0 then ge p else gt p) as [a | msg | |]; cbn [res] in *.
        + destruct K as (R' & K & HQ'). exists R'. split; [| auto]. rewrite K.
          destruct (has_decl e && negb ns); rewrite ?leave_nil by reflexivity; reflexivity.
        + destruct K as (R' & K). exists R'. rewrite K. reflexivity.
        + destruct K as (sg & s1 & K & R1 & L1 & Q1). rewrite K. exists sg, s1.
          destruct sg; try contradiction; repeat split; auto.
          destruct (has_decl e && negb ns); rewrite ?leave_nil by auto; reflexivity.
        + contradiction.
      - destruct H as (R & E). exists R. cbn [Code_spec.sem]. rewrite E. reflexivity.
      - destruct H as (sg & s1 & E & R1 & L1 & Q1). cbn [Code_spec.sem]. rewrite E.
        destruct sg; try contradiction; try discriminate Q1; [| exists SReturn, s1; auto].
        rewrite R1. cbn [p_test machine].
        destruct (poison f e lp s1 Pe R1 L1) as (sg & s2 & E2 & R2 & L2 & Q2). rewrite E2.
        exists sg, s2. destruct sg; try contradiction; repeat split; auto.
        destruct (has_decl e && negb ns); rewrite ?leave_nil by auto; reflexivity.
      - contradiction.
    Qed.

    (** The results of statements. [b]: the machine has one more iteration. *)
    Definition fits (lp b : bool) (w : world) (rel : regs -> store -> Prop) (d : option (done (F:=F) (D:=D)))
        (x : option (signal * sst)) : Prop :=
      match d with
      | None => b = false -> x = None
      | Some (Normal st) => exists R, x = Some (SNormal, here w R) /\ rel R st
      | Some (Next st) => lp = true /\ exists R, x = Some (SNext, here w R) /\ rel R st
      | Some (Last st) => lp = true /\ exists R, x = Some (SLast, here w R) /\ rel R st
      | Some (Returned v) => exists R, x = Some (SReturn, here (retd w v) R)
      | Some (Threw msg) => exists R, x = Some (SThrow ERROR_ID, here (msgd w msg) R)
      | Some Undefined => (b = false /\ x = None) \/ poisoned lp x
      end.

    Lemma fits_after {A} f lp b w rel (Q : A -> regs -> Prop) o g a n s :
      res lp w Q o (sem f a s) -> (forall v R, Q v R -> fits lp b w rel (g v) (sem f n (here w R))) -> plain lp n = true ->
      fits lp b w rel (after o g) (sem f (NSeq a n) s).
    Proof.
      intros H K Pl. destruct o; cbn [res after] in *.
      - destruct H as (R & E & HQ). cbn [Code_spec.sem]. rewrite E. auto.
      - destruct H as (R & E). exists R. cbn [Code_spec.sem]. rewrite E. reflexivity.
      - right. apply poisoned_seq; auto.
      - contradiction.
    Qed.

    Lemma fits_if f lp b w rel r Q o gt ge ns c t e s :
      res false w (tested r Q) o (sem f c s) ->
      (forall p R, Q p R -> fst p <> 0 -> fits lp b w rel (gt p) (sem f t (here w R))) ->
      (forall p R, Q p R -> fst p = 0 -> fits lp b w rel (ge p) (sem f e (here w R))) ->
      plain lp e = true ->
      fits lp b w rel (after o (fun p => if fst p =? 0 then ge p else gt p)) (sem f (NIf ns c r t e) s).
    Proof.
      intros H Kt Ke Pe. destruct o as [p | msg | |]; cbn [res after] in *.
      - destruct H as (R & E & V & HQ). cbn [Code_spec.sem]. rewrite E.
        change (s_r (here w R)) with (Some R). rewrite (test_val _ _ _ V).
        change (lives (here w R)) with 0%nat.
        assert (K : fits lp b w rel (if fst p =? 0 then ge p else gt p)
                     (if negb (fst p =? 0) then sem f t (here w R) else sem f e (here w R))).
        { destruct (Z.eqb_spec (fst p) 0); cbn [negb]; auto. }
        destruct (if fst p =? 0 then ge p else gt p) as [[st | st | st | v | msg |] |]; cbn [fits] in *.
        + destruct K as (R' & K & HQ'). exists R'. split; [| auto]. rewrite K.
          destruct (has_decl e && negb ns); rewrite ?leave_nil by reflexivity; reflexivity.
        + destruct K as (L & R' & K & HQ'). split; [exact L |]. exists R'. rewrite K. auto.
        + destruct K as (L & R' & K & HQ'). split; [exact L |]. exists R'. rewrite K. auto.
        + destruct K as (R' & K). exists R'. rewrite K. reflexivity.
        + destruct K as (R' & K). exists R'. rewrite K. reflexivity.
        + destruct K as [(Eb & K) | (sg & s1 & K & R1 & L1 & Q1)]; [left; rewrite K; auto |].
          right. rewrite K. exists sg, s1. destruct sg; try contradiction; repeat split; auto.
          destruct (has_decl e && negb ns); rewrite ?leave_nil by auto; reflexivity.
        + intros Eb. rewrite (K Eb). reflexivity.
      - destruct H as (R & E). exists R. cbn [Code_spec.sem]. rewrite E. reflexivity.
      - right. destruct H as (sg & s1 & E & R1 & L1 & Q1). cbn [Code_spec.sem]. rewrite E.
        destruct sg; try contradiction; try discriminate Q1; [| exists SReturn, s1; auto].
        rewrite R1. cbn [p_test machine].
        destruct (poison f e lp s1 Pe R1 L1) as (sg & s2 & E2 & R2 & L2 & Q2). rewrite E2.
        exists sg, s2. destruct sg; try contradiction; repeat split; auto.
        destruct (has_decl e && negb ns); rewrite ?leave_nil by auto; reflexivity.
      - contradiction.
    Qed.

    Definition bump (b : bool) (f : nat) : nat := if b then S f else f.

    Lemma fits_loop f lp b w (rel : regs -> store -> Prop) r tst bd nx body inc c b0 b1 :
      (forall st R, rel R st -> res false w (tested r (fun p R => rel R (snd p))) (tst st) (sem f c (here w R))) ->
      (forall st R, rel R st -> fits true b w rel (bd st) (sem f body (here w R))) ->
      (forall st R, rel R st -> res false w (fun st R => rel R st) (nx st) (sem f inc (here w R))) ->
      plain false c = true -> plain false inc = true ->
      forall k again st R, rel R st ->
      fits lp b w rel (if again : bool then after (nx st) (loop tst bd nx k) else loop tst bd nx k st)
        (sloop body inc c r f b0 b1 (bump b k) again (here w R)).
    Proof.
      intros Hc Hb Hn Pc Pn.
      assert (PL : forall k again s lp, s_r s = None -> s_live s = [] -> poisoned lp (sloop body inc c r f b0 b1 k again s)).
      { intros k again s lp' Rn Ln. apply poison_loop; auto; intros; apply poison; auto. }
      assert (Step : forall k, (forall st R, rel R st ->
          fits lp b w rel (match k with O => None | S k => after (nx st) (loop tst bd nx k) end)
            (match bump b k with O => None | S k => sloop body inc c r f b0 b1 k true (here w R) end)) ->
        (forall s, s_r s = None -> s_live s = [] -> b = true ->
           poisoned lp (match bump b k with O => None | S k => sloop body inc c r f b0 b1 k true s end)) ->
        forall st R, rel R st ->
        fits lp b w rel (loop tst bd nx k st)
          (match sem f c (here w R) with
            | Some (SNormal, si) =>
                if p_test P r (s_r si) then
                  match sem f body si with
                  | Some (SNormal, s') | Some (SNext, s') =>
                      match bump b k with
                      | O => None
                      | S k => sloop body inc c r f b0 b1 k true (leave P b1 s')
                      end
                  | Some (SLast, s') => Some (SNormal, leave P b0 s')
                  | other => other
                  end
                else Some (SNormal, leave P b0 si)
            | other => other
            end)).
      { intros k IH IHp st R HR. specialize (Hc st R HR).
        assert (EL : loop tst bd nx k st = after (tst st) (fun p =>
                  if fst p =? 0 then Some (Normal (snd p))
                  else
                    match bd (snd p) with
                    | Some (Normal st) | Some (Next st) =>
                        match k with O => None | S k => after (nx st) (loop tst bd nx k) end
                    | Some (Last st) => Some (Normal st)
                    | other => other
                    end)) by (destruct k; reflexivity).
        rewrite EL. clear EL.
        destruct (tst st) as [p | msg | |]; cbn [res after] in *.
        - destruct Hc as (R1 & E & V & HQ). rewrite E. cbn [s_r]. rewrite (test_val _ _ _ V).
          destruct (Z.eqb_spec (fst p) 0) as [Z0 | Z0]; cbn [negb].
          + exists R1. rewrite leave_nil by reflexivity. auto.
          + specialize (Hb _ _ HQ). destruct (bd (snd p)) as [[st1 | st1 | st1 | v | msg |] |]; cbn [fits] in Hb.
            * destruct Hb as (R2 & E2 & H2). rewrite E2, leave_nil by reflexivity. apply IH. exact H2.
            * destruct Hb as (_ & R2 & E2 & H2). rewrite E2, leave_nil by reflexivity. apply IH. exact H2.
            * destruct Hb as (_ & R2 & E2 & H2). rewrite E2, leave_nil by reflexivity. exists R2. auto.
            * destruct Hb as (R2 & E2). rewrite E2. exists R2. reflexivity.
            * destruct Hb as (R2 & E2). rewrite E2. exists R2. reflexivity.
            * destruct Hb as [(Eb & E2) | (sg & s2 & E2 & R2 & L2 & Q2)]; rewrite E2; [left; auto |].
              destruct sg; try contradiction; rewrite ?leave_nil by auto.
              -- destruct b; [right; apply IHp; auto |]. destruct k; cbn [bump]; [left; auto | right; apply PL; auto].
              -- destruct b; [right; apply IHp; auto |]. destruct k; cbn [bump]; [left; auto | right; apply PL; auto].
              -- right. exists SNormal, s2. auto.
              -- right. exists SReturn, s2. auto.
            * intros Eb. rewrite (Hb Eb). reflexivity.
        - destruct Hc as (R1 & E). rewrite E. exists R1. reflexivity.
        - right. destruct Hc as (sg & s1 & E & R1 & L1 & Q1). rewrite E.
          destruct sg; try contradiction; try discriminate Q1; [| exists SReturn, s1; auto].
          rewrite R1. cbn [p_test machine]. rewrite leave_nil by auto. exists SNormal, s1. auto.
        - contradiction. }
      induction k as [| k IH]; intros again st R HR.
      - pose proof (Step 0%nat) as S0.
        assert (A : forall st R, rel R st -> fits lp b w rel (loop tst bd nx 0 st)
                 (sloop body inc c r f b0 b1 (bump b 0) false (here w R))).
        { intros st1 R1 H1.
          destruct b; cbn [bump sloop]; apply S0; auto; cbn [bump]; try (intros; cbn [fits]; discriminate);
            try (intros; cbn [fits]; reflexivity); try (intros; discriminate); intros; apply PL; auto. }
        destruct again; [| auto].
        specialize (Hn _ _ HR). destruct (nx st) as [st1 | msg | |]; cbn [res after] in *.
        + destruct Hn as (R1 & E & H1). specialize (A _ _ H1).
          destruct b; cbn [bump sloop] in *; rewrite E; exact A.
        + destruct Hn as (R1 & E). exists R1. destruct b; cbn [bump sloop]; rewrite E; reflexivity.
        + right. destruct Hn as (sg & s1 & E & R1 & L1 & Q1).
          specialize (PL (bump b 0) false s1 lp R1 L1).
          destruct b; cbn [bump sloop] in *; rewrite E; destruct sg; try contradiction; try discriminate Q1; auto;
            exists SReturn, s1; auto.
        + contradiction.
      - pose proof (Step (S k)) as S0.
        assert (A : forall st R, rel R st -> fits lp b w rel (loop tst bd nx (S k) st)
                 (sloop body inc c r f b0 b1 (bump b (S k)) false (here w R))).
        { intros st1 R1 H1. destruct b; cbn [bump]; cbn [sloop]; apply S0; auto; cbn [bump] in *;
            try (intros st2 R2 H2; exact (IH true st2 R2 H2)); intros; try discriminate; apply PL; auto. }
        destruct again; [| auto].
        specialize (Hn _ _ HR). destruct (nx st) as [st1 | msg | |]; cbn [res after] in *.
        + destruct Hn as (R1 & E & H1). specialize (A _ _ H1).
          destruct b; cbn [bump] in *; cbn [sloop] in *; rewrite E; exact A.
        + destruct Hn as (R1 & E). exists R1. destruct b; cbn [bump]; cbn [sloop]; rewrite E; reflexivity.
        + right. destruct Hn as (sg & s1 & E & R1 & L1 & Q1).
          specialize (PL (bump b (S k)) false s1 lp R1 L1).
          destruct b; cbn [bump] in *; cbn [sloop] in *; rewrite E; destruct sg; try contradiction; try discriminate Q1; auto;
            exists SReturn, s1; auto.
        + contradiction.
    Qed.
  End Exec.
End Float.
