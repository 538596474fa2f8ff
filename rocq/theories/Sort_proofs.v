From Coq Require Import Permutation Sorting.Sorted.
From Verif Require Import Base Sort_model Sort_spec.

(** ** Segments *)
Section Seg.
  Context {A : Type}.

  Definition at_ (a : list A) (i : Z) (l : list A) : Prop :=
    0 <= i /\ i + zlen l <= zlen a /\ forall t, 0 <= t < zlen l -> znth a (i + t) = znth l t.

  Lemma at_cons a i x l : at_ a i (x :: l) -> znth a i = Some x /\ at_ a (i + 1) l.
  Proof.
    unfold at_. rewrite zlen_cons. intros (H1 & H2 & H3). zlen_facts. split.
    - replace i with (i + 0) by lia. rewrite H3 by lia. reflexivity.
    - repeat split; try lia. intros t Ht. replace (i + 1 + t) with (i + (1 + t)) by lia.
      rewrite H3 by lia. rewrite znth_cons. destruct (Z.eqb_spec (1 + t) 0); try lia.
      f_equal; lia.
  Qed.

  Lemma at_app a i l1 l2 : at_ a i (l1 ++ l2) <-> at_ a i l1 /\ at_ a (i + zlen l1) l2.
  Proof.
    unfold at_. rewrite zlen_app. split.
    - intros (H1 & H2 & H3). zlen_facts. repeat split; try lia.
      + intros t Ht. rewrite H3 by lia. rewrite znth_app. zcase. auto.
      + intros t Ht. replace (i + zlen l1 + t) with (i + (zlen l1 + t)) by lia.
        rewrite H3 by lia. rewrite znth_app. zcase. f_equal; lia.
    - intros ((H1 & H2 & H3) & (H4 & H5 & H6)). zlen_facts. repeat split; try lia.
      intros t Ht. rewrite znth_app. zcase; [apply H3; lia |].
      rewrite <- H6 by lia. f_equal; lia.
  Qed.

  Lemma at_split a i n : 0 <= i -> 0 <= n -> i + n <= zlen a -> at_ a i (zsub a i n).
  Proof.
    intros. unfold at_. rewrite zlen_sub. repeat split; try lia.
    intros t Ht. rewrite znth_sub. zcase. f_equal; lia.
  Qed.

  Lemma at_blit_self a i l : 0 <= i -> i + zlen l <= zlen a -> at_ (zblit a i l) i l.
  Proof.
    intros. zlen_facts. unfold at_. rewrite zlen_blit by lia. repeat split; try lia.
    intros t Ht. rewrite znth_blit by lia. zcase. f_equal; lia.
  Qed.

  Lemma at_blit_other a i l j l' :
    0 <= i -> i + zlen l <= zlen a -> at_ a j l' -> (j + zlen l' <= i \/ i + zlen l <= j) ->
    at_ (zblit a i l) j l'.
  Proof.
    intros ? ? (H1 & H2 & H3) D. zlen_facts. unfold at_. rewrite zlen_blit by lia.
    repeat split; try lia. intros t Ht. rewrite znth_blit by lia. zcase; auto.
  Qed.

  Lemma zblit_nil (b : list A) k : 0 <= k <= zlen b -> zblit b k [] = b.
  Proof.
    intros. apply znth_ext. intros i Hi. rewrite znth_blit by lia. zlen_nils. zcase; auto.
  Qed.

  Lemma zblit_cons (b : list A) k x l :
    0 <= k -> k + 1 + zlen l <= zlen b -> zblit (zupd b k x) (k + 1) l = zblit b k (x :: l).
  Proof.
    intros. zlen_facts. apply znth_ext. intros i Hi.
    rewrite !znth_blit by (rewrite ?zlen_upd; lia). rewrite zlen_cons, znth_upd, znth_cons.
    zcase; auto; f_equal; lia.
  Qed.

  Lemma zblit_twice (b : list A) k l l' :
    0 <= k -> zlen l = zlen l' -> k + zlen l <= zlen b -> zblit (zblit b k l) k l' = zblit b k l'.
  Proof.
    intros. zlen_facts. apply znth_ext. intros i Hi.
    rewrite !znth_blit by (rewrite ?zlen_blit; lia). zcase; auto.
  Qed.
End Seg.

(** ** Pure merging *)
Section Pure.
  Context {A : Type} (c : A -> A -> Z).

  Fixpoint cmerge (l1 l2 : list A) {struct l1} : list A :=
    match l1 with
    | [] => l2
    | x :: l1' =>
        (fix aux (l2 : list A) : list A :=
           match l2 with
           | [] => x :: l1'
           | y :: l2' => if c x y <=? 0 then x :: cmerge l1' (y :: l2') else y :: aux l2'
           end) l2
    end.

  Lemma cmerge_nil_r l : cmerge l [] = l.
  Proof. destruct l; auto. Qed.

  Lemma cmerge_cons x l1 y l2 :
    cmerge (x :: l1) (y :: l2) =
    if c x y <=? 0 then x :: cmerge l1 (y :: l2) else y :: cmerge (x :: l1) l2.
  Proof. reflexivity. Qed.

  Lemma cmerge_ind (P : list A -> list A -> list A -> Prop) :
    (forall l2, P [] l2 l2) -> (forall l1, P l1 [] l1) ->
    (forall x l1 y l2 m, c x y <= 0 -> P l1 (y :: l2) m -> P (x :: l1) (y :: l2) (x :: m)) ->
    (forall x l1 y l2 m, c x y > 0 -> P (x :: l1) l2 m -> P (x :: l1) (y :: l2) (y :: m)) ->
    forall l1 l2, P l1 l2 (cmerge l1 l2).
  Proof.
    intros H1 H2 H3 H4. induction l1 as [| x l1 IH1]; [intros; apply H1 |].
    induction l2 as [| y l2 IH2]; [apply H2 |].
    rewrite cmerge_cons. destruct (Z.leb_spec (c x y) 0).
    - apply H3; auto.
    - apply H4; auto. lia.
  Qed.

  Lemma cmerge_perm l1 l2 : Permutation (l1 ++ l2) (cmerge l1 l2).
  Proof.
    apply (cmerge_ind (fun l1 l2 m => Permutation (l1 ++ l2) m)).
    - reflexivity.
    - intros. rewrite app_nil_r. reflexivity.
    - intros x l1' y l2' m _ P. cbn. constructor. auto.
    - intros x l1' y l2' m _ P. rewrite <- P. symmetry. apply Permutation_middle.
  Qed.

  Hypothesis TP : total_preorder c.
  Notation le := (fun x y => c x y <= 0).

  Lemma le_refl x : le x x.
  Proof. destruct (tp_total _ TP x x); auto. Qed.

  Lemma cmerge_sorted l1 l2 :
    StronglySorted le l1 -> StronglySorted le l2 -> StronglySorted le (cmerge l1 l2).
  Proof.
    cut (let m := cmerge l1 l2 in
         StronglySorted le l1 -> StronglySorted le l2 ->
         StronglySorted le m /\ Permutation (l1 ++ l2) m).
    { intros C S1 S2. apply C; auto. }
    cbv zeta. apply (cmerge_ind (fun l1 l2 m => StronglySorted le l1 -> StronglySorted le l2 ->
         StronglySorted le m /\ Permutation (l1 ++ l2) m)).
    - auto.
    - intros. rewrite app_nil_r. auto.
    - intros x l1' y l2' m L IH S1 S2. inversion S1; inversion S2; subst.
      destruct IH as [S P]; auto. split; [| cbn; constructor; auto].
      constructor; auto. apply Forall_forall. intros z Iz.
      apply (Permutation_in z (Permutation_sym P)) in Iz. apply in_app_or in Iz.
      rewrite Forall_forall in *. destruct Iz as [Iz | [<- | Iz]]; auto.
      apply (tp_trans _ TP x y z); auto.
    - intros x l1' y l2' m L IH S1 S2. inversion S1; inversion S2; subst.
      destruct IH as [S P]; auto.
      assert (Lyx : le y x) by (destruct (tp_total _ TP x y); [lia | auto]).
      split.
      + constructor; auto. apply Forall_forall. intros z Iz.
        apply (Permutation_in z (Permutation_sym P)) in Iz. apply in_app_or in Iz.
        rewrite Forall_forall in *. destruct Iz as [[<- | Iz] | Iz]; auto.
        apply (tp_trans _ TP y x z); auto.
      + rewrite <- P. symmetry. apply Permutation_middle.
  Qed.

  Lemma equals_app x l l' : equals_of c x (l ++ l') = equals_of c x l ++ equals_of c x l'.
  Proof. apply filter_app. Qed.

  Lemma cmerge_stable l1 l2 :
    StronglySorted le l1 -> stable c (l1 ++ l2) (cmerge l1 l2).
  Proof.
    intros S1 z. revert S1.
    apply (cmerge_ind (fun l1 l2 m => StronglySorted le l1 ->
      equals_of c z m = equals_of c z (l1 ++ l2))).
    - auto.
    - intros. rewrite app_nil_r. auto.
    - intros x l1' y l2' m L IH S1. inversion S1; subst. cbn. unfold equals_of in *. cbn.
      rewrite IH by auto. reflexivity.
    - intros x l1' y l2' m L IH S1. specialize (IH S1).
      rewrite (equals_app z (x :: l1') (y :: l2')). rewrite (equals_app z (x :: l1') l2') in IH.
      unfold equals_of in *. cbn [filter] in *.
      destruct ((c z y <=? 0) && (c y z <=? 0)) eqn:E; [| exact IH].
      assert (Q : forall w, In w (x :: l1') -> (c z w <=? 0) && (c w z <=? 0) = false).
      { intros w Iw. inversion S1; subst. rewrite Forall_forall in *.
        assert (Lxw : le x w) by (destruct Iw as [<- | Iw]; [apply le_refl | auto]).
        destruct ((c z w <=? 0) && (c w z <=? 0)) eqn:F; auto. exfalso.
        assert (c x y <= 0); [| lia].
        apply (tp_trans _ TP x w y); auto. apply (tp_trans _ TP w z y); lia. }
      assert (N : filter (fun y0 => (c z y0 <=? 0) && (c y0 z <=? 0)) (x :: l1') = []).
      { clear -Q. induction (x :: l1') as [| w l IH]; cbn; auto.
        rewrite Q by (cbn; auto). apply IH. intros. apply Q. cbn; auto. }
      cbn [filter] in N. rewrite N in *. cbn [app] in *. rewrite IH. reflexivity.
  Qed.
End Pure.

(** ** The imperative merge sort *)
Section Proofs.
  Context {A S : Type}.
  Variable cmp : S -> A -> A -> S * outcome Z.
  Variable zero : A.
  Notation stt := (st A S).

  (** The failures of the comparator. *)
  Definition cmp_failure {X} (o : outcome X) : Prop :=
    exists s x y, match snd (cmp s x y), o with
                  | Die e, Die e' => e = e'
                  | UB, UB => True
                  | Fuel, Fuel => True
                  | _, _ => False
                  end.

  (** The comparator answers like the function [c]. *)
  Definition pure_cmp (c : A -> A -> Z) : Prop :=
    forall s x y, snd (cmp s x y) = Ret (c x y).

  Lemma bind_ret {X Y} (m : M X) (f : X -> M Y) (s s' : stt) x :
    m s = (s', Ret x) -> bind m f s = f x s'.
  Proof. intros E. unfold bind. rewrite E. auto. Qed.

  Definition with_b (s : stt) (b : list A) : stt := {| ss := ss s; sa := sa s; sb := b |}.
  Definition with_a (s : stt) (a : list A) : stt := {| ss := ss s; sa := a; sb := sb s |}.

  Lemma tail_loop_spec n : forall l last p k (s : stt),
    at_ (sa s) p l -> p + zlen l = last + 1 -> 0 <= k -> k + zlen l <= zlen (sb s) ->
    last < INT32_MAX -> zlen (sb s) < INT32_MAX -> zlen l < Z.of_nat n ->
    tail_loop n last p k s = (with_b s (zblit (sb s) k l), Ret (last + 1, k + zlen l)).
  Proof.
    induction n as [| n IH]; intros l last p k s Ha Hp K B L LB N; cbn [tail_loop].
    { pose proof (zlen_nonneg l). lia. }
    pose proof (proj1 Ha).
    destruct l as [| x l].
    - zlen_nils. replace (p <=? last) with false by lia. rewrite zblit_nil by lia.
      unfold ret. f_equal; [destruct s; auto | do 2 f_equal; lia].
    - rewrite zlen_cons in *. zlen_facts. replace (p <=? last) with true by lia.
      apply at_cons in Ha. destruct Ha as [Hx Ha].
      unfold bind, get_a, put_b. rewrite Hx.
      replace ((0 <=? k) && (k <? zlen (sb s))) with true by lia.
      rewrite !wrap32_id by (unfold in_i32; lia).
      rewrite (IH l); cbn [sa sb]; rewrite ?zlen_upd; auto; try lia.
      f_equal; [| do 2 f_equal; lia].
      unfold with_b; cbn [ss sa sb]. f_equal. apply zblit_cons; lia.
  Qed.

  Lemma back_loop_spec n : forall l left k i (s : stt),
    at_ (sb s) i l -> i + zlen l = k -> 0 <= left -> i + left + zlen l <= zlen (sa s) ->
    k < INT32_MAX -> left + k < INT32_MAX -> zlen l < Z.of_nat n ->
    back_loop n left k i s = (with_a s (zblit (sa s) (i + left) l), Ret tt).
  Proof.
    induction n as [| n IH]; intros l left k i s Ha Hp K B L LB N; cbn [back_loop].
    { pose proof (zlen_nonneg l). lia. }
    pose proof (proj1 Ha).
    destruct l as [| x l].
    - zlen_nils. replace (i <? k) with false by lia. rewrite zblit_nil by lia.
      unfold ret. f_equal. destruct s; auto.
    - rewrite zlen_cons in *. zlen_facts. replace (i <? k) with true by lia.
      apply at_cons in Ha. destruct Ha as [Hx Ha].
      unfold bind, get_b, put_a. rewrite Hx. rewrite !wrap32_id by (unfold in_i32; lia).
      replace ((0 <=? i + left) && (i + left <? zlen (sa s))) with true by lia.
      rewrite (IH l); cbn [sa sb]; rewrite ?zlen_upd; auto; try lia.
      f_equal. unfold with_a; cbn [ss sa sb]. f_equal.
      replace (i + 1 + left) with (i + left + 1) by lia. apply zblit_cons; lia.
  Qed.

  (** The loop and the tails after it. *)
  Definition tails (n : nat) (mid right : Z) (x : Z * Z * Z) : M (A:=A) (S:=S) (Z * Z * Z) :=
    let '(i, j, k) := x in
    if i =? wrap32 (mid + 1) then
      bind (tail_loop n right j k) (fun '(j, k) => ret (i, j, k))
    else
      bind (tail_loop n mid i k) (fun '(i, k) => ret (i, j, k)).

  Lemma merge_loop_spec n : forall l1 l2 mid right i j k (s : stt) nt,
    at_ (sa s) i l1 -> i + zlen l1 = mid + 1 ->
    at_ (sa s) j l2 -> j + zlen l2 = right + 1 ->
    0 <= k -> k + zlen l1 + zlen l2 <= zlen (sb s) -> zlen (sb s) < INT32_MAX ->
    mid < INT32_MAX -> right < INT32_MAX ->
    zlen l1 + zlen l2 < Z.of_nat n -> zlen l1 + zlen l2 < Z.of_nat nt ->
    let r := bind (merge_loop cmp n mid right i j k) (tails nt mid right) s in
    sa (fst r) = sa s /\ zlen (sb (fst r)) = zlen (sb s) /\
    match snd r with
    | Ret (i', j', k') =>
        i' = mid + 1 /\ j' = right + 1 /\ k' = k + zlen l1 + zlen l2 /\
        exists m, sb (fst r) = zblit (sb s) k m /\ Permutation (l1 ++ l2) m /\
                  forall c, pure_cmp c -> m = cmerge c l1 l2
    | o => cmp_failure o
    end.
  Proof.
    induction n as [| n IH]; intros l1 l2 mid right i j k s nt A1 P1 A2 P2 K B LB Lm Lr N Nt.
    { pose proof (zlen_nonneg l1). pose proof (zlen_nonneg l2). lia. }
    pose proof (proj1 A1). pose proof (proj1 A2). cbv zeta.
    destruct l1 as [| x l1]; [| destruct l2 as [| y l2]].
    - zlen_nils.
      assert (R : bind (merge_loop cmp (Datatypes.S n) mid right i j k) (tails nt mid right) s =
                  (with_b s (zblit (sb s) k l2), Ret (i, right + 1, k + zlen l2))).
      { cbn [merge_loop]. replace (i <=? mid) with false by lia. cbn [andb].
        unfold bind at 1, ret at 1. unfold tails.
        rewrite wrap32_id by (unfold in_i32; lia). replace (i =? mid + 1) with true by lia.
        unfold bind. rewrite (tail_loop_spec nt l2 right j k s) by (auto; lia). reflexivity. }
      rewrite R. cbn [fst snd with_b sa sb].
      rewrite zlen_blit by lia. repeat (split; auto); try lia.
      exists l2. split; [reflexivity |]. split; auto.
    - zlen_nils. rewrite zlen_cons in *. zlen_facts.
      assert (R : bind (merge_loop cmp (Datatypes.S n) mid right i j k) (tails nt mid right) s =
                  (with_b s (zblit (sb s) k (x :: l1)), Ret (mid + 1, j, k + zlen (x :: l1)))).
      { cbn [merge_loop]. replace (j <=? right) with false by lia. rewrite andb_false_r.
        unfold bind at 1, ret at 1. unfold tails.
        rewrite wrap32_id by (unfold in_i32; lia). replace (i =? mid + 1) with false by lia.
        unfold bind. rewrite (tail_loop_spec nt (x :: l1) mid i k s); rewrite ?zlen_cons; auto; lia. }
      rewrite R. cbn [fst snd with_b sa sb].
      rewrite zlen_blit by (rewrite ?zlen_cons; lia). rewrite zlen_cons.
      repeat (split; auto); try lia.
      exists (x :: l1). split; [reflexivity |]. rewrite app_nil_r. split; auto.
    - rewrite !zlen_cons in *. zlen_facts.
      pose proof (at_cons _ _ _ _ A1) as [Hx A1']. pose proof (at_cons _ _ _ _ A2) as [Hy A2'].
      destruct (cmp (ss s) x y) as [s' o] eqn:EC.
      assert (R : bind (merge_loop cmp (Datatypes.S n) mid right i j k) (tails nt mid right) s =
        match o with
        | Ret cv =>
            if cv <=? 0
            then bind (merge_loop cmp n mid right (i + 1) j (k + 1)) (tails nt mid right)
                   {| ss := s'; sa := sa s; sb := zupd (sb s) k x |}
            else bind (merge_loop cmp n mid right i (j + 1) (k + 1)) (tails nt mid right)
                   {| ss := s'; sa := sa s; sb := zupd (sb s) k y |}
        | Die e => ({| ss := s'; sa := sa s; sb := sb s |}, Die e)
        | UB => ({| ss := s'; sa := sa s; sb := sb s |}, UB)
        | Fuel => ({| ss := s'; sa := sa s; sb := sb s |}, Fuel)
        end).
      { cbn [merge_loop]. replace ((i <=? mid) && (j <=? right)) with true by lia.
        rewrite !wrap32_id by (unfold in_i32; lia).
        unfold bind, get_a. rewrite Hx, Hy. unfold compare. rewrite EC.
        destruct o as [cv | e | |]; auto.
        destruct (cv <=? 0); unfold put_b; cbn [sa sb ss];
          replace ((0 <=? k) && (k <? zlen (sb s))) with true by lia; reflexivity. }
      rewrite R. clear R.
      destruct o as [cv | e | |]; cbn [fst snd sa sb].
      2-4: repeat (split; auto); exists (ss s), x, y; rewrite EC; cbn; auto.
      destruct (Z.leb_spec cv 0).
      + specialize (IH l1 (y :: l2) mid right (i + 1) j (k + 1)
                      {| ss := s'; sa := sa s; sb := zupd (sb s) k x |} nt).
        cbn [sa sb] in IH. rewrite !zlen_cons, zlen_upd in IH.
        specialize (IH A1' ltac:(lia) A2 ltac:(lia) ltac:(lia) ltac:(lia) ltac:(lia)
                      ltac:(lia) ltac:(lia) ltac:(lia) ltac:(lia)).
        cbv zeta in IH.
        set (r := bind _ _ _) in *.
        destruct IH as (I1 & I2 & I3). split; [auto |]. split; [auto |].
        destruct (snd r) as [[[i' j'] k'] | | |]; auto.
        destruct I3 as (Q1 & Q2 & Q3 & m & Q4 & Q5 & Q6).
        repeat (split; auto); try lia. exists (x :: m). split; [| split].
        * rewrite Q4. apply zblit_cons; [lia |].
          assert (zlen m = zlen (l1 ++ y :: l2)) by (unfold zlen; rewrite (Permutation_length Q5); auto).
          rewrite zlen_app, zlen_cons in *. lia.
        * cbn. constructor; auto.
        * intros c P. rewrite cmerge_cons. specialize (P (ss s) x y) as Pc. rewrite EC in Pc.
          cbn in Pc. inversion Pc; subst. replace (c x y <=? 0) with true by lia.
          f_equal. auto.
      + specialize (IH (x :: l1) l2 mid right i (j + 1) (k + 1)
                      {| ss := s'; sa := sa s; sb := zupd (sb s) k y |} nt).
        cbn [sa sb] in IH. rewrite !zlen_cons, zlen_upd in IH.
        specialize (IH A1 ltac:(lia) A2' ltac:(lia) ltac:(lia) ltac:(lia) ltac:(lia)
                      ltac:(lia) ltac:(lia) ltac:(lia) ltac:(lia)).
        cbv zeta in IH.
        set (r := bind _ _ _) in *.
        destruct IH as (I1 & I2 & I3). split; [auto |]. split; [auto |].
        destruct (snd r) as [[[i' j'] k'] | | |]; auto.
        destruct I3 as (Q1 & Q2 & Q3 & m & Q4 & Q5 & Q6).
        repeat (split; auto); try lia. exists (y :: m). split; [| split].
        * rewrite Q4. apply zblit_cons; [lia |].
          assert (zlen m = zlen ((x :: l1) ++ l2)) by (unfold zlen; rewrite (Permutation_length Q5); auto).
          rewrite zlen_app, zlen_cons in *. lia.
        * rewrite <- Q5. symmetry. apply Permutation_middle.
        * intros c P. rewrite cmerge_cons. specialize (P (ss s) x y) as Pc. rewrite EC in Pc.
          cbn in Pc. inversion Pc; subst. replace (c x y <=? 0) with false by lia.
          f_equal. auto.
  Qed.

  Lemma merge_spec l1 l2 left mid right (s : stt) :
    at_ (sa s) left (l1 ++ l2) -> left + zlen l1 = mid + 1 -> mid + zlen l2 = right ->
    0 < zlen l1 -> 0 < zlen l2 -> right + 1 < INT32_MAX ->
    zlen l1 + zlen l2 <= zlen (sb s) -> zlen (sb s) < INT32_MAX ->
    let r := merge cmp left mid right s in
    zlen (sb (fst r)) = zlen (sb s) /\
    match snd r with
    | Ret _ => exists m, sa (fst r) = zblit (sa s) left m /\ Permutation (l1 ++ l2) m /\
                         forall c, pure_cmp c -> m = cmerge c l1 l2
    | o => sa (fst r) = sa s /\ cmp_failure o
    end.
  Proof.
    intros Ha E1 E2 P1 P2 R B LB. cbv zeta. pose proof (proj1 Ha).
    pose proof (proj1 (proj2 Ha)) as Fit. rewrite zlen_app in Fit.
    apply at_app in Ha. destruct Ha as [A1 A2]. rewrite E1 in A2.
    set (nf := Z.to_nat (right - left + 2)).
    pose proof (merge_loop_spec nf l1 l2 mid right left (mid + 1) 0 s nf A1 E1 A2 ltac:(lia)
      ltac:(lia) ltac:(lia) LB ltac:(lia) ltac:(lia) ltac:(lia) ltac:(lia)) as H0.
    cbv zeta in H0.
    assert (MB : merge_body cmp left mid right s =
                 bind (merge_loop cmp nf mid right left (mid + 1) 0) (tails nf mid right) s).
    { unfold merge_body. fold nf. rewrite (wrap32_id (mid + 1)) by (unfold in_i32; lia).
      unfold bind. destruct (merge_loop cmp nf mid right left (mid + 1) 0 s) as [s1 [[[i j] k] | | |]]; auto.
      unfold tails. rewrite (wrap32_id (mid + 1)) by (unfold in_i32; lia). reflexivity. }
    rewrite <- MB in H0.
    destruct (merge_body cmp left mid right s) as [s1 o1] eqn:EB.
    cbn [fst snd] in H0. destruct H0 as (S1 & S2 & S3).
    assert (R1 : merge cmp left mid right s =
      match o1 with
      | Ret (i, j, k) => bind (if (i <=? mid) && (j <=? right)
            then bind (merge_body cmp left mid right) (fun '(_, _, _) (s0 : stt) => (s0, Fuel))
            else ret k) (fun k => back_loop nf left k 0) s1
      | Die e => (s1, Die e) | UB => (s1, UB) | Fuel => (s1, Fuel)
      end).
    { unfold merge. fold nf. cbn [merge_outer].
      rewrite (wrap32_id (mid + 1)) by (unfold in_i32; lia).
      replace ((left <=? mid) && (mid + 1 <=? right)) with true by lia.
      unfold bind. rewrite EB. destruct o1 as [[[i' j'] k'] | e | |]; reflexivity. }
    rewrite R1. clear R1 EB MB.
    destruct o1 as [[[i' j'] k'] | e | |]; cbn [fst snd].
    2-4: auto.
    destruct S3 as (-> & -> & -> & m & Q1 & Q2 & Q3).
    replace (mid + 1 <=? mid) with false by lia. cbn [andb].
    assert (Lm : zlen m = zlen l1 + zlen l2).
    { rewrite <- zlen_app. unfold zlen. rewrite (Permutation_length Q2). auto. }
    unfold bind, ret.
    rewrite (back_loop_spec nf m).
    - cbn [fst snd with_a sa sb]. split; auto. exists m. rewrite S1.
      replace (0 + left) with left by lia. auto.
    - rewrite Q1. apply at_blit_self; lia.
    - lia.
    - lia.
    - rewrite S1. lia.
    - lia.
    - lia.
    - lia.
  Qed.

  Definition sorted_stable (c : A -> A -> Z) (l l' : list A) : Prop :=
    StronglySorted (fun x y => c x y <= 0) l' /\ stable c l l'.

  Lemma merge_sort_spec n : forall fuel l left right (s : stt),
    (n < fuel)%nat -> zlen l <= 2 ^ Z.of_nat n ->
    at_ (sa s) left l -> left + zlen l = right + 1 -> 2 * right < INT32_MAX -> right + 1 < INT32_MAX ->
    zlen l <= zlen (sb s) -> zlen (sb s) < INT32_MAX ->
    let r := merge_sort cmp fuel left right s in
    zlen (sb (fst r)) = zlen (sb s) /\
    exists l', sa (fst r) = zblit (sa s) left l' /\ Permutation l l' /\
    match snd r with
    | Ret _ => forall c, pure_cmp c -> total_preorder c -> sorted_stable c l l'
    | o => cmp_failure o
    end.
  Proof.
    induction n as [| n IH]; intros fuel l left right s F P Ha E R1 R2 B LB; cbv zeta;
      pose proof (proj1 Ha) as L0; pose proof (proj1 (proj2 Ha)) as Fit; zlen_facts;
      (destruct fuel as [| fuel]; [lia |]); cbn [merge_sort].
    1: assert (zlen l <= 1) by (cbn in P; lia).
    all: destruct (Z.geb_spec left right).
    1,3: cbn [ret fst snd]; split; [auto |]; exists l; repeat split; auto.
    - apply znth_ext. intros i Hi. rewrite znth_blit by lia. zcase; auto.
      destruct Ha as (_ & _ & Ha). rewrite <- Ha by lia. f_equal; lia.
    - destruct l as [| x [| y l]]; [constructor | repeat constructor |].
      rewrite !zlen_cons in *. pose proof (zlen_nonneg l). lia.
    - apply znth_ext. intros i Hi. rewrite znth_blit by lia. zcase; auto.
      destruct Ha as (_ & _ & Ha). rewrite <- Ha by lia. f_equal; lia.
    - destruct l as [| x [| y l]]; [constructor | repeat constructor |].
      rewrite !zlen_cons in *. pose proof (zlen_nonneg l). lia.
    - lia.
    - set (mid := Z.quot (wrap32 (left + right)) 2).
      assert (Hm : mid = left + (zlen l - 1) / 2).
      { unfold mid. rewrite wrap32_id by (unfold in_i32; lia).
        rewrite Z.quot_div_nonneg by lia.
        replace (left + right) with ((zlen l - 1) + left * 2) by lia.
        rewrite Z.div_add by lia. lia. }
      pose proof (Z.div_mod (zlen l - 1) 2 ltac:(lia)) as DM.
      pose proof (Z.mod_pos_bound (zlen l - 1) 2 ltac:(lia)).
      assert (HP : 2 ^ Z.of_nat (Datatypes.S n) = 2 * 2 ^ Z.of_nat n).
      { rewrite Nat2Z.inj_succ, Z.pow_succ_r by lia. auto. }
      set (h := (zlen l - 1) / 2) in *.
      set (l1 := ztake (h + 1) l). set (l2 := zdrop (h + 1) l).
      assert (L1 : zlen l1 = h + 1) by (unfold l1; rewrite zlen_take; lia).
      assert (L2 : zlen l2 = zlen l - (h + 1)) by (unfold l2; rewrite zlen_drop; lia).
      assert (El : l = l1 ++ l2) by (symmetry; apply ztake_zdrop).
      rewrite El in Ha. apply at_app in Ha. destruct Ha as [A1 A2].
      rewrite (wrap32_id (mid + 1)) by (unfold in_i32; lia).
      match goal with |- context [bind ?m ?f s] => remember (bind m f s) as r eqn:RE end.
      (* left half *)
      pose proof (IH fuel l1 left mid s ltac:(lia) ltac:(lia) A1 ltac:(lia) ltac:(lia) ltac:(lia)
        ltac:(lia) LB) as G1. cbv zeta in G1.
      unfold bind at 1 in RE. destruct (merge_sort cmp fuel left mid s) as [s1 o1]. cbn [fst snd] in G1.
      destruct G1 as (Sb1 & l1' & Ea1 & P1 & O1).
      assert (L1' : zlen l1' = zlen l1) by (unfold zlen; rewrite (Permutation_length P1); auto).
      destruct o1 as [u1 | e1 | |].
      2-4: subst r; cbn [fst snd]; split; [auto |]; exists (l1' ++ l2);
           (split; [rewrite Ea1 | split; [rewrite El; apply Permutation_app_tail; auto | auto]]);
           apply znth_ext; intros i Hi; rewrite !znth_blit by lia; rewrite zlen_app, znth_app;
           zcase; auto; destruct A2 as (_ & _ & A2);
           rewrite <- A2 by lia; f_equal; lia.
      (* right half *)
      assert (La1 : zlen (sa s1) = zlen (sa s)) by (rewrite Ea1; apply zlen_blit; lia).
      assert (A2' : at_ (sa s1) (mid + 1) l2).
      { rewrite Ea1. replace (mid + 1) with (left + zlen l1) by lia.
        apply at_blit_other; auto; lia. }
      pose proof (IH fuel l2 (mid + 1) right s1 ltac:(lia) ltac:(lia) A2' ltac:(lia) ltac:(lia)
        ltac:(lia) ltac:(lia) ltac:(lia)) as G2. cbv zeta in G2.
      unfold bind at 1 in RE. destruct (merge_sort cmp fuel (mid + 1) right s1) as [s2 o2].
      cbn [fst snd] in G2. destruct G2 as (Sb2 & l2' & Ea2 & P2 & O2).
      assert (L2' : zlen l2' = zlen l2) by (unfold zlen; rewrite (Permutation_length P2); auto).
      assert (Ea : sa s2 = zblit (sa s) left (l1' ++ l2')).
      { rewrite Ea2, Ea1. replace (mid + 1) with (left + zlen l1') by lia.
        apply zblit_blit; lia. }
      assert (PP : Permutation l (l1' ++ l2')) by (rewrite El; apply Permutation_app; auto).
      destruct o2 as [u2 | e2 | |].
      2-4: subst r; cbn [fst snd]; split; [lia |]; exists (l1' ++ l2'); auto.
      (* merge *)
      assert (A3 : at_ (sa s2) left (l1' ++ l2')).
      { rewrite Ea. apply at_blit_self; rewrite ?zlen_app; lia. }
      pose proof (merge_spec l1' l2' left mid right s2 A3 ltac:(lia) ltac:(lia) ltac:(lia) ltac:(lia)
        ltac:(lia) ltac:(lia) ltac:(lia)) as G3. cbv zeta in G3.
      destruct (merge cmp left mid right s2) as [s3 o3]. subst r. cbn [fst snd] in G3 |- *.
      destruct G3 as (Sb3 & G3). split; [lia |].
      destruct o3 as [u3 | e3 | |].
      2-4: destruct G3 as [Ea3 Cf]; exists (l1' ++ l2'); rewrite Ea3; auto.
      destruct G3 as (m & Ea3 & P3 & Pu).
      assert (Lm : zlen m = zlen (l1' ++ l2')) by (unfold zlen; rewrite (Permutation_length P3); auto).
      exists m. split; [| split].
      + rewrite Ea3, Ea. rewrite zlen_app in Lm. apply zblit_twice; rewrite ?zlen_app; lia.
      + rewrite PP. auto.
      + intros c Pc Tc. destruct (O1 c Pc Tc) as [So1 St1]. destruct (O2 c Pc Tc) as [So2 St2].
        rewrite (Pu c Pc). split.
        * apply cmerge_sorted; auto.
        * intros x. rewrite (cmerge_stable c Tc l1' l2' So1 x).
          rewrite El, !equals_app, St1, St2. auto.
  Qed.

  Lemma zblit_range (a l l' : list A) off :
    at_ a off l -> Permutation l l' -> permutes_range a (zblit a off l') off (zlen l).
  Proof.
    intros (H1 & H2 & H3) P. zlen_facts.
    assert (L : zlen l' = zlen l) by (unfold zlen; rewrite (Permutation_length P); auto).
    exists (ztake off a), l, l', (zdrop (off + zlen l) a).
    split; [| split; [| split; [| split]]]; auto.
    - apply znth_ext. intros i Hi. rewrite !znth_app, zlen_take, znth_take, znth_drop.
      replace (Z.min (Z.max 0 off) (zlen a)) with off by lia.
      zcase; auto; try (rewrite <- H3 by lia); f_equal; lia.
    - unfold zblit. rewrite L. auto.
    - rewrite zlen_take. lia.
  Qed.

  (** The whole method. *)
  Lemma sort_spec fuel s a offset length :
    (30 < fuel)%nat ->
    let len := if length <? 0 then zlen a - offset else length in
    0 <= offset -> 0 <= len -> offset + len <= zlen a -> zlen a <= INT32_MAX ->
    offset + len <= 1073741824 ->
    exists s' a' o, sort cmp zero fuel s (Some a) true offset length = (s', Some a', o) /\
      permutes_range a a' offset len /\
      match o with
      | Ret _ => forall c, pure_cmp c -> total_preorder c ->
                   sorted_stable c (zsub a offset len) (zsub a' offset len)
      | o => cmp_failure o
      end.
  Proof.
    intros F len O Ln R La Bd. unfold sort. cbn [negb].
    destruct (Z.geb_spec offset 0); [| lia]. cbn [negb]. zlen_facts.
    assert (EL : (if length <? 0 then wrap32 (zlen a - offset) else length) = len).
    { unfold len. destruct (length <? 0) eqn:X; auto. apply wrap32_id. unfold in_i32. lia. }
    rewrite EL. rewrite (wrap32_id (offset + len)) by (unfold in_i32; lia).
    replace (offset + len <=? zlen a) with true by lia. cbn [negb].
    set (l := zsub a offset len).
    assert (Ll : zlen l = len) by (unfold l; rewrite zlen_sub; lia).
    assert (Ha : at_ a offset l) by (apply at_split; lia).
    destruct (Z.eqb_spec len 0) as [Z0 | Z0].
    - exists s, a, (Ret tt). split; auto. split.
      + assert (Q : zblit a offset l = a).
        { apply znth_ext. intros i Hi. rewrite znth_blit by lia. zcase; auto. }
        rewrite <- Q at 2. rewrite <- Ll. apply zblit_range; auto.
      + intros c _ _. fold l. rewrite (zlen_0_nil l) by lia. split; [constructor |]. intros x; auto.
    - replace (len <? 0) with false by lia.
      rewrite (wrap32_id (offset + len - 1)) by (unfold in_i32; lia).
      pose proof (merge_sort_spec 30 fuel l offset (offset + len - 1)
        {| ss := s; sa := a; sb := zrep len zero |} F) as H1.
      cbn [sa sb] in H1. rewrite zlen_rep in H1.
      change (2 ^ Z.of_nat 30) with 1073741824 in H1.
      specialize (H1 ltac:(lia) Ha ltac:(lia) ltac:(lia) ltac:(lia) ltac:(lia) ltac:(lia)).
      cbv zeta in H1.
      destruct (merge_sort cmp fuel offset (offset + len - 1) _) as [s1 o1]. cbn [fst snd] in H1.
      destruct H1 as (_ & l' & Ea & P & O1).
      assert (L' : zlen l' = zlen l) by (unfold zlen; rewrite (Permutation_length P); auto).
      exists (ss s1), (sa s1), o1. split; auto. split.
      + rewrite Ea, <- Ll. apply zblit_range; auto.
      + destruct o1; auto. intros c Pc Tc. fold l. rewrite Ea.
        replace (zsub (zblit a offset l') offset len) with l'; auto.
        apply znth_ext. intros i Hi. rewrite znth_sub, znth_blit by lia.
        replace (Z.max 0 offset) with offset by lia.
        zcase; auto; try (f_equal; lia); apply znth_ge; lia.
  Qed.
End Proofs.

Section Order.
  Context {A : Type} (c : A -> A -> Z).
  Lemma strongly_sorted_in_order l :
    StronglySorted (fun x y => c x y <= 0) l -> in_order c l.
  Proof.
    induction 1 as [| x l S IH F]; intros i j a b D Ha Hb.
    - rewrite znth_nil in Ha. discriminate.
    - pose proof (znth_Some _ _ _ Ha). rewrite znth_cons in Ha, Hb.
      destruct (Z.eqb_spec j 0); [lia |]. destruct (Z.eqb_spec i 0).
      + inversion Ha; subst. rewrite Forall_forall in F. apply F. eapply znth_In; eauto.
      + apply (IH (i - 1) (j - 1) a b); auto. lia.
  Qed.
End Order.

(** Ranges beyond index 2^30: the midpoint overflows. *)
Section Overflow.
  Context {A S : Type}.
  Variable cmp : S -> A -> A -> S * outcome Z.

  Lemma negative_left fuel : forall left right (s : st A S),
    -1073741824 <= left < 0 -> left < right <= INT32_MAX -> left + right <= INT32_MAX ->
    is_ret (snd (merge_sort cmp fuel left right s)) = false.
  Proof.
    induction fuel as [| fuel IH]; intros left right s L R B; cbn [merge_sort]; [reflexivity |].
    destruct (Z.geb_spec left right); [lia |].
    rewrite wrap32_id by (unfold in_i32; lia).
    assert (Q : left < Z.quot (left + right) 2 /\ Z.quot (left + right) 2 <= right).
    { pose proof (Z.quot_rem' (left + right) 2).
      pose proof (Z.rem_bound_abs (left + right) 2 ltac:(lia)).
      destruct (Z.leb_spec 0 (left + right)).
      - pose proof (Z.rem_nonneg (left + right) 2 ltac:(lia) ltac:(lia)). lia.
      - pose proof (Z.rem_nonpos (left + right) 2 ltac:(lia) ltac:(lia)). lia. }
    unfold bind at 1.
    pose proof (IH left (Z.quot (left + right) 2) s ltac:(lia) ltac:(lia) ltac:(lia)) as H1.
    destruct (merge_sort cmp fuel left (Z.quot (left + right) 2) s) as [s1 [] ]; cbn in *; auto; discriminate.
  Qed.

  Lemma bind_not_ret {X Y} (m : M X) (f : X -> M Y) (s : st A S) :
    is_ret (snd (m s)) = false -> is_ret (snd (bind m f s)) = false.
  Proof. unfold bind. destruct (m s) as [s1 [] ]; cbn; auto; discriminate. Qed.

  Lemma large_range zero fuel s (a : list A) :
    1073741826 <= zlen a <= INT32_MAX ->
    is_ret (snd (sort cmp zero fuel s (Some a) true 1073741824 2)) = false.
  Proof.
    intros La. unfold sort. cbn [negb Z.geb Z.compare Z.ltb Z.eqb].
    change (wrap32 (1073741824 + 2)) with 1073741826.
    replace (1073741826 <=? zlen a) with true by lia. cbn [negb].
    change (wrap32 (1073741826 - 1)) with 1073741825.
    generalize {| ss := s; sa := a; sb := zrep 2 zero |}. intros s0.
    replace (snd (let (s', o) := merge_sort cmp fuel 1073741824 1073741825 s0 in
                  (ss s', Some (sa s'), o)))
      with (snd (merge_sort cmp fuel 1073741824 1073741825 s0))
      by (destruct (merge_sort cmp fuel 1073741824 1073741825 s0); auto).
    destruct fuel as [| fuel]; [reflexivity |]. cbn [merge_sort].
    change (1073741824 >=? 1073741825) with false. cbv iota.
    change (Z.quot (wrap32 (1073741824 + 1073741825)) 2) with (-1073741823).
    change (wrap32 (-1073741823 + 1)) with (-1073741822).
    destruct fuel as [| fuel]; [reflexivity |].
    assert (E : merge_sort cmp (Datatypes.S fuel) 1073741824 (-1073741823) s0 = (s0, Ret tt))
      by reflexivity.
    rewrite (bind_ret _ _ _ _ _ E). apply bind_not_ret. apply negative_left; lia.
  Qed.
End Overflow.
