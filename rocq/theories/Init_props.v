(** * C59: INIT methods *)

From Verif Require Import Base Init_model Init_spec Init_proofs.

(** What a program does with INIT methods: the runtime calls those of the
    first [n] basic types (more of them after more classes were loaded), or a
    method of some class runs some statements. Errors do not end the session. *)
Inductive action : Type := Boot (n : Z) | Code (r : nat) (c : Z) (s : stmt).
Definition act (p : Z -> cls) (st : state) (a : action) : state :=
  match a with
  | Boot n => snd (call_init_methods p n st)
  | Code r c s => snd (exec p r c s st)
  end.
Definition session (p : Z -> cls) (l : list action) : state := fold_left (act p) l fresh.

Lemma exec_R p r c s st : run p r c s st (fst (exec p r c s st)) (snd (exec p r c s st)).
Proof. apply exec_run. now destruct (exec p r c s st). Qed.

Lemma loop_inv (p : Z -> cls) (P : state -> Prop) :
  (forall c st, P st -> P (snd (exec p MAX_CALL_DEPTH c (SInit c) st))) ->
  forall l st, P st -> P (snd (call_init_loop p l st)).
Proof.
  intros H. induction l as [| c l IH]; intros st Q; cbn [call_init_loop]; auto.
  specialize (H c st Q). destruct (exec p MAX_CALL_DEPTH c (SInit c) st) as ([|], st'); cbn in *; auto.
Qed.

Lemma session_inv (p : Z -> cls) (P : state -> Prop) :
  P fresh -> (forall r c s st, P st -> P (snd (exec p r c s st))) -> forall l, P (session p l).
Proof.
  intros H0 H l. unfold session. revert H0. generalize fresh as st.
  induction l as [| a l IH]; intros st Q; cbn [fold_left]; auto. apply IH.
  destruct a as [n | r c s]; cbn [act]; auto. unfold call_init_methods. apply loop_inv; auto.
Qed.

(** ** Once *)

(** In every session of every program, the INIT method of a class is run at
    most once. *)
Theorem C59_once : forall p l c, (runs c (history (session p l)) <= 1)%nat.
Proof.
  intros p l c. assert (C : counted (session p l)).
  { apply session_inv; [intros d; reflexivity |]. intros r d s st K.
    eapply run_counted; [apply exec_R | exact K]. }
  rewrite (C c). destruct (initialized _ c); lia.
Qed.

Lemma In_ids n c : 0 <= c < n -> In c (ids n).
Proof.
  intros B. unfold ids. apply in_map_iff. exists (Z.to_nat c). split; [lia |]. apply in_seq. lia.
Qed.

Lemma loop_all p : forall l st st', call_init_loop p l st = (true, st') ->
  (forall d, initialized st d = true -> initialized st' d = true) /\
  (forall c, In c l -> has_init p c = true -> initialized st' c = true).
Proof.
  induction l as [| c l IH]; intros st st' E; cbn [call_init_loop] in E.
  - inversion E; subst. split; [auto | intros c []].
  - destruct (exec p MAX_CALL_DEPTH c (SInit c) st) as ([|], st1) eqn:Q; [| discriminate].
    apply exec_run in Q. destruct (IH _ _ E) as (M & A).
    destruct (run_history _ _ _ _ _ _ _ Q) as (_ & M1). split; auto.
    intros d [<- | I] H; auto. apply M. eapply run_init; eauto.
Qed.

(** If the runtime's call of the INIT methods succeeds, each class among its
    basic types has had its INIT method run exactly once. *)
Theorem C59_all : forall p n st c, call_init_methods p n fresh = (true, st) ->
  0 <= c < n -> c_user_defined (p c) = true -> runs c (history st) = 1%nat.
Proof.
  intros p n st c E B U. destruct (loop_all p _ _ _ E) as (_ & A).
  assert (C : counted st).
  { replace st with (snd (call_init_methods p n fresh)) by now rewrite E.
    unfold call_init_methods. apply loop_inv; [| intros d; reflexivity]. intros d s K. eapply run_counted; [apply exec_R | exact K]. }
  rewrite (C c), (A c); auto. now apply In_ids.
Qed.

(** ** Dependencies first *)

Definition boots (l : list Z) : list action := map Boot l.

Lemma boots_inv p (P : state -> Prop) : P fresh ->
  (forall c st, P st -> P (snd (exec p MAX_CALL_DEPTH c (SInit c) st))) -> forall l, P (session p (boots l)).
Proof.
  intros H0 H l. unfold session, boots. revert H0. generalize fresh as st.
  induction l as [| n l IH]; intros st Q; cbn [map fold_left]; auto. apply IH. cbn [act]. unfold call_init_methods. now apply loop_inv.
Qed.

Lemma boots_good p l : acyclic p -> closed (session p (boots l)) [] /\ good p (history (session p (boots l))).
Proof.
  intros (rank & R). apply boots_inv.
  - split; [intros j J; discriminate J | exact Logic.I].
  - intros c st (C & G). apply (run_good p rank R _ _ _ _ _ _ (exec_R p MAX_CALL_DEPTH c (SInit c) st) []); auto.
    + right; left; eauto.
    + intros d _ _ k [].
Qed.

(** If no class depends on itself, then whenever a statement in an INIT block
    of a class has an effect, the INIT methods of its parent class and of the
    classes it uses are over: they returned or died. *)
Theorem C59_order : forall p l, acyclic p -> dependencies_first p (history (session p (boots l))).
Proof. intros p l A. apply good_spec. now apply boots_good. Qed.

(** Without an eval in the INIT blocks, a successful start runs each INIT
    method to its end, and before each effect of a class the INIT methods it
    depends on have returned. *)
Theorem C59_complete : forall p n st, acyclic p -> (forall c s, In s (c_inits (p c)) -> no_eval s) ->
  call_init_methods p n fresh = (true, st) ->
  (forall c, 0 <= c < n -> c_user_defined (p c) = true -> In (End c) (history st)) /\
  (forall c, ~ In (Fail c) (history st)) /\
  (forall later earlier c e d, history st = later ++ Effect c e :: earlier -> depends p c d -> In (End d) earlier).
Proof.
  intros p n st A NE E.
  assert (NF : forall c, ~ In (Fail c) (history st)).
  { assert (X : forall l s s', call_init_loop p l s = (true, s') ->
                (forall c, ~ In (Fail c) (history s)) -> forall c, ~ In (Fail c) (history s')).
    { induction l as [| c l IH]; intros s s' Q N; cbn [call_init_loop] in Q; [inversion Q; subst; auto |].
      destruct (exec p MAX_CALL_DEPTH c (SInit c) s) as ([|], s1) eqn:Q1; [| discriminate].
      apply (IH _ _ Q). intros d D. apply exec_run in Q1.
      apply (N d). eapply run_no_fail; eauto. exact Logic.I. }
    apply (X _ _ _ E). intros c []. }
  assert (S : session p (boots [n]) = st).
  { unfold session, boots. cbn [map fold_left act]. now rewrite E. }
  destruct (boots_good p [n] A) as (C & G). rewrite S in C, G.
  split; [| split; auto].
  - intros c B U. destruct (loop_all p _ _ _ E) as (_ & L).
    destruct (C c) as [[] | [D | D]]; auto; [| destruct (NF c D)]. apply L; auto. now apply In_ids.
  - intros later earlier c e d H D. apply good_spec in G.
    destruct (G later earlier c e d H D) as [K | K]; auto. destruct (NF d). rewrite H.
    apply in_or_app. right. now right.
Qed.

(** ** Success *)

(** If no statement dies and the chain of dependencies is shorter than the
    call depth limit, the start succeeds. *)
Theorem C59_success : forall p depth n,
  (forall c d, depends p c d -> (depth d < depth c)%nat) ->
  (forall c, c_parent (p c) = None \/ exists d, c_parent (p c) = Some d /\ c_user_defined (p d) = true) ->
  (forall c d, In (Some d) (c_uses (p c)) -> c_user_defined (p d) = true) ->
  (forall c s, In s (c_inits (p c)) -> safe depth (depth c) s) ->
  (forall c, 0 <= c < n -> (depth c < 1000)%nat) ->
  exists st, call_init_methods p n fresh = (true, st).
Proof.
  intros p depth n D PU UU S M.
  assert (SAFE : forall c, has_init p c = true -> safe depth (depth c) (seq (init_method p c))).
  { intros c _. rewrite init_method_eq.
    assert (X : forall l, (forall s, In s l -> safe depth (depth c) s) -> safe depth (depth c) (seq l)).
    { induction l as [| x l IH]; cbn; auto. }
    apply X. intros s I. apply in_app_or in I. destruct I as [I | I]; [| eauto].
    apply in_map_iff in I. destruct I as (d & <- & I). cbn. apply D. apply front_depends. split; auto.
    unfold front in I. apply in_app_or in I. destruct I as [I | I].
    - destruct (PU c) as [Q | (d' & Q & U)]; rewrite Q in I; [destruct I |]. destruct I as [-> | []]. exact U.
    - unfold use_calls in I. apply in_flat_map in I. destruct I as (o & Io & I).
      destruct o as [u |]; [| destruct I]. destruct (c_is_class (p u)); [| destruct I].
      destruct I as [-> | []]. exact (UU c d Io). }
  unfold call_init_methods.
  assert (X : forall l st, (forall c, In c l -> (depth c < 1000)%nat) -> exists st', call_init_loop p l st = (true, st')).
  { induction l as [| c l IH]; intros st B; cbn [call_init_loop]; [eauto |].
    destruct (exec p MAX_CALL_DEPTH c (SInit c) st) as (ok, st1) eqn:Q. pose proof (exec_run _ _ _ _ _ _ _ Q) as R.
    assert (ok = true) as ->.
    { eapply run_safe; eauto. cbn [safe]. unfold MAX_CALL_DEPTH. change (Z.to_nat 1000) with 1000%nat.
      apply B. now left. }
    apply IH. intros d I. apply B. now right. }
  apply X. intros c I. unfold ids in I. apply in_map_iff in I. destruct I as (k & <- & I). apply in_seq in I.
  apply M. lia.
Qed.

(** ** Limits *)

Definition cls_of (parent : option Z) (uses : list Z) (inits : list stmt) : cls :=
  {| c_user_defined := true; c_is_class := true; c_parent := parent; c_uses := map Some uses; c_inits := inits |}.

Lemma pair_true {A B : Type} (x : A * B) (a : A) : fst x = a -> x = (a, snd x).
Proof. destruct x. cbn. congruence. Qed.

(** Two classes that use each other: the statements of one of them run before
    the INIT method of the other is over. *)
Definition mutual (c : Z) : cls := if c =? 0 then cls_of None [1] [SEffect 10] else cls_of None [0] [SEffect 11].

Theorem C59_cycle_refuted : exists st,
  call_init_methods mutual 2 fresh = (true, st) /\
  history st = [End 0; Effect 0 10; End 1; Effect 1 11; Start 1; Start 0] /\
  depends mutual 1 0 /\ ~ dependencies_first mutual (history st).
Proof.
  exists (snd (call_init_methods mutual 2 fresh)).
  assert (H : history (snd (call_init_methods mutual 2 fresh)) =
              [End 0; Effect 0 10; End 1; Effect 1 11; Start 1; Start 0]) by (vm_compute; reflexivity).
  split; [apply pair_true; vm_compute; reflexivity |]. split; [exact H |]. rewrite H. clear H.
  assert (D : depends mutual 1 0) by (split; [reflexivity |]; right; split; [now left | reflexivity]).
  split; auto. intros F.
  destruct (F [End 0; Effect 0 10; End 1] [Start 1; Start 0] 1 11 0 eq_refl D) as [H | H];
    repeat destruct H as [H | H]; try discriminate H; destruct H.
Qed.

(** An INIT method that dies is not run again, and the next start succeeds:
    the class stays half initialized, and the classes that use it run. *)
Definition failing (c : Z) : cls :=
  if c =? 0 then cls_of None [] [SEffect 1; SDie; SEffect 2] else cls_of None [0] [SEffect 3].

Theorem C59_failed_refuted : exists st st',
  call_init_methods failing 2 fresh = (false, st) /\ history st = [Fail 0; Effect 0 1; Start 0] /\
  call_init_methods failing 2 st = (true, st') /\
  history st' = [End 1; Effect 1 3; Start 1; Fail 0; Effect 0 1; Start 0] /\ depends failing 1 0.
Proof.
  exists (snd (call_init_methods failing 2 fresh)),
         (snd (call_init_methods failing 2 (snd (call_init_methods failing 2 fresh)))).
  split; [apply pair_true; vm_compute; reflexivity |]. split; [vm_compute; reflexivity |].
  split; [apply pair_true; vm_compute; reflexivity |]. split; [vm_compute; reflexivity |].
  split; [reflexivity |]. right. split; [now left | reflexivity].
Qed.

(** A chain of 1001 classes, each using the next, does not start, although no
    statement dies. *)
Definition chain (c : Z) : cls := cls_of None (if c <? 1000 then [c + 1] else []) [SEffect c].

Lemma no_effect h : existsb (fun e => match e with Effect 0 _ => true | _ => false end) h = false -> ~ In (Effect 0 0) h.
Proof.
  intros X I. enough (Y : existsb (fun e => match e with Effect 0 _ => true | _ => false end) h = true) by congruence.
  apply existsb_exists. eexists. split; [exact I | reflexivity].
Qed.

Theorem C59_deep_refuted :
  acyclic chain /\ (forall c s, In s (c_inits (chain c)) -> s = SEffect c) /\
  fst (call_init_methods chain 1001 fresh) = false /\ runs 0 (history (snd (call_init_methods chain 1001 fresh))) = 1%nat /\
  ~ In (Effect 0 0) (history (snd (call_init_methods chain 1001 fresh))).
Proof.
  split; [| split; [| split; [| split]]].
  - exists (fun c => Z.to_nat (1001 - c)). intros c d [(U & [P | (I & _)]) | (s & I & K)].
    + discriminate P.
    + cbn in I. destruct (Z.ltb_spec c 1000); [| destruct I]. destruct I as [I | []]. inversion I. lia.
    + cbn in I. destruct I as [<- | []]. destruct K.
  - intros c s [<- | []]. reflexivity.
  - vm_compute. reflexivity.
  - vm_compute. reflexivity.
  - apply no_effect. vm_compute. reflexivity.
Qed.

(** ** The hypotheses are met *)

(** Class 3 extends class 1 and uses 2 and 0; 1 uses 0; 2 calls the INIT
    method of 0 itself; 4 is an interface that 3 uses. *)
Definition ex (c : Z) : cls :=
  if c =? 3 then
    {| c_user_defined := true; c_is_class := true; c_parent := Some 1; c_uses := [Some 4; None; Some 2; Some 0];
       c_inits := [SEffect 30; SRepeat (fun _ => 2%nat) (SMethod (SEffect 31))] |}
  else if c =? 1 then cls_of None [0] [SEffect 10]
  else if c =? 2 then cls_of None [] [SInit 0; SIf (fun h => existsb (fun e => match e with End 0 => true | _ => false end) h) (SEffect 20) SDie]
  else if c =? 0 then cls_of None [] [SEffect 1]
  else {| c_user_defined := true; c_is_class := false; c_parent := None; c_uses := []; c_inits := [] |}.

Example C59_example :
  acyclic ex /\ (forall c s, In s (c_inits (ex c)) -> no_eval s) /\
  exists st, call_init_methods ex 5 fresh = (true, st) /\
    rev (history st) =
      [Start 0; Effect 0 1; End 0; Start 1; Effect 1 10; End 1; Start 2; Effect 2 20; End 2;
       Start 3; Effect 3 30; Effect 3 31; Effect 3 31; End 3; Start 4; End 4].
Proof.
  assert (CASES : forall (P : Z -> Prop), P 0 -> P 1 -> P 2 -> P 3 ->
            (forall c, c <> 0 -> c <> 1 -> c <> 2 -> c <> 3 -> P c) -> forall c, P c).
  { intros P H0 H1 H2 H3 H c. destruct (Z.eq_dec c 0); [now subst |]. destruct (Z.eq_dec c 1); [now subst |].
    destruct (Z.eq_dec c 2); [now subst |]. destruct (Z.eq_dec c 3); [now subst | auto]. }
  assert (OTHER : forall c, c <> 0 -> c <> 1 -> c <> 2 -> c <> 3 -> ex c =
            {| c_user_defined := true; c_is_class := false; c_parent := None; c_uses := []; c_inits := [] |}).
  { intros c N0 N1 N2 N3. unfold ex. now rewrite (proj2 (Z.eqb_neq c 3) N3), (proj2 (Z.eqb_neq c 1) N1), (proj2 (Z.eqb_neq c 2) N2), (proj2 (Z.eqb_neq c 0) N0). }
  split; [| split].
  - set (rank := fun c => if c =? 3 then 3%nat else if c =? 1 then 2%nat else if c =? 2 then 2%nat else if c =? 0 then 1%nat else 0%nat).
    exists rank.
    apply (CASES (fun c => forall d, depends ex c d \/ calls ex c d -> (rank d < rank c)%nat)).
    + intros d [(_ & [P | (I & _)]) | (s & I & K)]; cbn in *; try discriminate; try tauto.
      destruct I as [<- | []]. destruct K.
    + intros d [(_ & [P | (I & _)]) | (s & I & K)]; cbn in *; try discriminate; try tauto.
      * destruct I as [I | []]. inversion I. cbn. lia.
      * destruct I as [<- | []]. destruct K.
    + intros d [(_ & [P | (I & _)]) | (s & I & K)]; cbn in *; try discriminate; try tauto.
      destruct I as [<- | [<- | []]]; cbn in K; [subst d; cbn; lia | tauto].
    + intros d [(_ & [P | (I & K)]) | (s & I & K)]; cbn in *; try discriminate; try tauto.
      * inversion P. cbn. lia.
      * repeat destruct I as [I | I]; inversion I; subst d; cbn; lia.
      * destruct I as [<- | [<- | []]]; destruct K.
    + intros c N0 N1 N2 N3 d [(_ & [P | (I & _)]) | (s & I & K)]; rewrite OTHER in *; auto; try discriminate; try destruct I.
  - apply (CASES (fun c => forall s, In s (c_inits (ex c)) -> no_eval s)).
    + intros s [<- | []]. exact Logic.I.
    + intros s [<- | []]. exact Logic.I.
    + intros s [<- | [<- | []]]; cbn; auto.
    + intros s [<- | [<- | []]]; cbn; auto.
    + intros c N0 N1 N2 N3 s I. rewrite OTHER in I; auto. destruct I.
  - exists (snd (call_init_methods ex 5 fresh)).
    split; [apply pair_true; vm_compute; reflexivity | vm_compute; reflexivity].
Qed.

(** The hypotheses of C59_success, for a chain of ten classes. *)
Example C59_success_example :
  let p := fun c => cls_of None (if c <? 9 then [c + 1] else []) [SEffect c] in
  exists st, call_init_methods p 10 fresh = (true, st).
Proof.
  intros p. apply (C59_success p (fun c => Z.to_nat (9 - c)) 10).
  - intros c d (_ & [P | (I & _)]); [discriminate |]. cbn in I.
    destruct (Z.ltb_spec c 9); [| destruct I]. destruct I as [I | []]. inversion I. lia.
  - intros c. now left.
  - intros c d _. reflexivity.
  - intros c s [<- | []]. exact Logic.I.
  - intros c B. lia.
Qed.

Print Assumptions C59_once.
Print Assumptions C59_all.
Print Assumptions C59_order.
Print Assumptions C59_complete.
Print Assumptions C59_success.
Print Assumptions C59_cycle_refuted.
Print Assumptions C59_failed_refuted.
Print Assumptions C59_deep_refuted.
