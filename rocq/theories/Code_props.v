(** * Properties of the code generator and the virtual machine *)

From Verif Require Import Code_model Code_spec Code_gen Code_sim Code_run.
Import ListNotations.

(** ** C22: exceptions, eval, scopes and the rest of the control flow

    For programs whose methods are all [supported] (see Code_spec.v): calling
    a method in the virtual machine gives a result exactly if the structured
    semantics gives one, and the same one: the error id, the state of
    everything outside the frame (hence everything printed, stored or
    released on the way), and an unchanged call depth. It never leaves its code or its
    mortal stack, however long it runs. *)
Theorem C22_control_flow_partial : forall (G R : Type) (P : prims G R) (prog : nat -> option node),
  (forall m b, prog m = Some b -> supported b = true) ->
  forall (d : Z) (nest m : nat) (g : G), (MAX_DEPTH - d <= Z.of_nat nest)%Z ->
  let run k := vm_call P (fun m => option_map compile (prog m)) k nest d m g in
  (forall e g', (exists k, run k = VRet e d g') <-> (exists f, sem_call P prog f d m g = Some (e, g'))) /\
  (forall k, run k = VFuel \/ exists e g', run k = VRet e d g').
Proof.
  intros G R P prog SUP d nest m g N run.
  pose proof (vm_call_ok G R P prog SUP d nest m g N) as [A B].
  change (vm_call P (cprog_of prog)) with (vm_call P (fun m => option_map compile (prog m))) in A, B.
  assert (forall k, run k = VFuel \/ exists e g', run k = VRet e d g' /\ sem_call P prog (S k) d m g = Some (e, g')) as Z.
  { intros k. destruct (sem_call P prog (S k) d m g) as [[e g'] |] eqn:E.
    - destruct (B _ _ _ E) as [_ C]. destruct (C k) as [X | X]; [left; exact X |].
      right. exists e, g'. split; [exact X | reflexivity].
    - left. apply (A _ E). lia. }
  split.
  - intros e g'. split.
    + intros (k & H). destruct (Z k) as [X | (e1 & g1 & X & Y)]; [congruence |].
      exists (S k). rewrite X in H. injection H as <- <-. exact Y.
    + intros (f & H). apply (B _ _ _ H).
  - intros k. destruct (Z k) as [X | (e1 & g1 & X & _)]; [now left |]. right. eauto.
Qed.

(** The meaning of eval in the structured semantics, spelled out: whatever
    the block does, an eval never throws; if the block throws [e] the
    statement ends normally with eval_error_id [e], and otherwise with
    eval_error_id as the block left it; the variables that are alive
    afterwards are those that were alive before. *)
Theorem C22_eval_spec : forall (G R : Type) (P : prims G R) me call f b s sig s',
  sem P me call f (NEval b) s = Some (sig, s') ->
  (forall e, sig <> SThrow e) /\
  (sig = SNormal -> s_live s' = s_live s /\
     exists sg s1, sem P me call f b (mks (p_clear_exc P (s_g s)) (s_r s) 0 (s_live s)) = Some (sg, s1) /\
       (sg = SNormal /\ s_err s' = s_err s1 \/ sg = SThrow (s_err s'))).
Proof.
  intros G R P me call f b s sig s' H. cbn [sem] in H.
  set (s0 := mks _ _ _ _) in *.
  destruct (sem P me call f b s0) as [[sg s1] |] eqn:E; [| discriminate].
  pose proof (proj1 (sem_grows G R P me call f) _ _ _ _ E) as (vs & V & L). cbn in V.
  assert (forall z, s_live z = s_live s1 -> s_live (leave P (lives s) z) = s_live s) as LV
    by (intros z Ez; eapply live_leave; rewrite Ez; exact V).
  assert (forall k z, s_err (leave P k z) = s_err z) as LE
    by (intros k z; unfold leave; destruct (release_all _ _ _ _); reflexivity).
  destruct sg; injection H as <- <-; (split; [intros; discriminate | intros Q; first [discriminate Q | clear Q; split; [now apply LV |]]]).
  - exists SNormal, s1. split; [reflexivity |]. left. split; [reflexivity | apply LE].
  - exists (SThrow e), s1. split; [reflexivity |]. right. rewrite LE. reflexivity.
Qed.

(** Concrete machines: [G] is a log, [R] counts the operations done. *)
Definition logp : prims (list Z) nat := {|
  p_do a g r := (g ++ [Z.of_nat a], S r)%Z;
  p_try a g r := (g ++ [100 + Z.of_nat a]%Z, S r, if a =? 0 then 18%Z else 0%Z);
  p_test a r := r <? a;
  p_sel a r := Z.of_nat r;
  p_release v g r := (g ++ [200 + Z.of_nat v]%Z, r);
  p_get_err v e r := Z.to_nat e;
  p_return a g r := (g ++ [300 + Z.of_nat a]%Z, r);
  p_clear_exc g := g;
  p_trace me line g := g ++ [400 + Z.of_nat line]%Z;
  p_frame m g := 0;
  p_deep g := g ++ [999]%Z;
  p_enter m g := (g, None);
  p_leave m e g := g;
  p_native m g := (g, 0%Z)
|}.

(* a recursion that never ends by itself, inside an eval in a loop in a
   switch, with object variables in every scope *)
Definition demo (m : nat) : option node :=
  match m with
  | 0 => Some (NSeq (NDecl 1)
           (NLoop (NDo 5)
                  (NSeq (NDecl 2)
                  (NSeq (NEval (NSeq (NDecl 3) (NSeq (NCall 1 10) (NDo 6))))
                        (NSwitch NSkip 0 (CLabel 7 (CCase 1 (NSeq (NDecl 4) (NDo 7)) (CDefault (NIf false NSkip 9 NNext NLast)))))))
                  (NDo 8) NSkip 4))
  | 1 => Some (NSeq (NDecl 9) (NCall 1 11))
  | _ => None
  end.

Example C22_demo_supported : forall m b, demo m = Some b -> supported b = true.
Proof. intros [| [| m]] b H; [injection H as <-; reflexivity | injection H as <-; reflexivity | discriminate]. Qed.
Example C22_demo_runs :
  (exists g, sem_call logp demo 1100 0 0 [] = Some (0%Z, g) /\ length g = 4010 /\ firstn 4 g = [5; 999; 411; 209]%Z) /\
  (exists g, vm_call logp (fun m => option_map compile (demo m)) 3000 1000 0 0 [] = VRet 0%Z 0%Z g).
Proof. split; eexists; [split; [| split] |]; vm_compute; reflexivity. Qed.

(** The restrictions are needed.

    In an eval block, an operation that fails before a further eval block
    (nested, ended normally) resumes after that inner eval block instead of
    at the end of its own: operation 7 is done although operation 0 threw. *)
Theorem C22_nested_eval_refuted :
  let b := NEval (NSeq (NTry 0 1) (NSeq (NEval NSkip) (NDo 7))) in
  let prog m := if m =? 0 then Some b else None in
  flow_ok false false b = true /\ fst (scope_ok true b) = true /\
  sem_call logp prog 10 0 0 [] = Some (0, [100; 401])%Z /\
  vm_call logp (fun m => option_map compile (prog m)) 100 1000 0 0 [] = VRet 0 0 [100; 401; 7]%Z.
Proof. vm_compute. repeat split. Qed.

(** An object variable declared in an operand of [&&], [||] or [!] (a
    temporary, usually) is released at the end of a later, unrelated block,
    before the end of the scope it belongs to: the log must have 201 (the
    release of variable 1) last. *)
Theorem C22_operand_scope_refuted :
  let b := NSeq (NIf true NSkip 9 (NDecl 1) NSkip) (NSeq (NBlock (NDecl 2)) (NDo 7)) in
  let prog m := if m =? 0 then Some b else None in
  flow_ok false false b = true /\ eval_ok false b = true /\
  sem_call logp prog 10 0 0 [] = Some (0, [202; 7; 201])%Z /\
  vm_call logp (fun m => option_map compile (prog m)) 100 1000 0 0 [] = VRet 0 0 [201; 202; 7]%Z.
Proof. vm_compute. repeat split. Qed.

(** An object variable declared in a loop condition (a temporary, usually) is
    pushed on the mortal stack in every iteration; if the body declares no
    object variable nothing is popped, and the third iteration writes beyond the end of the
    mortal stack. *)
Theorem C22_loop_condition_refuted :
  let b := NLoop NSkip (NDo 7) NSkip (NDecl 1) 5 in
  let prog m := if m =? 0 then Some b else None in
  flow_ok false false b = true /\ eval_ok false b = true /\
  sem_call logp prog 10 0 0 [] = Some (0, [7; 201; 7; 201; 7; 201; 7; 201; 7; 201; 201])%Z /\
  vm_call logp (fun m => option_map compile (prog m)) 100 1000 0 0 [] = VUB.
Proof. vm_compute. repeat split. Qed.

(** ** C53: scopes

    Whatever a block contains and however its parts end, the object variables
    that are alive after it are those that were alive before it if it ends
    normally; if it is left by next, last, break, return or an exception, the
    variables that were alive before are still alive, in the same order, with those of the
    abandoned scopes after them. By C22_control_flow_partial the virtual
    machine does the same with its mortal stack. *)
Theorem C53_block_scope : forall (G R : Type) (P : prims G R) me call f b s sig s',
  sem P me call f (NBlock b) s = Some (sig, s') ->
  exists vs, s_live s' = s_live s ++ vs /\ (sig = SNormal -> vs = []).
Proof.
  intros G R P me call f b s sig s' H.
  pose proof (proj1 (sem_grows G R P me call f) _ _ _ _ H) as (vs & V & L). exists vs. split; [exact V |].
  intros ->. cbn [sem] in H. destruct (sem P me call f b s) as [[sg s1] |] eqn:E; [| discriminate].
  pose proof (proj1 (sem_grows G R P me call f) _ _ _ _ E) as (ws & W & _).
  destruct sg; try discriminate. injection H as <-.
  rewrite (live_leave G R P s ws s1 W) in V. rewrite <- (app_nil_r (s_live s)) in V at 1.
  symmetry. eapply app_inv_head. exact V.
Qed.

(** The number of object variables alive never exceeds the size of the mortal
    stack that the compiler reserves. *)
Theorem C53_mortal_stack_size : forall (G R : Type) (P : prims G R) me call f b g r sig s',
  supported b = true ->
  sem P me call f b (mks g r 0 []) = Some (sig, s') ->
  lives s' < snd (compile b).
Proof.
  intros G R P me call f b g r sig s' SU H. unfold supported in SU.
  apply andb3 in SU as [SU SC]. apply andb3 in SU as [FL EV].
  rewrite (compile_comp b EV). cbn [snd].
  pose proof (proj1 (sem_grows G R P me call f) _ _ _ _ H) as X. apply grows_lives in X. cbn in X. lia.
Qed.
Example C53_demo : exists s', sem logp 0 (fun _ g => Some (18%Z, g)) 5
    (NSeq (NDecl 1) (NBlock (NSeq (NDecl 2) (NEval (NSeq (NDecl 3) (NCall 4 5)))))) (mks [] 0 0 []) = Some (SNormal, s')
    /\ s_live s' = [1] /\ s_g s' = [405; 203; 202]%Z.
Proof. eexists. split; [| split]; reflexivity. Qed.

(** ** C21: the call depth

    For arbitrary opcodes (not only those the code generator produces): a call
    that ends, in whatever way, leaves the call depth as it was; a call at the
    limit does nothing but throw; and however deep the recursion, there are
    never more than 1000 - d nested calls at depth d (the C stack is
    bounded). *)
Lemma exec_depth : forall (G R : Type) (P : prims G R) cprog k nest me C cap s,
  (forall e d g, exec P cprog k nest me C cap s = VRet e d g -> d = dep s) /\
  ((MAX_DEPTH - dep s <= Z.of_nat nest)%Z -> exec P cprog k nest me C cap s <> VNest).
Proof.
  intros G R P cprog k. induction k as [| k IH]; intros nest me C cap s.
  - split; cbn; [discriminate | intros _; discriminate].
  - assert (forall p g r e ee mo,
      (forall e' d g', exec P cprog k nest me C cap (mkv p (dep s) g r e ee mo) = VRet e' d g' -> d = dep s) /\
      ((MAX_DEPTH - dep s <= Z.of_nat nest)%Z -> exec P cprog k nest me C cap (mkv p (dep s) g r e ee mo) <> VNest)) as N
      by (intros; apply (IH nest me C cap (mkv p (dep s) g r e ee mo))).
    assert ((forall e d g, @VUB G = VRet e d g -> d = dep s) /\ ((MAX_DEPTH - dep s <= Z.of_nat nest)%Z -> @VUB G <> VNest)) as U
      by (split; intros; discriminate).
    cbn [exec]. destruct (nth_error C (pc s)) as [[] |]; try exact U; try apply N;
      try solve [destruct (p_do _ _ _ _); apply N];
      try solve [destruct (p_try _ _ _ _) as [[? ?] ?]; apply N];
      try solve [destruct (_ <? _); [apply N | exact U]];
      try solve [destruct (_ <=? _); [destruct (release_all _ _ _ _); apply N | exact U]];
      try solve [destruct (p_test _ _ _); apply N];
      try solve [destruct (Z.eqb _ _); apply N];
      try solve [destruct (p_return _ _ _ _); apply N].
    + (* call *)
      cbn [dep pc gl rg eerr mort].
      assert ((dep s + 1 - 1)%Z = dep s) as E1 by lia.
      destruct (Z.ltb_spec MAX_DEPTH (dep s + 1)) as [D | D]; [rewrite E1; apply N |].
      destruct (p_enter P m (gl s)) as [g [e |]]; [rewrite E1; apply N |].
      destruct (cprog m) as [[C' cap'] |]; [| destruct (p_native P m g); rewrite E1; apply N].
      destruct nest as [| nest]; [split; [discriminate | intros; lia] |].
      destruct (IH nest m C' cap' (mkv 0 (dep s + 1) g (p_frame P m g) 0%Z 0%Z [])) as [A1 A2].
      destruct (exec P cprog k nest m C' cap' _) as [e d' g' | | |] eqn:X; try (split; intros; discriminate).
      * rewrite (A1 _ _ _ eq_refl). cbn [dep]. rewrite E1. apply N.
      * split; [discriminate |]. intros Q. exfalso. apply A2; [cbn [dep]; lia | reflexivity].
    + split; [intros ? ? ? [= <- <- <-]; reflexivity | intros; discriminate].
Qed.

Theorem C21_call_depth : forall (G R : Type) (P : prims G R) (cprog : nat -> option (list (op nat) * nat)) k nest d m g,
  (forall e d' g', vm_call P cprog k nest d m g = VRet e d' g' -> d' = d) /\
  ((MAX_DEPTH <= d)%Z -> vm_call P cprog k nest d m g = VRet ERROR_ID d (p_deep P g)) /\
  ((MAX_DEPTH - d <= Z.of_nat nest)%Z -> vm_call P cprog k nest d m g <> VNest).
Proof.
  intros G R P cprog k nest d m g. unfold vm_call.
  assert ((d + 1 - 1)%Z = d) as E1 by lia.
  destruct (Z.ltb_spec MAX_DEPTH (d + 1)) as [D | D].
  { rewrite E1. split; [intros ? ? ? [= <- <- <-]; reflexivity |]. split; [reflexivity | discriminate]. }
  split; [| split; [lia |]].
  - intros e d' g' H. destruct (p_enter P m g) as [g1 [e1 |]]; [injection H; lia |].
    destruct (cprog m) as [[C cap] |]; [| destruct (p_native P m g1); injection H; lia].
    destruct nest as [| nest]; [discriminate |].
    destruct (exec P cprog k nest m C cap _) as [e2 d2 g2 | | |] eqn:X; try discriminate.
    apply (proj1 (exec_depth G R P cprog k nest m C cap _)) in X. cbn [dep] in X. injection H; lia.
  - intros N. destruct (p_enter P m g) as [g1 [e1 |]]; [discriminate |].
    destruct (cprog m) as [[C cap] |]; [| destruct (p_native P m g1); discriminate].
    destruct nest as [| nest]; [lia |].
    pose proof (proj2 (exec_depth G R P cprog k nest m C cap (mkv 0 (d + 1) g1 (p_frame P m g1) 0%Z 0%Z []))) as X.
    cbn [dep] in X. destruct (exec P cprog k nest m C cap _); try discriminate. exfalso. apply X; [lia | reflexivity].
Qed.
(* endless recursion ends with an exception at depth 1000 *)
Example C21_endless_recursion :
  exists g, vm_call logp (fun m => option_map compile (demo m)) 4000 1000 0 1 [] = VRet ERROR_ID 0%Z g
            /\ hd 0%Z g = 999%Z /\ length g = 2001.
Proof. eexists. split; [| split]; vm_compute; reflexivity. Qed.

Print Assumptions C22_control_flow_partial.
Print Assumptions C22_eval_spec.
Print Assumptions C22_nested_eval_refuted.
Print Assumptions C22_operand_scope_refuted.
Print Assumptions C22_loop_condition_refuted.
Print Assumptions C53_block_scope.
Print Assumptions C53_mortal_stack_size.
Print Assumptions C21_call_depth.
