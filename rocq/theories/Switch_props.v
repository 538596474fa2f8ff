(** * switch selects the matching case: C18 *)

From Coq Require Import Permutation.
From Verif Require Import Base Switch_model Switch_proofs.

(** A switch statement with the cases [cases] (constant, block) in source
    order and default block [dflt] is rejected at compile time exactly when
    two constants are equal. Otherwise, wherever its opcodes are placed in the
    method, executing it on any value [v] continues at the block of the case
    with constant [v], or at the default block if there is none. *)
Theorem C18_switch : forall cases dflt var pre post v,
  zlen cases <= INT32_MAX -> in_i32 dflt ->
  Forall (fun c => in_i32 (fst c) /\ in_i32 (snd c)) cases ->
  (~ NoDup (map fst cases) -> is_die (check_switch cases) = true) /\
  (NoDup (map fst cases) ->
   exists sorted, check_switch cases = Ret sorted /\
   exists target,
     lookup_switch (pre ++ emit_switch var dflt sorted ++ post) (zlen pre) v = Ret target /\
     (forall t, In (v, t) cases -> target = t) /\
     ((forall t, ~ In (v, t) cases) -> target = dflt)).
Proof.
  intros cases dflt var pre post v L D I.
  destruct (check_switch_spec cases) as [(N & l & E & P & S) | (N & E)]; rewrite E.
  - split; [tauto |]. intros _. exists l. split; [reflexivity |].
    destruct (lookup_spec pre post var dflt l S) with (v := v) as (r & R & Ds); auto.
    { rewrite <- (Permutation_zlen _ _ P). auto. }
    { rewrite Forall_forall in *. intros c Hc. apply I. eapply Permutation_in; [apply Permutation_sym |]; eauto. }
    exists r. split; [exact R |].
    assert (Q : forall t, In (v, t) cases <-> In (v, t) l).
    { intros t; split; [apply Permutation_in; auto |].
      apply Permutation_in. apply Permutation_sym; auto. }
    destruct Ds as [Hin | (Hno & ->)].
    + split.
      * intros t Ht. apply Q in Hin.
        clear - N Ht Hin. induction cases as [| (w & u) cs IH]; [destruct Ht |].
        cbn in N. inversion N as [| ? ? Nin N']; subst.
        assert (K : forall t', In (w, t') cs -> False).
        { intros t' Ht'. apply Nin. apply (in_map fst) in Ht'. exact Ht'. }
        destruct Ht as [Ht | Ht], Hin as [Hi | Hi]; auto.
        -- congruence.
        -- injection Ht as -> ->. exfalso; eauto.
        -- injection Hi as -> ->. exfalso; eauto.
      * intros Hno. exfalso. apply (Hno r). apply Q. auto.
    + split; [| auto]. intros t Ht. exfalso. apply (Hno t). apply Q. auto.
  - split; [reflexivity | tauto].
Qed.

Example C18_example :
  exists l, check_switch [(7, 100); (-3, 200); (5, 300)] = Ret l /\
  let ops := emit_switch 4 999 l in
  lookup_switch ops 0 (-3) = Ret 200 /\ lookup_switch ops 0 5 = Ret 300 /\
  lookup_switch ops 0 7 = Ret 100 /\ lookup_switch ops 0 6 = Ret 999 /\
  lookup_switch ops 0 8 = Ret 999 /\
  is_die (check_switch [(7, 100); (1, 2); (7, 3)]) = true.
Proof. eexists. split; [lazy; reflexivity |]. repeat split. Qed.

Print Assumptions C18_switch.
