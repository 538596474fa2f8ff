(** * Proofs about reference counting with threads *)
From Verif Require Import Base Threads_model Threads_spec.
Local Open Scope Z_scope.

Definition one (o' o : nat) : Z := if Nat.eqb o' o then 1 else 0.
Definition opt_one (v : option nat) (o : nat) : Z := match v with Some o' => one o' o | None => 0 end.
Definition task_object (k : task) : nat := match k with TRelease o => o | TDestroy o => o | TFields o _ => o end.
Fixpoint sum_tasks (ks : list task) (o : nat) : Z := match ks with [] => 0 | k :: ks => one (task_object k) o + sum_tasks ks o end.

Lemma one_range o' o : 0 <= one o' o <= 1.
Proof. unfold one. destruct (Nat.eqb o' o); lia. Qed.
Lemma one_same o : one o o = 1.
Proof. unfold one. rewrite Nat.eqb_refl. reflexivity. Qed.

Lemma places_nonneg o l : 0 <= places_of o l.
Proof. induction l as [| [p o'] l IH]; cbn [places_of]; [lia |]. destruct (Nat.eqb o' o); lia. Qed.
Lemma releases_nonneg o l : 0 <= releases_of o l.
Proof. induction l as [| [t k] l IH]; cbn [releases_of]; [lia |]. destruct (Nat.eqb _ o); lia. Qed.

Lemma places_remove o p l : places_of o (remove p l) = places_of o l - opt_one (get p l) o.
Proof.
  induction l as [| [q o'] l IH]; cbn [remove get places_of]; [cbn; lia |].
  destruct (place_eqb p q); cbn [places_of opt_one].
  - unfold one. lia.
  - rewrite IH. lia.
Qed.
Lemma places_get o p l : get p l = Some o -> 1 <= places_of o l.
Proof.
  induction l as [| [q o'] l IH]; cbn [get places_of]; [discriminate |]. pose proof (places_nonneg o l).
  destruct (place_eqb p q); intros E.
  - injection E as ->. rewrite Nat.eqb_refl. lia.
  - specialize (IH E). destruct (Nat.eqb o' o); lia.
Qed.
Lemma releases_app o l l' : releases_of o (l ++ l') = releases_of o l + releases_of o l'.
Proof. induction l as [| [t k] l IH]; cbn [releases_of app]; [lia |]. rewrite IH. lia. Qed.
Lemma releases_map o t ks : releases_of o (map (pair t) ks) = sum_tasks ks o.
Proof. induction ks as [| k ks IH]; cbn [releases_of map sum_tasks]; [reflexivity |]. rewrite IH. reflexivity. Qed.
Lemma releases_release o t old l : releases_of o (release t old l) = opt_one old o + releases_of o l.
Proof. destruct old; reflexivity. Qed.
Lemma releases_replace o t ks k l : find_task t l = Some k ->
  releases_of o (replace t ks l) = releases_of o l - one (task_object k) o + sum_tasks ks o.
Proof.
  induction l as [| [u k'] l IH]; cbn [find_task replace releases_of]; [discriminate |].
  destruct (Nat.eqb t u); intros E.
  - injection E as ->. rewrite releases_app, releases_map. unfold one, task_object. lia.
  - cbn [releases_of]. rewrite IH by auto. lia.
Qed.
Lemma releases_find o t k l : find_task t l = Some k -> task_object k = o -> 1 <= releases_of o l.
Proof.
  induction l as [| [u k'] l IH]; cbn [find_task releases_of]; [discriminate |]. pose proof (releases_nonneg o l).
  destruct (Nat.eqb t u); intros E T.
  - injection E as ->. unfold task_object in T. rewrite T, Nat.eqb_refl. lia.
  - specialize (IH E T). destruct (Nat.eqb _ o); lia.
Qed.
Lemma find_In t k l : find_task t l = Some k -> In (t, k) l.
Proof.
  induction l as [| [u k'] l IH]; cbn [find_task]; [discriminate |]. destruct (Nat.eqb_spec t u); intros E.
  - injection E as ->. subst. left. auto.
  - right. auto.
Qed.
Lemma In_replace t ks u k l : In (u, k) (replace t ks l) -> In (u, k) l \/ (u = t /\ In k ks).
Proof.
  induction l as [| [v k'] l IH]; cbn [replace]; auto. destruct (Nat.eqb t v).
  - intros H. apply in_app_or in H. destruct H as [H | H]; [| left; right; auto].
    apply in_map_iff in H. destruct H as (k0 & E & H). injection E as -> ->. auto.
  - intros [E | H]; [left; left; auto |]. destruct (IH H); auto. left. right. auto.
Qed.
Lemma In_release u k t old l : In (u, k) (release t old l) -> In (u, k) l \/ (exists o, k = TRelease o).
Proof. destruct old as [o |]; cbn; auto. intros [E | H]; auto. injection E as _ <-. eauto. Qed.

(** Counts are exact; freed objects are held by nobody; DESTROY has been called before. *)
Record inv (s : state) : Prop := {
  inv_alive : forall o, alive s o = true ->
    counts s o = places_of o (refs s) + releases_of o (tasks s) /\ 1 <= counts s o /\ (o < next s)%nat;
  inv_dead : forall o, alive s o = false -> places_of o (refs s) = 0 /\ releases_of o (tasks s) = 0;
  inv_freed : forall o, In o (freed s) -> alive s o = false /\ (o < next s)%nat;
  inv_all : forall o, (o < next s)%nat -> alive s o = false -> In o (freed s);
  inv_once : NoDup (freed s);
  inv_fields : forall t o l, In (t, TFields o l) (tasks s) -> In o (destroyed s);
  inv_destroyed : forall o, In o (freed s) -> In o (destroyed s)
}.

Lemma inv_init : inv init.
Proof.
  constructor; cbn; try discriminate; auto; try contradiction; try lia. constructor.
Qed.

Lemma held_alive s o : inv s -> 1 <= places_of o (refs s) + releases_of o (tasks s) -> alive s o = true.
Proof.
  intros H L. destruct (alive s o) eqn:E; auto. destruct (inv_dead s H o E). lia.
Qed.

Lemma has_alive s t o : inv s -> has t o s = true -> alive s o = true.
Proof.
  intros H E. apply held_alive; auto. unfold has in E. apply orb_true_iff in E.
  pose proof (places_nonneg o (refs s)). pose proof (releases_nonneg o (tasks s)). destruct E as [E | E].
  - enough (1 <= places_of o (refs s)) by lia. clear -E. induction (refs s) as [| [p o'] l IH]; cbn in E; [discriminate |].
    cbn [places_of]. pose proof (places_nonneg o l). apply orb_true_iff in E. destruct E as [E | E].
    + destruct p; try discriminate. apply andb_true_iff in E. destruct E as [_ ->]. lia.
    + specialize (IH E). destruct (Nat.eqb o' o); lia.
  - destruct (find_task t (tasks s)) as [[| | o' l] |] eqn:F; try discriminate.
    apply Nat.eqb_eq in E. subst. pose proof (releases_find o t _ _ F eq_refl). lia.
Qed.

Lemma may_use_ok s t p : inv s -> may_use t p s = true -> place_ok p s = true.
Proof. intros H. destruct p; cbn; auto. apply has_alive; auto. Qed.

Lemma assign_ok s t dest object : inv s -> (forall o, object = Some o -> alive s o = true) ->
  exists s', assign t dest object s = Ret s' /\ inv s'.
Proof.
  intros H A. unfold assign. destruct object as [o |].
  - rewrite (A o) by auto. cbn [negb]. eexists. split; [reflexivity |]. constructor; cbn [counts alive refs tasks next freed destroyed].
    + intros o' E. destruct (inv_alive s H o' E) as (C & P & L). unfold upd. cbn [places_of].
      rewrite places_remove, releases_release. destruct (Nat.eqb_spec o' o) as [-> | N].
      * rewrite Nat.eqb_refl. lia.
      * destruct (Nat.eqb_spec o o'); [congruence |]. lia.
    + intros o' E. destruct (inv_dead s H o' E) as (C & P). cbn [places_of]. rewrite places_remove, releases_release.
      destruct (Nat.eqb_spec o o') as [-> | N]; [rewrite (A o') in E by auto; discriminate |].
      destruct (get dest (refs s)) as [old |] eqn:G; cbn [opt_one]; [| lia].
      unfold one. destruct (Nat.eqb_spec old o') as [-> |]; [| lia]. apply places_get in G. lia.
    + apply (inv_freed s H).
    + apply (inv_all s H).
    + apply (inv_once s H).
    + intros u o' l I. apply In_release in I. destruct I as [I | (? & I)]; [| discriminate]. eapply (inv_fields s H); eauto.
    + apply (inv_destroyed s H).
  - eexists. split; [reflexivity |]. constructor; cbn [counts alive refs tasks next freed destroyed].
    + intros o' E. destruct (inv_alive s H o' E) as (C & P & L). rewrite places_remove, releases_release. lia.
    + intros o' E. destruct (inv_dead s H o' E) as (C & P). rewrite places_remove, releases_release.
      destruct (get dest (refs s)) as [old |] eqn:G; cbn [opt_one]; [| lia].
      unfold one. destruct (Nat.eqb_spec old o') as [-> |]; [| lia]. apply places_get in G. lia.
    + apply (inv_freed s H).
    + apply (inv_all s H).
    + apply (inv_once s H).
    + intros u o' l I. apply In_release in I. destruct I as [I | (? & I)]; [| discriminate]. eapply (inv_fields s H); eauto.
    + apply (inv_destroyed s H).
Qed.

Lemma on_ok fields s t : inv s -> (exists e, on fields t s = Die e) \/ exists s', on fields t s = Ret s' /\ inv s'.
Proof.
  intros H. unfold on. destruct (find_task t (tasks s)) as [k |] eqn:F; [right | left; eauto].
  assert (A : alive s (task_object k) = true).
  { apply held_alive; auto. pose proof (releases_find _ t k _ F eq_refl). pose proof (places_nonneg (task_object k) (refs s)). lia. }
  pose proof (fun o ks => releases_replace o t ks k _ F) as RR.
  destruct k as [o | o | o l]; cbn [task_object] in *; [| | destruct l as [| f l]]; rewrite A; cbn [negb].
  - destruct (Z.ltb_spec 1 (counts s o)); eexists; (split; [reflexivity |]); constructor; cbn [counts alive refs tasks next freed destroyed].
    + intros o' E. destruct (inv_alive s H o' E) as (C & P & L). unfold upd. rewrite RR. cbn [sum_tasks].
      unfold one. destruct (Nat.eqb_spec o' o) as [-> | N]; [rewrite Nat.eqb_refl | destruct (Nat.eqb_spec o o'); [congruence |]]; lia.
    + intros o' E. destruct (inv_dead s H o' E) as (C & P). rewrite RR. cbn [sum_tasks]. unfold one.
      destruct (Nat.eqb_spec o o') as [-> | N]; [congruence | lia].
    + apply (inv_freed s H).
    + apply (inv_all s H).
    + apply (inv_once s H).
    + intros u o' l I. apply In_replace in I. destruct I as [I | [_ []]]. eapply (inv_fields s H); eauto.
    + apply (inv_destroyed s H).
    + intros o' E. destruct (inv_alive s H o' E) as (C & P & L). rewrite RR. cbn [sum_tasks task_object]. lia.
    + intros o' E. destruct (inv_dead s H o' E) as (C & P). rewrite RR. cbn [sum_tasks task_object]. lia.
    + apply (inv_freed s H).
    + apply (inv_all s H).
    + apply (inv_once s H).
    + intros u o' l I. apply In_replace in I. destruct I as [I | [_ [I | []]]]; [| discriminate]. eapply (inv_fields s H); eauto.
    + apply (inv_destroyed s H).
  - eexists. split; [reflexivity |]. constructor; cbn [counts alive refs tasks next freed destroyed].
    + intros o' E. destruct (inv_alive s H o' E) as (C & P & L). rewrite RR. cbn [sum_tasks task_object]. lia.
    + intros o' E. destruct (inv_dead s H o' E) as (C & P). rewrite RR. cbn [sum_tasks task_object]. lia.
    + apply (inv_freed s H).
    + apply (inv_all s H).
    + apply (inv_once s H).
    + intros u o' l I. apply In_replace in I. destruct I as [I | [_ [I | []]]].
      * right. eapply (inv_fields s H); eauto.
      * injection I as -> _. left. auto.
    + intros o' I. right. apply (inv_destroyed s H); auto.
  - eexists. split; [reflexivity |]. destruct (inv_alive s H o A) as (Co & Po & Lo).
    destruct (Z.eqb_spec (counts s o - 1) 0) as [Z0 | NZ]; constructor; cbn [counts alive refs tasks next freed destroyed].
    + intros o' E. unfold upd in E |- *. destruct (Nat.eqb_spec o' o) as [Eo | N]; [discriminate E |].
      destruct (inv_alive s H o' E) as (C & P & L). rewrite RR. cbn [sum_tasks]. unfold one.
      destruct (Nat.eqb_spec o o'); [congruence | lia].
    + intros o' E. rewrite RR. cbn [sum_tasks]. unfold upd in E. destruct (Nat.eqb_spec o' o) as [Eo | N]; [subst o' |].
      * rewrite one_same. pose proof (releases_find o t _ _ F eq_refl). pose proof (places_nonneg o (refs s)). lia.
      * destruct (inv_dead s H o' E) as (C & P). unfold one. destruct (Nat.eqb_spec o o'); [congruence | lia].
    + intros o' [<- | I].
      * unfold upd. rewrite Nat.eqb_refl. auto.
      * destruct (inv_freed s H o' I) as (D & L). unfold upd. destruct (Nat.eqb_spec o' o); auto.
    + intros o' L E. unfold upd in E. destruct (Nat.eqb_spec o' o) as [Eo | N]; [subst o' |]; [left; auto | right; apply (inv_all s H); auto].
    + constructor; [| apply (inv_once s H)]. intros I. destruct (inv_freed s H o I). congruence.
    + intros u o' l I. apply In_replace in I. destruct I as [I | [_ []]]. eapply (inv_fields s H); eauto.
    + intros o' [<- | I]; [| apply (inv_destroyed s H); auto]. apply find_In in F. eapply (inv_fields s H); eauto.
    + intros o' E. destruct (inv_alive s H o' E) as (C & P & L). unfold upd. rewrite RR. cbn [sum_tasks].
      unfold one. destruct (Nat.eqb_spec o' o) as [-> | N]; [rewrite Nat.eqb_refl | destruct (Nat.eqb_spec o o'); [congruence |]]; lia.
    + intros o' E. destruct (inv_dead s H o' E) as (C & P). rewrite RR. cbn [sum_tasks]. unfold one.
      destruct (Nat.eqb_spec o o') as [-> | N]; [congruence | lia].
    + apply (inv_freed s H).
    + apply (inv_all s H).
    + apply (inv_once s H).
    + intros u o' l I. apply In_replace in I. destruct I as [I | [_ []]]. eapply (inv_fields s H); eauto.
    + apply (inv_destroyed s H).
  - eexists. split; [reflexivity |]. constructor; cbn [counts alive refs tasks next freed destroyed].
    + intros o' E. destruct (inv_alive s H o' E) as (C & P & L). rewrite places_remove, releases_release, RR. cbn [sum_tasks task_object]. lia.
    + intros o' E. destruct (inv_dead s H o' E) as (C & P). rewrite places_remove, releases_release, RR. cbn [sum_tasks task_object].
      destruct (get (Fld o f) (refs s)) as [old |] eqn:G; cbn [opt_one]; [| lia].
      unfold one. destruct (Nat.eqb_spec old o') as [-> |]; [| destruct (Nat.eqb o o'); lia]. apply places_get in G. lia.
    + apply (inv_freed s H).
    + apply (inv_all s H).
    + apply (inv_once s H).
    + intros u o' l' I. apply In_release in I. destruct I as [I | (? & I)]; [| discriminate].
      apply In_replace in I. destruct I as [I | [_ [I | []]]]; [eapply (inv_fields s H); eauto |].
      injection I as -> _. apply find_In in F. eapply (inv_fields s H); eauto.
    + apply (inv_destroyed s H).
Qed.

Lemma step_ok fields s t a : inv s -> (exists e, step fields t a s = Die e) \/ exists s', step fields t a s = Ret s' /\ inv s'.
Proof.
  intros H. destruct a as [x | dest src | x | dest |]; cbn [step].
  - right. eexists. split; [reflexivity |].
    assert (N : alive s (next s) = false).
    { destruct (alive s (next s)) eqn:E; auto. destruct (inv_alive s H _ E) as (_ & _ & L). lia. }
    destruct (inv_dead s H _ N) as (D1 & D2).
    assert (G0 : opt_one (get (Var t x) (refs s)) (next s) = 0).
    { destruct (get (Var t x) (refs s)) as [old |] eqn:G; cbn [opt_one]; auto.
      unfold one. destruct (Nat.eqb_spec old (next s)) as [-> |]; auto. apply places_get in G. lia. }
    constructor; cbn [counts alive refs tasks next freed destroyed].
    + intros o E. unfold upd in *. cbn [places_of]. rewrite places_remove, releases_release.
      destruct (Nat.eqb_spec o (next s)) as [Eo | Ne]; [subst o |].
      * rewrite Nat.eqb_refl. lia.
      * destruct (inv_alive s H o E) as (C & P & L). destruct (Nat.eqb_spec (next s) o); [congruence |]. lia.
    + intros o E. unfold upd in E. destruct (Nat.eqb_spec o (next s)) as [Eo | Ne]; [subst o |]; [discriminate |].
      destruct (inv_dead s H o E) as (C & P). cbn [places_of]. rewrite places_remove, releases_release.
      destruct (Nat.eqb_spec (next s) o); [congruence |].
      destruct (get (Var t x) (refs s)) as [old |] eqn:G; cbn [opt_one]; [| lia].
      unfold one. destruct (Nat.eqb_spec old o) as [-> |]; [| lia]. apply places_get in G. lia.
    + intros o I. destruct (inv_freed s H o I) as (D & L). unfold upd. destruct (Nat.eqb_spec o (next s)); [lia |]. split; [auto | lia].
    + intros o L E. unfold upd in E. destruct (Nat.eqb_spec o (next s)); [discriminate |]. apply (inv_all s H); auto. lia.
    + apply (inv_once s H).
    + intros u o l I. apply In_release in I. destruct I as [I | (? & I)]; [| discriminate]. eapply (inv_fields s H); eauto.
    + apply (inv_destroyed s H).
  - destruct (may_use t dest s) eqn:Md, (may_use t src s) eqn:Ms; cbn [andb negb]; eauto.
    rewrite (may_use_ok s t dest H Md), (may_use_ok s t src H Ms). cbn [andb negb]. right.
    apply assign_ok; auto. intros o E. apply held_alive; auto. apply places_get in E. pose proof (releases_nonneg o (tasks s)). lia.
  - destruct (find_task t (tasks s)) as [[| | o l] |] eqn:F; eauto. right. apply assign_ok; auto.
    intros o' E. injection E as <-. apply held_alive; auto. pose proof (releases_find o t _ _ F eq_refl).
    pose proof (places_nonneg o (refs s)). lia.
  - destruct (may_use t dest s) eqn:Md; cbn [negb]; eauto.
    rewrite (may_use_ok s t dest H Md). cbn [negb]. right. apply assign_ok; auto. discriminate.
  - apply on_ok. auto.
Qed.

Lemma run_ok fields l : forall s, inv s -> exists s', run fields l s = Ret s' /\ inv s'.
Proof.
  induction l as [| [t a] l IH]; intros s H; cbn [run]; eauto.
  destruct (step_ok fields s t a H) as [(e & ->) | (s' & -> & H')]; auto.
Qed.

(** ** How often DESTROY is called *)

Lemma In_replace_keep t ks k u k' l : find_task t l = Some k -> k' <> k -> In (u, k') l -> In (u, k') (replace t ks l).
Proof.
  induction l as [| [v j] l IH]; cbn [find_task replace]; [discriminate |]. destruct (Nat.eqb t v); intros F N I.
  - injection F as ->. destruct I as [E | I]; [congruence |]. apply in_or_app. auto.
  - destruct I as [E | I]; [left; auto | right; auto].
Qed.
Lemma In_replace_new t k k' l ks : find_task t l = Some k -> In k' ks -> In (t, k') (replace t ks l).
Proof.
  induction l as [| [v j] l IH]; cbn [find_task replace]; [discriminate |]. destruct (Nat.eqb t v); intros F I.
  - apply in_or_app. left. apply in_map. auto.
  - right. auto.
Qed.
Lemma In_release_keep u k t old l : In (u, k) l -> In (u, k) (release t old l).
Proof. destruct old; cbn; auto. Qed.
Lemma releases_In o u k l : In (u, k) l -> task_object k = o -> 1 <= releases_of o l.
Proof.
  induction l as [| [v j] l IH]; cbn [releases_of]; [contradiction |]. intros [E | I] T; pose proof (releases_nonneg o l).
  - injection E as -> ->. unfold task_object in T. rewrite T, Nat.eqb_refl. lia.
  - specialize (IH I T). destruct (Nat.eqb _ o); lia.
Qed.
Lemma releases_two o u k u' k' l : In (u, k) l -> In (u', k') l -> k <> k' -> task_object k = o -> task_object k' = o -> 2 <= releases_of o l.
Proof.
  induction l as [| [v j] l IH]; cbn [releases_of]; [contradiction |]. intros [E | I] [E' | I'] N T T'.
  - congruence.
  - injection E as -> ->. pose proof (releases_In o _ _ _ I' T'). unfold task_object in T. rewrite T, Nat.eqb_refl. lia.
  - injection E' as -> ->. pose proof (releases_In o _ _ _ I T). unfold task_object in T'. rewrite T', Nat.eqb_refl. lia.
  - specialize (IH I I' N T T'). destruct (Nat.eqb _ o); lia.
Qed.

Record inv2 (s : state) : Prop := {
  inv2_made : forall o, In o (destroyed s) -> (o < next s)%nat;
  inv2_running : forall o, In o (destroyed s) -> alive s o = true -> exists t l, In (t, TFields o l) (tasks s);
  inv2_single : forall t o, In (t, TDestroy o) (tasks s) -> counts s o = 1;
  inv2_once : NoDup (destroyed s)
}.
Lemma inv2_init : inv2 init.
Proof. constructor; cbn; try contradiction. constructor. Qed.

Lemma task_alive s t k : inv s -> In (t, k) (tasks s) -> alive s (task_object k) = true.
Proof.
  intros H I. apply held_alive; auto. pose proof (releases_In _ t k _ I eq_refl). pose proof (places_nonneg (task_object k) (refs s)). lia.
Qed.

Lemma assign_inv2 s t dest object s' : inv s -> inv2 s ->
  (forall o u, object = Some o -> ~ In (u, TDestroy o) (tasks s)) ->
  assign t dest object s = Ret s' -> inv2 s'.
Proof.
  intros H J N. unfold assign. destruct object as [o |].
  - destruct (alive s o); cbn [negb]; [| discriminate]. intros E. injection E as <-.
    constructor; cbn [counts alive refs tasks next freed destroyed].
    + apply (inv2_made s J).
    + intros o' I A. destruct (inv2_running s J o' I A) as (u & l & X). exists u, l. apply In_release_keep. auto.
    + intros u o' I. apply In_release in I. destruct I as [I | (? & I)]; [| discriminate].
      unfold upd. destruct (Nat.eqb_spec o' o) as [Eo | No]; [subst o'; destruct (N o u eq_refl I) |]. apply (inv2_single s J u). auto.
    + apply (inv2_once s J).
  - intros E. injection E as <-. constructor; cbn [counts alive refs tasks next freed destroyed].
    + apply (inv2_made s J).
    + intros o' I A. destruct (inv2_running s J o' I A) as (u & l & X). exists u, l. apply In_release_keep. auto.
    + intros u o' I. apply In_release in I. destruct I as [I | (? & I)]; [| discriminate]. apply (inv2_single s J u). auto.
    + apply (inv2_once s J).
Qed.

Lemma on_inv2 fields s t s' : inv s -> inv2 s ->
  (forall o, find_task t (tasks s) = Some (TFields o []) -> counts s o = 1) ->
  on fields t s = Ret s' -> inv2 s'.
Proof.
  intros H J D. unfold on. destruct (find_task t (tasks s)) as [k |] eqn:F; [| discriminate].
  pose proof (find_In _ _ _ F) as IF. pose proof (task_alive s t k H IF) as A.
  destruct k as [o | o | o l]; cbn [task_object] in *; [| | destruct l as [| f l]]; rewrite A; cbn [negb].
  - destruct (Z.ltb_spec 1 (counts s o)) as [C | C]; intros E; injection E as <-; constructor; cbn [counts alive refs tasks next freed destroyed].
    + apply (inv2_made s J).
    + intros o' I A'. destruct (inv2_running s J o' I A') as (u & l & X). exists u, l. eapply In_replace_keep; eauto. discriminate.
    + intros u o' I. apply In_replace in I. destruct I as [I | [_ []]]. pose proof (inv2_single s J u o' I) as C1.
      unfold upd. destruct (Nat.eqb_spec o' o) as [Eo | No]; [subst o'; lia | auto].
    + apply (inv2_once s J).
    + apply (inv2_made s J).
    + intros o' I A'. destruct (inv2_running s J o' I A') as (u & l & X). exists u, l. eapply In_replace_keep; eauto. discriminate.
    + intros u o' I. apply In_replace in I. destruct I as [I | [_ [I | []]]]; [apply (inv2_single s J u o' I) |].
      injection I as <-. destruct (inv_alive s H o A) as (_ & P & _). lia.
    + apply (inv2_once s J).
  - intros E. injection E as <-. pose proof (inv2_single s J t o IF) as C1. destruct (inv_alive s H o A) as (C & _ & L).
    constructor; cbn [counts alive refs tasks next freed destroyed].
    + intros o' [<- | I]; auto. apply (inv2_made s J); auto.
    + intros o' I A'. destruct (Nat.eq_dec o' o) as [Eo | No].
      * subst o'. exists t, (fields o). eapply In_replace_new; eauto. left. auto.
      * destruct I as [I | I]; [congruence |]. destruct (inv2_running s J o' I A') as (u & l & X). exists u, l.
        eapply In_replace_keep; eauto. discriminate.
    + intros u o' I. apply In_replace in I. destruct I as [I | [_ [I | []]]]; [apply (inv2_single s J u o' I) | discriminate].
    + constructor; [| apply (inv2_once s J)]. intros I. destruct (inv2_running s J o I A) as (u & l & X).
      assert (2 <= releases_of o (tasks s)) by (eapply releases_two; [exact X | exact IF | discriminate | auto | auto]).
      pose proof (places_nonneg o (refs s)). lia.
  - rewrite (D o eq_refl). change (1 - 1 =? 0) with true. cbv iota. intros E. injection E as <-.
    constructor; cbn [counts alive refs tasks next freed destroyed].
    + apply (inv2_made s J).
    + intros o' I A'. unfold upd in A'. destruct (Nat.eqb_spec o' o) as [Eo | No]; [discriminate |].
      destruct (inv2_running s J o' I A') as (u & l & X). exists u, l. eapply In_replace_keep; eauto. congruence.
    + intros u o' I. apply In_replace in I. destruct I as [I | [_ []]]. pose proof (inv2_single s J u o' I) as C1.
      unfold upd. destruct (Nat.eqb_spec o' o) as [Eo | No]; auto. subst o'. exfalso. destruct (inv_alive s H o A) as (C & _ & _).
      assert (2 <= releases_of o (tasks s)) by (eapply releases_two; [exact I | exact IF | discriminate | auto | auto]).
      pose proof (places_nonneg o (refs s)). lia.
    + apply (inv2_once s J).
  - intros E. injection E as <-. constructor; cbn [counts alive refs tasks next freed destroyed].
    + apply (inv2_made s J).
    + intros o' I A'. destruct (Nat.eq_dec o' o) as [Eo | No].
      * subst o'. exists t, l. apply In_release_keep. eapply In_replace_new; eauto. left. auto.
      * destruct (inv2_running s J o' I A') as (u & l' & X). exists u, l'. apply In_release_keep.
        eapply In_replace_keep; eauto. congruence.
    + intros u o' I. apply In_release in I. destruct I as [I | (? & I)]; [| discriminate].
      apply In_replace in I. destruct I as [I | [_ [I | []]]]; [apply (inv2_single s J u o' I) | discriminate].
    + apply (inv2_once s J).
Qed.

Lemma step_inv2 fields s t a s' : inv s -> inv2 s ->
  (forall o, a = AOn -> find_task t (tasks s) = Some (TFields o []) -> counts s o = 1) ->
  step fields t a s = Ret s' -> inv2 s'.
Proof.
  intros H J D. destruct a as [x | dest src | x | dest |]; cbn [step].
  - intros E. injection E as <-.
    assert (N : alive s (next s) = false).
    { destruct (alive s (next s)) eqn:E; auto. destruct (inv_alive s H _ E) as (_ & _ & L). lia. }
    constructor; cbn [counts alive refs tasks next freed destroyed].
    + intros o I. pose proof (inv2_made s J o I). lia.
    + intros o I A. pose proof (inv2_made s J o I). unfold upd in A. destruct (Nat.eqb_spec o (next s)); [lia |].
      destruct (inv2_running s J o I A) as (u & l & X). exists u, l. apply In_release_keep. auto.
    + intros u o I. apply In_release in I. destruct I as [I | (? & I)]; [| discriminate].
      pose proof (task_alive s u _ H I) as A. cbn [task_object] in A. unfold upd.
      destruct (Nat.eqb_spec o (next s)); [congruence |]. apply (inv2_single s J u). auto.
    + apply (inv2_once s J).
  - destruct (may_use t dest s && may_use t src s); cbn [negb]; [| discriminate].
    destruct (place_ok dest s && place_ok src s); cbn [negb]; [| discriminate].
    apply assign_inv2; auto. intros o u E I. apply places_get in E. pose proof (releases_In o u _ _ I eq_refl).
    pose proof (inv2_single s J u o I). destruct (inv_alive s H o (task_alive s u _ H I)). lia.
  - destruct (find_task t (tasks s)) as [[| | o l] |] eqn:F; try discriminate. apply assign_inv2; auto.
    intros o' u E I. injection E as <-. apply find_In in F.
    assert (2 <= releases_of o (tasks s)) by (eapply releases_two; [exact I | exact F | discriminate | auto | auto]).
    pose proof (inv2_single s J u o I). destruct (inv_alive s H o (task_alive s u _ H I)). pose proof (places_nonneg o (refs s)). lia.
  - destruct (may_use t dest s); cbn [negb]; [| discriminate]. destruct (place_ok dest s); cbn [negb]; [| discriminate].
    apply assign_inv2; auto. discriminate.
  - apply on_inv2; auto.
Qed.

Lemma run_inv2 fields l : forall s s', inv s -> inv2 s ->
  (forall l1 l2 t s1 o, l = l1 ++ (t, AOn) :: l2 -> run fields l1 s = Ret s1 ->
     find_task t (tasks s1) = Some (TFields o []) -> counts s1 o = 1) ->
  run fields l s = Ret s' -> inv2 s'.
Proof.
  induction l as [| [t a] l IH]; intros s s' H J D; cbn [run].
  - intros E. injection E as <-. auto.
  - destruct (step_ok fields s t a H) as [(e & S1) | (s1 & S1 & H1)]; rewrite S1.
    + apply IH; auto. intros l1 l2 u s1 o El R. apply (D ((t, a) :: l1) l2); [rewrite El; reflexivity |]. cbn [run]. rewrite S1. auto.
    + apply IH; auto.
      * apply (step_inv2 fields s t a s1 H J); auto. intros o -> F. apply (D [] l t s); auto.
      * intros l1 l2 u s2 o El R. apply (D ((t, a) :: l1) l2); [rewrite El; reflexivity |]. cbn [run]. rewrite S1. auto.
Qed.

(** ** Releases end *)

Section Weight.
  Variable fields : nat -> list nat.
  Definition ref_weight (o : nat) : nat := 3 + length (fields o).
  Definition task_weight (k : task) : nat :=
    match k with TRelease o => ref_weight o | TDestroy o => 2 + length (fields o) | TFields _ l => 1 + length l end.
  Fixpoint refs_weight (l : list (place * nat)) : nat := match l with [] => 0 | (_, o) :: l => ref_weight o + refs_weight l end.
  Fixpoint tasks_weight (l : list (nat * task)) : nat := match l with [] => 0 | (_, k) :: l => task_weight k + tasks_weight l end.
  Definition opt_weight (v : option nat) : nat := match v with Some o => ref_weight o | None => 0 end.
  Definition weight (s : state) : nat := refs_weight (refs s) + tasks_weight (tasks s).

  Lemma refs_weight_remove p l : (refs_weight (remove p l) + opt_weight (get p l) = refs_weight l)%nat.
  Proof.
    induction l as [| [q o] l IH]; cbn [remove get refs_weight]; [reflexivity |].
    destruct (place_eqb p q); cbn [refs_weight opt_weight]; lia.
  Qed.
  Lemma tasks_weight_release t old l : tasks_weight (release t old l) = (opt_weight old + tasks_weight l)%nat.
  Proof. destruct old; reflexivity. Qed.
  Lemma tasks_weight_replace t k ks l : find_task t l = Some k ->
    (tasks_weight (replace t ks l) + task_weight k = tasks_weight l + tasks_weight (map (pair t) ks))%nat.
  Proof.
    induction l as [| [u j] l IH]; cbn [find_task replace tasks_weight]; [discriminate |].
    destruct (Nat.eqb t u); intros E.
    - injection E as ->. enough (forall a b, tasks_weight (a ++ b) = tasks_weight a + tasks_weight b)%nat as -> by lia.
      clear. induction a as [| [u k] a IH]; intros b; cbn [app tasks_weight]; [reflexivity |]. rewrite IH. lia.
    - specialize (IH E). cbn [tasks_weight]. lia.
  Qed.

  Lemma on_weight s t s' : on fields t s = Ret s' -> (weight s' < weight s)%nat.
  Proof.
    unfold on, weight. destruct (find_task t (tasks s)) as [k |] eqn:F; [| discriminate].
    pose proof (fun ks => tasks_weight_replace t k ks _ F) as W.
    destruct k as [o | o | o [| f l]]; (destruct (alive s o); cbn [negb]; [| discriminate]).
    - destruct (1 <? counts s o); intros E; injection E as <-; cbn [refs tasks].
      + specialize (W []). cbn [map tasks_weight task_weight] in W. unfold ref_weight in W. lia.
      + specialize (W [TDestroy o]). cbn [map tasks_weight task_weight] in W. unfold ref_weight in W. lia.
    - intros E; injection E as <-; cbn [refs tasks]. specialize (W [TFields o (fields o)]). cbn [map tasks_weight task_weight] in W. lia.
    - intros E; injection E as <-; cbn [refs tasks]. specialize (W []). cbn [map tasks_weight task_weight length] in W. lia.
    - intros E; injection E as <-; cbn [refs tasks]. rewrite tasks_weight_release. specialize (W [TFields o l]).
      cbn [map tasks_weight task_weight length] in W. pose proof (refs_weight_remove (Fld o f) (refs s)). lia.
  Qed.

  Lemma releases_end t : forall n s, (weight s < n)%nat -> inv s ->
    exists m s', run fields (repeat (t, AOn) m) s = Ret s' /\ find_task t (tasks s') = None /\ (m <= weight s)%nat.
  Proof.
    induction n as [| n IH]; intros s L H; [lia |].
    destruct (find_task t (tasks s)) as [k |] eqn:F; [| exists 0%nat, s; repeat split; auto; lia].
    destruct (on_ok fields s t H) as [(e & E) | (s1 & E & H1)].
    - exfalso. revert E. unfold on. rewrite F. destruct k as [o | o | o [| f l]]; destruct (alive s o); cbn [negb]; try discriminate.
      destruct (1 <? counts s o); discriminate.
    - pose proof (on_weight s t s1 E). destruct (IH s1) as (m & s' & R & N & B); [lia | auto |].
      exists (S m), s'. cbn [repeat run step]. rewrite E. repeat split; auto. lia.
  Qed.
End Weight.
