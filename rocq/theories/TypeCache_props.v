(** * C26: the assignability cache is transparent *)

From Verif Require Import Base CLib Type_model Type_spec Type_props TypeCache_model TypeCache_spec TypeCache_proofs.

Definition history (p : prog) (w f : nat) (threads : Z) (es : list event) : outcome state :=
  let! s := start p threads in run w f s es.

Lemma final_answers p w f qs : Forall no_flags qs -> map (compute p w f) qs = map (uncached p w f) qs.
Proof.
  induction 1 as [| q qs Q F IH]; cbn [map]; [reflexivity |].
  rewrite IH, compute_uncached by exact Q. reflexivity.
Qed.

Lemma legal_flags w f i : forall es p, legal w f p es -> Forall no_flags (calls_of i es).
Proof.
  induction es as [| [j q | j | r] es IH]; intros p; cbn [legal calls_of]; [constructor | | |].
  - intros ((_ & N & _) & L). destruct (i =? j); [constructor; [exact N |] |]; eapply IH; exact L.
  - apply IH.
  - intros (_ & L). eapply IH. exact L.
Qed.

(** For any number of threads, any interleaving of their calls and of
    compilations that add basic types: the calls that have returned, in the
    order the thread made them, returned what the check without the cache
    answers - when the call was made (next theorem) as well as at the end. For
    calls with flags 0, and at most 2^29 events. *)
Theorem C26_cache_is_transparent_partial :
  forall (p : prog) (w f : nat) (threads : Z) (es : list event),
    closed p -> 0 <= threads -> zlen es <= 536870912 -> legal w f p es ->
    exists s, history p w f threads es = Ret s /\ zlen (s_threads s) = threads /\
      forall i t, znth (s_threads s) i = Some t ->
        exists returned, calls_of i es = returned ++ th_todo t /\
          map Ret (th_answers t) = map (uncached (final p es) w f) returned.
Proof.
  intros p w f n es C N B L. unfold history.
  destruct (start_inv w f p n C N) as (s0 & E0 & I0 & K0 & P0 & L0). rewrite E0. cbn [obind].
  destruct (run_inv w f es s0 (fun _ => []) I0) as (s & E & I & Ls & F & CB); [rewrite P0; exact L | lia |].
  exists s. split; [exact E |]. split; [lia |]. intros i t T.
  destruct I as (_ & _ & _ & _ & TH). destruct (TH i t T) as ((_ & _ & done & A & M) & _).
  rewrite asked_calls in A. cbn [app] in A. exists done. split; [exact A |].
  rewrite M, F, P0. apply final_answers.
  pose proof (legal_flags w f i es p L) as FL. rewrite A in FL. apply Forall_app in FL. apply FL.
Qed.

(** Adding basic types changes no answer about the basic types that existed. *)
Theorem C26_compiling_changes_no_answer :
  forall (p q : prog) (w f : nat) (d s : ty),
    closed p -> type_in p d -> type_in p s ->
    can_assign_types (p ++ q) w f d s = can_assign_types p w f d s.
Proof. intros p q w f d s C D S. exact (ext_can_assign p q C w f d s D S). Qed.

(** A thread that is scheduled often enough gets all its answers. *)
Theorem C26_every_call_returns :
  forall (p : prog) (w f : nat) (threads : Z) (es : list event) (i : Z),
    closed p -> 0 <= i < threads -> zlen es <= 536870912 -> legal w f p es ->
    exists s t, history p w f threads (es ++ repeat (EStep i) (3 * length (calls_of i es))) = Ret s /\
      znth (s_threads s) i = Some t /\ th_todo t = [].
Proof.
  intros p w f n es i C N B L. unfold history.
  destruct (start_inv w f p n C ltac:(lia)) as (s0 & E0 & I0 & K0 & P0 & L0). rewrite E0. cbn [obind].
  rewrite run_app.
  destruct (run_inv w f es s0 (fun _ => []) I0) as (s & E & I & Ls & F & CB); [rewrite P0; exact L | lia |].
  rewrite E. cbn [obind]. destruct (znth_lt (s_threads s) i) as (t & T); [lia |].
  destruct (steps_finish w f i (3 * length (calls_of i es)) s _ t I) as (s' & t' & R & T' & D); auto; [lia | |].
  - destruct I as (_ & _ & _ & _ & TH). destruct (TH i t T) as ((_ & _ & done & A & M) & _).
    rewrite asked_calls in A. cbn [app] in A. rewrite A, app_length.
    unfold left_steps, zlen. destruct (th_pc t); lia.
  - exists s', t'. auto.
Qed.

(** Two threads ask about the classes of ex1 while a compilation adds a class:
    both look into the empty cache, both compute, both store; the third call
    is answered from the cache. *)
Definition q1 : query := {| q_dist := Ty 18 0 0; q_src := Ty 20 0 0 |}.
Definition q2 : query := {| q_dist := Ty 20 0 0; q_src := Ty 18 0 0 |}.
Definition q3 : query := {| q_dist := Ty 17 0 0; q_src := Ty 21 0 0 |}.
Definition schedule : list event :=
  [EAsk 0 q1; EAsk 1 q1; EAsk 1 q2; EStep 0; EStep 1; EStep 0; EStep 1; EStep 0;
   ECompile [bt "D" CClass (Some "C"%string) []]; EStep 1; EAsk 0 q1; EAsk 0 q3; EStep 0; EStep 0;
   EStep 1; EStep 1; EStep 1; EStep 0; EStep 0; EStep 0].

Lemma closed_dec p :
  forallb (fun b =>
    match bt_parent_name b with
    | None => true
    | Some n => existsb (fun b' => name_eqb (bt_name b') n) p
    end &&
    forallb (fun m => forallb (fun t => (0 <=? t_id t) && (t_id t <? zlen p)) (m_return m :: m_args m)) (bt_methods b)) p
  = true -> closed p.
Proof.
  rewrite forallb_forall. intros H b I. specialize (H b I). apply andb_true_iff in H. destruct H as (H1 & H2). split.
  - intros n E. rewrite E in H1. apply existsb_exists in H1. destruct H1 as (b' & I' & N). exists b'. split; auto.
    unfold name_eqb in N. destruct (list_eq_dec Z.eq_dec (bt_name b') n); congruence.
  - rewrite forallb_forall in H2. intros m M. specialize (H2 m M). rewrite forallb_forall in H2.
    apply Forall_forall. intros t T. specialize (H2 t T). unfold type_in. lia.
Qed.

Example C26_example :
  closed ex1 /\ legal 5 2 ex1 schedule /\
  exists s, history ex1 5 2 2 schedule = Ret s /\
    map th_answers (s_threads s) = [[true; true; true]; [true; false]].
Proof.
  split; [apply closed_dec; vm_compute; reflexivity |]. split.
  - unfold schedule. cbn [legal].
    repeat match goal with
    | |- True => exact I
    | |- _ /\ _ => split
    | |- closed _ => apply closed_dec; vm_compute; reflexivity
    | |- query_in _ _ => repeat split; vm_compute; congruence
    | |- no_flags _ => split; reflexivity
    | |- exists b, uncached _ _ _ _ = _ => first [exists true; vm_compute; reflexivity | exists false; vm_compute; reflexivity]
    end.
  - eexists. split; vm_compute; reflexivity.
Qed.

(** The flags are part of the key but not of the computation: the answer to
    "can a string be assigned to a variable of type mutable string" is true,
    although the check itself, with these arguments, answers false. *)
Theorem C26_flags_refuted :
  exists (q : query) (s : state),
    query_in ex1 q /\ uncached ex1 5 2 q = Ret false /\
    history ex1 5 2 1 [EAsk 0 q; EStep 0; EStep 0; EStep 0] = Ret s /\
    map th_answers (s_threads s) = [[true]].
Proof.
  exists {| q_dist := Ty ID_STRING 0 FLAG_MUTABLE; q_src := Ty ID_STRING 0 0 |}. eexists.
  split; [repeat split; vm_compute; congruence |]. split; [vm_compute; reflexivity |].
  split; vm_compute; reflexivity.
Qed.

Print Assumptions C26_cache_is_transparent_partial.
Print Assumptions C26_compiling_changes_no_answer.
Print Assumptions C26_every_call_returns.
Print Assumptions C26_flags_refuted.
