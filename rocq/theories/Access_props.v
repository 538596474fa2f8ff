(** * C58: access control *)

From Verif Require Import Base CLib Type_model Type_spec Type_proofs TypeIface_proofs Type_props.
From Verif Require Import Access_model Access_spec Access_proofs.

(** A program that the class relation checks accept. *)
Definition checked (p : prog) (ai : Z -> ainfo) (w : nat) : Prop :=
  program_ok p /\ access_ok p ai /\ check_relation p w (all_ids p) = Ret tt.

(** What a user expects of the verdict on a use, in the class [c], of a member
    that [owner] declares: it is accepted only if the class that acts (or [c]
    itself, for members of an anonymous method's own class) may use it, and if
    the class that acts may use it, it is accepted, save that an anonymous
    method does not profit from an allow statement for its class. *)
Definition right_verdict (p : prog) (ai : Z -> ainfo) (c owner : Z) (flag : access) (r : verdict) : Prop :=
  r <> NotFound /\
  (r = Accepted -> permitted p ai (acting ai c) owner flag \/ permitted p ai c owner flag) /\
  (permitted p ai (acting ai c) owner flag ->
   ai_anon (ai c) = false \/ ~ allows p ai owner (acting ai c) -> r = Accepted).

Lemma right p ai w v c owner flag : checked p ai w -> 0 <= c < zlen p -> 0 <= owner < zlen p -> (w <= v)%nat ->
  exists b, accepts p ai v c owner flag false = Ret b /\ right_verdict p ai c owner flag (verdict_of b).
Proof.
  intros (OK & AOK & REL) Bc Bo L. destruct (ai_anon (ai c)) eqn:A.
  - destruct (accepts_member_anon p ai OK AOK w REL v c owner flag Bc Bo L A) as (b & E & S).
    exists b. split; auto. split; [destruct b; discriminate |]. split.
    + intros H. assert (b = true) as -> by (destruct b; auto; discriminate).
      unfold permitted. destruct (proj1 S eq_refl) as [H' | [H' | [H' | H']]]; auto.
    + intros H N. rewrite (proj2 S); auto. destruct N as [N | N]; [congruence |].
      unfold permitted in H. tauto.
  - destruct (accepts_member p ai OK AOK w REL v c owner flag Bc Bo L A) as (b & E & S).
    exists b. split; auto. split; [destruct b; discriminate |].
    assert (AC : acting ai c = c) by (unfold acting; now rewrite A). rewrite AC. split.
    + intros H. left. apply S. destruct b; auto; discriminate.
    + intros H _. rewrite (proj2 S); auto.
Qed.

(** ** new *)

(** For every program, the new operator on the class [cls] in a method of the
    class [c]. *)
Theorem C58_new_partial : forall p ai w v c cls, checked p ai w -> (w <= v)%nat ->
  0 <= c < zlen p -> 0 <= cls < zlen p ->
  exists r, check_new p ai v c cls = Ret r /\ right_verdict p ai c cls (ai_access (ai cls)) r.
Proof.
  intros p ai w v c cls K L Bc Bs. destruct (right p ai w v c cls (ai_access (ai cls)) K Bc Bs L) as (b & E & R).
  unfold check_new. rewrite E. cbn [obind]. eauto.
Qed.

(** For a method of an ordinary class this is: accepted exactly if permitted. *)
Theorem C58_ordinary : forall p ai c owner flag r, ai_anon (ai c) = false -> right_verdict p ai c owner flag r ->
  (r = Accepted <-> permitted p ai c owner flag) /\ (r = Refused <-> ~ permitted p ai c owner flag).
Proof.
  intros p ai c owner flag r A (N & S & C). unfold acting in *. rewrite A in *.
  assert (X : r = Accepted <-> permitted p ai c owner flag) by (split; [intros H; destruct (S H); auto | intros H; auto]).
  split; auto. rewrite <- X. destruct r; split; congruence.
Qed.

(** ** Class variables *)

Theorem C58_class_variables_partial : forall p ai w v c cls name flag, checked p ai w -> (w <= v)%nat ->
  0 <= c < zlen p -> 0 <= cls < zlen p -> declares (ai_vars (ai cls)) name flag ->
  exists r, check_class_var p ai v c cls name = Ret r /\ right_verdict p ai c cls flag r.
Proof.
  intros p ai w v c cls name flag K L Bc Bs D. destruct (right p ai w v c cls flag K Bc Bs L) as (b & E & R).
  unfold check_class_var. destruct K as (_ & AOK & _).
  rewrite (lookup_NoDup _ _ _ (ao_vars _ _ AOK cls) D), E. cbn [obind]. eauto.
Qed.

(** ** Methods *)

(** A call "C->m" of a class method that the class declares. *)
Theorem C58_class_methods_partial : forall p ai w v c cls b m flag, checked p ai w -> (w <= v)%nat ->
  0 <= c < zlen p -> znth p cls = Some b -> In m (bt_methods b) -> m_is_class_method m = true ->
  declares (ai_methods (ai cls)) (m_name m) flag ->
  exists r, check_call p ai v c true cls (m_name m) = Ret r /\ right_verdict p ai c cls flag r.
Proof.
  intros p ai w v c cls b m flag K L Bc E I C D. pose proof (znth_Some _ _ _ E) as Bs.
  destruct (right p ai w v c cls flag K Bc ltac:(lia) L) as (x & Ex & R).
  destruct K as (_ & AOK & _). unfold check_call, resolve_call.
  assert (O : own_method p cls (m_name m) = Some m).
  { destruct (own_method p cls (m_name m)) as [m' |] eqn:F.
    - destruct (own_method_Some p _ _ _ F) as (b' & E' & I' & N'). rewrite E in E'. inversion E'; subst b'.
      f_equal. apply nodup_name with (l := bt_methods b); auto. apply (ao_methods _ _ AOK cls b E).
    - exfalso. eapply (own_method_None p); eauto. }
  rewrite O. cbn [obind]. rewrite C.
  rewrite (lookup_NoDup _ _ _ ltac:(rewrite (ao_methods_access _ _ AOK cls b E); apply (ao_methods _ _ AOK cls b E)) D).
  rewrite Ex. cbn [obind]. eauto.
Qed.

(** A call "$x->m", [cls] being the class of $x: the access control is that of
    the nearest declaration of the method, from [cls] along its super classes. *)
Theorem C58_instance_methods_partial : forall p ai w v c cls name definer m flag, checked p ai w -> (S w <= v)%nat ->
  0 <= c < zlen p -> 0 <= cls < zlen p -> nearest p name cls definer m -> m_is_class_method m = false ->
  declares (ai_methods (ai definer)) name flag ->
  exists r, check_call p ai v c false cls name = Ret r /\ right_verdict p ai c definer flag r.
Proof.
  intros p ai w v c cls name definer m flag K L Bc Bs N C D. pose proof K as (OK & AOK & REL).
  destruct (nearest_in p name cls definer m N) as (b & E & I). pose proof (znth_Some _ _ _ E) as Bd.
  destruct (right p ai w v c definer flag K Bc ltac:(lia) ltac:(lia)) as (x & Ex & R).
  unfold check_call, resolve_call.
  destruct (search_spec p OK (ao_methods p ai AOK) w REL v cls name Bs L) as (r & Es & S).
  rewrite Es. cbn [obind]. rewrite (proj2 (S definer m) N), C. cbn [obind].
  rewrite (lookup_NoDup _ _ _ ltac:(rewrite (ao_methods_access _ _ AOK definer b E); apply (ao_methods _ _ AOK definer b E)) D).
  rewrite Ex. cbn [obind]. eauto.
Qed.

(** ** Fields *)

(** A field that the class of the invocant declares itself. *)
Theorem C58_own_fields_partial : forall p ai w v c cls name flag, checked p ai w -> (w <= v)%nat ->
  0 <= c < zlen p -> 0 <= cls < zlen p -> field_from p ai cls name cls flag ->
  exists r, check_field p ai (S v) c cls name = Ret r /\
    (r = NotFound \/ right_verdict p ai c cls flag r).
Proof.
  intros p ai w v c cls name flag (OK & AOK & REL) L Bc Bs F.
  destruct (check_field_spec p ai OK AOK w REL v c cls name cls flag Bc Bs L F) as (r & E & S).
  exists r. split; auto. destruct r; [right | right | now left]; (split; [discriminate |]);
    (destruct S as [S | S]; [discriminate |]); cbv zeta in S.
  - split; [| auto]. intros _. pose proof (proj1 S eq_refl) as H. unfold permitted.
    destruct H as [H | [(_ & H) | H]]; auto. destruct flag; tauto.
  - split; [discriminate |]. intros P Q. apply S. clear S.
    destruct F as (_ & D & _).
    assert (IPF : acting ai c = cls ->
      negb (match lookup (ai_fields (ai c)) name with Some _ => true | None => false end) && negb (ai_anon (ai c)) = false).
    { unfold acting. destruct (ai_anon (ai c)); [intros _; now rewrite andb_false_r |]. intros ->.
      rewrite (lookup_NoDup _ _ _ (ao_fields _ _ AOK cls) D). reflexivity. }
    unfold permitted in P. destruct P as [P | [P | P]].
    + destruct flag; auto.
    + destruct Q as [Q | Q]; [| tauto]. unfold acting in P. rewrite Q in P. auto.
    + destruct flag; auto; tauto.
Qed.

(** Soundness for all fields, also inherited ones: [owner] declares the field,
    and no class between it and the class of the invocant declares it again.
    An accepted access is a permitted one, if the access is not in an
    anonymous method and not allowed by the class of the invocant (see the
    refutations below). *)
Theorem C58_fields_sound_partial : forall p ai w v c cls name owner flag, checked p ai w -> (w <= v)%nat ->
  0 <= c < zlen p -> 0 <= cls < zlen p ->
  up p cls owner -> declares (ai_fields (ai owner)) name flag -> not_redeclared p ai cls name owner ->
  ai_anon (ai c) = false -> ~ allows p ai cls c ->
  check_field p ai (S v) c cls name = Ret Accepted -> permitted p ai c owner flag.
Proof.
  intros p ai w v c cls name owner flag (OK & AOK & REL) L Bc Bs U D N A NA E.
  pose proof (not_redeclared_from p ai OK AOK w REL cls name owner flag U D N) as F.
  destruct (check_field_spec p ai OK AOK w REL v c cls name owner flag Bc Bs L F) as (r & E' & S).
  rewrite E in E'. inversion E'; subst r. destruct S as [S | S]; [discriminate |].
  cbv zeta in S. unfold acting in S. rewrite A in S. cbn [negb] in S. rewrite andb_true_r in S.
  pose proof (proj1 S eq_refl) as H. clear S.
  assert (IPF : forall x, negb (match lookup (ai_fields (ai c)) name with Some _ => true | None => false end) = false ->
                          x = cls -> c = x -> c = owner).
  { intros x H1 -> ->. destruct (lookup (ai_fields (ai cls)) name) as [a |] eqn:Q; [| discriminate].
    apply lookup_In in Q. exact (N cls a (or_introl eq_refl) Q). }
  unfold permitted. destruct H as [H | [(H1 & H2) | H]]; [| left; eapply IPF; eauto | tauto].
  destruct flag; [left; destruct H; eapply IPF; eauto | | tauto].
  assert (UC : up p c cls) by (destruct H as [-> | H]; [now left | now right]).
  destruct UC as [-> | UC].
  - destruct U as [-> | U]; [now left | now right; right].
  - right; right. destruct U as [-> | U]; auto. eapply super_trans; eauto.
Qed.

(** Completeness: a permitted access is not refused if the field is public, or
    the field is declared by the class of the invocant, or it is protected and
    the class of the invocant is the class that acts or a super class of it. *)
Theorem C58_fields_complete_partial : forall p ai w v c cls name owner flag, checked p ai w -> (w <= v)%nat ->
  0 <= c < zlen p -> 0 <= cls < zlen p -> field_from p ai cls name owner flag ->
  ai_anon (ai c) = false \/ ~ allows p ai owner (acting ai c) ->
  permitted p ai (acting ai c) owner flag ->
  flag = Public \/ cls = owner \/ (flag = Protected /\ up p (acting ai c) cls) ->
  check_field p ai (S v) c cls name <> Ret Refused.
Proof.
  intros p ai w v c cls name owner flag K L Bc Bs F Q P H E. pose proof K as (OK & AOK & REL).
  assert (AC : flag = Public \/ (flag = Protected /\ up p (acting ai c) cls) -> False).
  { intros H'. destruct (check_field_spec p ai OK AOK w REL v c cls name owner flag Bc Bs L F) as (r & E' & S).
    rewrite E in E'. inversion E'; subst r. destruct S as [S | S]; [discriminate |]. cbv zeta in S.
    assert (Refused = Accepted); [| discriminate]. apply S. left.
    destruct H' as [-> | (-> & [U | U])]; auto. }
  destruct H as [H | [-> | H]]; auto.
  destruct (C58_own_fields_partial p ai w v c owner name flag K L Bc Bs F) as (r & E' & [-> | (_ & _ & R)]); [congruence |].
  rewrite (R P Q) in E'. congruence.
Qed.

(** ** What the checks get wrong *)

Definition no_info : ainfo :=
  {| ai_anon := false; ai_outmost := 0; ai_access := Private; ai_allows := []; ai_fields := []; ai_vars := [];
     ai_methods := [] |}.

(** class Parent { has x : private int; has y : protected int; method secret; }
    class Child extends Parent { method secret; } and in it an anonymous method;
    class Friend; class Other with an anonymous method. *)
Definition ex : prog := core ++
  [bt "Parent" CClass None [im "secret" false 17 [] 0 ty_void; im "own" false 17 [] 0 ty_void];
   bt "Child" CClass (Some "Parent"%string) [im "secret" false 18 [] 0 ty_void];
   bt "Child::anon_method::3::5" CClass None [];
   bt "Friend" CClass None [];
   bt "Friend::anon_method::7::1" CClass None []].

Definition info (allow_parent allow_child : list (list Z)) (child_fields : list (list Z * access)) (i : Z) : ainfo :=
  if i =? 17 then
    {| ai_anon := false; ai_outmost := 0; ai_access := Public; ai_allows := allow_parent;
       ai_fields := [(bytes "x", Private); (bytes "y", Protected); (bytes "z", Public)];
       ai_vars := [(bytes "$V", Private)];
       ai_methods := [(bytes "secret", Public); (bytes "own", Private)] |}
  else if i =? 18 then
    {| ai_anon := false; ai_outmost := 0; ai_access := Private; ai_allows := allow_child;
       ai_fields := child_fields; ai_vars := []; ai_methods := [(bytes "secret", Private)] |}
  else if i =? 19 then
    {| ai_anon := true; ai_outmost := 18; ai_access := Public; ai_allows := []; ai_fields := []; ai_vars := [];
       ai_methods := [] |}
  else if i =? 21 then
    {| ai_anon := true; ai_outmost := 20; ai_access := Public; ai_allows := []; ai_fields := []; ai_vars := [];
       ai_methods := [] |}
  else no_info.

Definition Parent := 17. Definition Child := 18. Definition ChildAnon := 19.
Definition Friend := 20. Definition FriendAnon := 21.

Lemma ex_ok : program_ok ex.
Proof. prog_ok. Qed.

Lemma ex_checked ap ac cf : NoDup (map fst cf) -> checked ex (info ap ac cf) 2.
Proof.
  intros N. split; [exact ex_ok |]. split; [| vm_compute; reflexivity].
  assert (ND : forall l : list (list Z), nodup (list_eq_dec Z.eq_dec) l = l -> NoDup l)
    by (intros l; apply nodup_dec).
  constructor.
  - intros i. unfold info. repeat (destruct (i =? _)); cbn [ai_fields]; auto; apply ND; vm_compute; reflexivity.
  - intros i. unfold info. repeat (destruct (i =? _)); cbn [ai_vars]; apply ND; vm_compute; reflexivity.
  - intros i b E. apply znth_In in E. vm_compute in E.
    repeat (destruct E as [<- | E]; [apply ND; vm_compute; reflexivity |]). destruct E.
  - intros i b E. pose proof (znth_Some _ _ _ E) as B. change (zlen ex) with 22 in B.
    assert (i = 0 \/ i = 1 \/ i = 2 \/ i = 3 \/ i = 4 \/ i = 5 \/ i = 6 \/ i = 7 \/ i = 8 \/ i = 9 \/ i = 10 \/ i = 11
      \/ i = 12 \/ i = 13 \/ i = 14 \/ i = 15 \/ i = 16 \/ i = 17 \/ i = 18 \/ i = 19 \/ i = 20 \/ i = 21) as C by lia.
    repeat destruct C as [C | C]; subst i; vm_compute in E; inversion E; subst; reflexivity.
  - intros i B A. unfold info in *.
    repeat match goal with H : context [i =? ?k] |- _ => destruct (Z.eqb_spec i k); subst; cbn in H; try discriminate end;
      cbn; change (zlen ex) with 22; split; auto; lia.
Qed.

Lemma super_Child : super ex Child Parent.
Proof. apply super_direct. do 2 eexists. split; [vm_compute; reflexivity |]. split; vm_compute; reflexivity. Qed.

Lemma super_only a b : super ex a b -> a = Child /\ b = Parent.
Proof.
  assert (X : forall a b, extends ex a b -> a = Child /\ b = Parent).
  { intros x y (bx & by_ & Ex & Ey & P). pose proof (znth_Some _ _ _ Ex) as B. change (zlen ex) with 22 in B.
    assert (x = 18).
    { destruct (Z.eq_dec x 18); auto. exfalso.
      assert (x = 0 \/ x = 1 \/ x = 2 \/ x = 3 \/ x = 4 \/ x = 5 \/ x = 6 \/ x = 7 \/ x = 8 \/ x = 9 \/ x = 10 \/ x = 11
        \/ x = 12 \/ x = 13 \/ x = 14 \/ x = 15 \/ x = 16 \/ x = 17 \/ x = 19 \/ x = 20 \/ x = 21) as C by lia.
      repeat destruct C as [C | C]; subst x; vm_compute in Ex; inversion Ex; subst bx; discriminate P. }
    subst x. split; auto. vm_compute in Ex. inversion Ex; subst bx. cbn in P.
    pose proof (find_name ex ex_ok y by_ Ey) as F. inversion P as [Q]. rewrite <- Q in F.
    vm_compute in F. inversion F. reflexivity. }
  induction 1 as [c d E | c d e E S (-> & ->)]; auto. apply X in E. destruct E. discriminate.
Qed.

(** A private field of a class is open to the anonymous methods of its sub
    classes, through a variable of the sub class, although it is closed to
    the sub class itself. *)
Theorem C58_anonymous_refuted :
  let ai := info [] [] [] in
  checked ex ai 2 /\ field_from ex ai Child (bytes "x") Parent Private /\
  acting ai ChildAnon = Child /\ ~ permitted ex ai Child Parent Private /\
  check_field ex ai 3 Child Child (bytes "x") = Ret Refused /\
  check_field ex ai 3 ChildAnon Child (bytes "x") = Ret Accepted.
Proof.
  intros ai. split; [apply ex_checked; constructor |]. split.
  { split; [right; apply super_Child |]. split; [now left |]. intros e f S. apply super_only in S. destruct S. discriminate. }
  split; [reflexivity |]. split.
  { intros [H | [(b & _ & []) | []]]. discriminate. }
  split; vm_compute; reflexivity.
Qed.

(** A class cannot use its own private or protected field through a variable
    of a sub class. *)
Theorem C58_own_private_refuted :
  let ai := info [] [] [] in
  checked ex ai 2 /\
  field_from ex ai Child (bytes "x") Parent Private /\ permitted ex ai Parent Parent Private /\
  check_field ex ai 3 Parent Parent (bytes "x") = Ret Accepted /\
  check_field ex ai 3 Parent Child (bytes "x") = Ret Refused /\
  field_from ex ai Child (bytes "y") Parent Protected /\ permitted ex ai Parent Parent Protected /\
  check_field ex ai 3 Parent Child (bytes "y") = Ret Refused.
Proof.
  intros ai. split; [apply ex_checked; constructor |].
  assert (F : forall n a, In (bytes n, a) (ai_fields (ai Parent)) -> field_from ex ai Child (bytes n) Parent a).
  { intros n a H. split; [right; apply super_Child |]. split; auto. intros e f S. apply super_only in S. destruct S. discriminate. }
  split; [apply F; now left |]. split; [now left |].
  split; [vm_compute; reflexivity |]. split; [vm_compute; reflexivity |].
  split; [apply F; right; now left |]. split; [now left |]. vm_compute; reflexivity.
Qed.

(** A sub class that declares the field again opens the private field of its
    super class (both names denote the same storage, C52). *)
Theorem C58_redeclared_refuted :
  let ai := info [] [] [(bytes "x", Private)] in
  checked ex ai 2 /\ field_from ex ai Child (bytes "x") Parent Private /\
  ~ permitted ex ai Child Parent Private /\
  check_field ex (info [] [] []) 3 Child Child (bytes "x") = Ret Refused /\
  check_field ex ai 3 Child Child (bytes "x") = Ret Accepted.
Proof.
  intros ai. split. { apply ex_checked. apply (nodup_dec (list_eq_dec Z.eq_dec)). vm_compute. reflexivity. }
  split.
  { split; [right; apply super_Child |]. split; [now left |]. intros e f S. apply super_only in S. destruct S. discriminate. }
  split. { intros [H | [(b & _ & []) | []]]. discriminate. }
  split; vm_compute; reflexivity.
Qed.

(** An allow statement in a sub class opens the private fields of its super
    class, which does not allow anything. *)
Theorem C58_allow_inherited_refuted :
  let ai := info [] [bytes "Friend"] [] in
  checked ex ai 2 /\ field_from ex ai Child (bytes "x") Parent Private /\
  ~ permitted ex ai Friend Parent Private /\
  check_field ex ai 3 Child Child (bytes "x") = Ret Refused /\
  check_field ex ai 3 Friend Child (bytes "x") = Ret Accepted.
Proof.
  intros ai. split; [apply ex_checked; constructor |]. split.
  { split; [right; apply super_Child |]. split; [now left |]. intros e f S. apply super_only in S. destruct S. discriminate. }
  split. { intros [H | [(b & _ & []) | []]]. discriminate. }
  split; vm_compute; reflexivity.
Qed.

(** An allow statement for a class does not serve the anonymous methods of
    that class: here the private class variable and the private field of
    Parent, which allows Friend. *)
Theorem C58_allow_anonymous_refuted :
  let ai := info [bytes "Friend"] [] [] in
  checked ex ai 2 /\ acting ai FriendAnon = Friend /\ permitted ex ai Friend Parent Private /\
  check_class_var ex ai 3 Friend Parent (bytes "$V") = Ret Accepted /\
  check_class_var ex ai 3 FriendAnon Parent (bytes "$V") = Ret Refused /\
  check_field ex ai 3 Friend Parent (bytes "x") = Ret Accepted /\
  check_field ex ai 3 FriendAnon Parent (bytes "x") = Ret Refused.
Proof.
  intros ai. split; [apply ex_checked; constructor |]. split; [reflexivity |]. split.
  { right. left. exists (bt "Friend" CClass None []). split; [vm_compute; reflexivity | now left]. }
  repeat split; vm_compute; reflexivity.
Qed.

(** A private method of a sub class that overrides a public method of the
    super class runs when any class calls it through a variable of the super
    class: the check reads the declaration of the super class, the call runs
    the method nearest to the class of the object (C47). *)
Theorem C58_override_refuted :
  let ai := info [] [] [] in
  checked ex ai 2 /\ check_call ex ai 3 Friend false Parent (bytes "secret") = Ret Accepted /\
  super ex Child Parent /\
  (exists m, nearest ex (bytes "secret") Child Child m) /\
  declares (ai_methods (ai Child)) (bytes "secret") Private /\ ~ permitted ex ai Friend Child Private /\
  check_call ex ai 3 Friend false Child (bytes "secret") = Ret Refused.
Proof.
  intros ai. split; [apply ex_checked; constructor |]. split; [vm_compute; reflexivity |].
  split; [apply super_Child |]. split.
  { eexists. eapply nearest_here with (b := bt "Child" CClass (Some "Parent"%string) [im "secret" false 18 [] 0 ty_void]).
    - vm_compute. reflexivity.
    - now left.
    - reflexivity. }
  split; [now left |]. split; [| vm_compute; reflexivity].
  intros [H | [(b & _ & []) | []]]. discriminate.
Qed.

(** The hypotheses of the theorems above are met, with verdicts of both kinds:
    Child is private, the method own of Parent is private, y is protected, z
    public. *)
Example C58_example :
  let ai := info [bytes "Friend"] [] [(bytes "n", Private)] in
  checked ex ai 2 /\
  check_new ex ai 3 Parent Child = Ret Refused /\ check_new ex ai 3 ChildAnon Child = Ret Accepted /\
  check_call ex ai 3 Friend false Child (bytes "own") = Ret Accepted /\
  check_call ex ai 3 Child false Child (bytes "own") = Ret Refused /\
  check_field ex ai 3 Child Child (bytes "n") = Ret Accepted /\
  check_field ex ai 3 Parent Child (bytes "n") = Ret Refused /\
  check_field ex ai 3 Child Child (bytes "y") = Ret Accepted /\
  check_field ex ai 3 Child Parent (bytes "y") = Ret Accepted /\
  check_field ex ai 3 FriendAnon Child (bytes "y") = Ret Refused /\
  check_field ex ai 3 FriendAnon Child (bytes "z") = Ret Accepted /\
  not_redeclared ex ai Child (bytes "y") Parent /\ field_from ex ai Child (bytes "n") Child Private /\
  right_verdict ex ai Child Parent Protected Accepted.
Proof.
  intros ai. split. { apply ex_checked. apply (nodup_dec (list_eq_dec Z.eq_dec)). vm_compute. reflexivity. }
  do 10 (split; [vm_compute; reflexivity |]).
  assert (U : forall e, up ex Child e -> e = Child \/ e = Parent).
  { intros e [<- | S]; auto. apply super_only in S. tauto. }
  split; [| split].
  - intros e f H D. destruct (U e H) as [-> | ->]; auto. destruct D as [D | []]. discriminate.
  - split; [now left |]. split; [now left |]. intros e f S D. apply super_only in S. destruct S as (_ & ->).
    repeat destruct D as [D | D]; try discriminate D. destruct D.
  - split; [discriminate |]. split; auto. intros _. left. right. right. apply super_Child.
Qed.

Print Assumptions C58_new_partial.
Print Assumptions C58_ordinary.
Print Assumptions C58_class_variables_partial.
Print Assumptions C58_class_methods_partial.
Print Assumptions C58_instance_methods_partial.
Print Assumptions C58_own_fields_partial.
Print Assumptions C58_fields_sound_partial.
Print Assumptions C58_fields_complete_partial.
Print Assumptions C58_anonymous_refuted.
Print Assumptions C58_own_private_refuted.
Print Assumptions C58_redeclared_refuted.
Print Assumptions C58_allow_inherited_refuted.
Print Assumptions C58_allow_anonymous_refuted.
Print Assumptions C58_override_refuted.
