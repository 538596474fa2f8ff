(** * C24, C25: the compiler's assignment check and the runtime's isa *)

From Verif Require Import Base CLib Type_model Type_spec Type_proofs TypeIface_proofs.

(** ** C25: isa *)

Lemma dynamic_object p o : dynamic_type p o -> object_type p (Ty (fst o) (snd o) 0).
Proof.
  intros (B & D). unfold object_type, type_ok, FLAG_REF. cbn [t_id t_dim t_flag].
  repeat split; try lia; auto; try tauto.
Qed.

Lemma flag0_object p t : object_type p t -> object_type p (Ty (t_id t) (t_dim t) 0).
Proof.
  intros ((B & D & F & H) & N & C). unfold object_type, type_ok, FLAG_REF. cbn [t_id t_dim t_flag].
  repeat split; auto; try lia.
Qed.

(** For every program accepted by the compiler, every object and every type
    that is not built from an interface, isa answers, and it answers true
    exactly when the object is an instance of the type. *)
Theorem C25_isa_is_instance p w f v f' o T :
  program_ok p -> compiles p w f -> (w <= v)%nat ->
  dynamic_type p o -> object_type p T -> no_interface p T ->
  exists b, isa p v f' o (t_id T) (t_dim T) = Ret b /\ (b = true <-> instance p o T).
Proof.
  intros OK (R & _) L D T1 N. unfold isa, can_assign_types.
  destruct (assign_spec p OK w R v (has_interface p v f') false (Ty (t_id T) (t_dim T) 0) (Ty (fst o) (snd o) 0) L)
    as (b & E & S); auto using dynamic_object, flag0_object.
  exists b. split; auto. rewrite S. cbn [t_id t_dim t_flag]. destruct o as [i n]. cbn [fst snd].
  unfold is_mutable. cbn [t_flag]. unfold instance. cbn [t_id t_dim]. split; [tauto |]. intros H. split; auto.
Qed.

(** Between classes, isa is a partial order. *)
Theorem C25_isa_partial_order p w f v f' :
  program_ok p -> compiles p w f -> (w <= v)%nat ->
  (forall c, is_category p c CClass -> isa p v f' (c, 0) c 0 = Ret true) /\
  (forall a b c, is_category p a CClass -> is_category p b CClass -> is_category p c CClass ->
     isa p v f' (a, 0) b 0 = Ret true -> isa p v f' (b, 0) c 0 = Ret true ->
     isa p v f' (a, 0) c 0 = Ret true) /\
  (forall a b, is_category p a CClass -> is_category p b CClass ->
     isa p v f' (a, 0) b 0 = Ret true -> isa p v f' (b, 0) a 0 = Ret true -> a = b).
Proof.
  intros OK C L.
  assert (G : forall a b, is_category p a CClass -> is_category p b CClass ->
    exists r, isa p v f' (a, 0) b 0 = Ret r /\ (r = true <-> instance p (a, 0) (Ty b 0 0))).
  { intros a b A B. pose proof A as (ba & Ea & _). pose proof B as (bb & Eb & Cb).
    apply znth_Some in Ea. pose proof (znth_Some _ _ _ Eb).
    apply (C25_isa_is_instance p w f v f' (a, 0) (Ty b 0 0)); auto.
    - unfold dynamic_type. cbn. split; auto.
    - unfold object_type, type_ok, FLAG_REF. cbn. repeat split; auto; lia.
    - unfold no_interface. cbn. intros (b' & E' & C'). congruence. }
  assert (N10 : forall a, is_category p a CClass -> (a =? ID_ANY_OBJECT) = false).
  { intros a A. apply Z.eqb_neq. intros ->. eapply cat_any; eauto. }
  split; [| split].
  - intros c A. destruct (G c c A A) as (r & E & S). rewrite E. f_equal. apply S.
    unfold instance. cbn. rewrite N10 by auto. destruct (_ && _); split; auto. now left.
  - intros a b c A B D E1 E2.
    destruct (G a b A B) as (r1 & Q1 & S1). destruct (G b c B D) as (r2 & Q2 & S2).
    destruct (G a c A D) as (r3 & -> & S3). f_equal. apply S3.
    rewrite E1 in Q1. rewrite E2 in Q2. inversion Q1; inversion Q2; subst.
    eapply (instance_trans p OK (a, 0) (Ty b 0 0)); tauto.
  - intros a b A B E1 E2.
    destruct (G a b A B) as (r1 & Q1 & S1). destruct (G b a B A) as (r2 & Q2 & S2).
    rewrite E1 in Q1. rewrite E2 in Q2. inversion Q1; inversion Q2; subst.
    pose proof (proj1 S1 eq_refl) as I1. pose proof (proj1 S2 eq_refl) as I2. clear - I1 I2 N10 A B OK C.
    unfold instance in *. cbn in *. rewrite !N10 in * by auto.
    assert (K1 : same_or_sub p a b) by (destruct (_ && _) in I1; [left |]; tauto).
    assert (K2 : same_or_sub p b a) by (destruct (_ && _) in I2; [left |]; tauto).
    destruct K1 as [K1 | (_ & _ & K1)]; auto. destruct K2 as [K2 | (_ & _ & K2)]; auto.
    exfalso. eapply (super_irrefl p OK w (proj1 C) a). eapply super_trans; eauto.
Qed.

(** ** C24: what the compiler accepts is an instance at run time *)

(** For a variable type that is not built from an interface: every object that
    is an instance of the type of an accepted expression is an instance of the
    type of the variable. *)
Theorem C24_assignment_sound_partial p w f v f' d s o :
  program_ok p -> compiles p w f -> (w <= v)%nat ->
  object_type p d -> object_type p s -> no_interface p d -> dynamic_type p o ->
  can_assign_types p v f' d s = Ret true ->
  isa p v f' o (t_id s) (t_dim s) = Ret true ->
  isa p v f' o (t_id d) (t_dim d) = Ret true.
Proof.
  intros OK C L Od Os N D A I.
  destruct (C25_isa_is_instance p w f v f' o d OK C L D Od N) as (b & -> & S). f_equal. apply S. clear b S.
  unfold can_assign_types in A.
  destruct (assign_spec p OK w (proj1 C) v (has_interface p v f') false d s L Od Os N) as (b & E & S).
  rewrite A in E. inversion E; subst b. destruct (proj1 S eq_refl) as (J & _). clear S E A.
  pose proof Os as ((Bs & Ds & _ & HI) & _).
  destruct (is_category_of p (t_id s) CInterface Bs) as (X1 & X2).
  assert (DEC : category_of p (t_id s) = CInterface \/ category_of p (t_id s) <> CInterface)
    by (destruct (category_of p (t_id s)); auto; right; discriminate).
  destruct DEC as [Q | Q].
  - apply X2 in Q. unfold isa, can_assign_types in I.
    apply (assign_interface p OK v (has_interface p v f') (Ty (t_id s) (t_dim s) 0) (Ty (fst o) (snd o) 0))
      in I; auto using flag0_object, dynamic_object.
    cbn [t_id t_dim] in I. destruct I as (DI & I).
    destruct o as [i n]. cbn [fst snd] in *. unfold instance in *.
    destruct (Z.eqb_spec (t_dim d) 0).
    + destruct (Z.eqb_spec (t_id d) ID_ANY_OBJECT); auto. exfalso.
      assert (K : same_or_sub p (t_id s) (t_id d)) by (destruct (_ && _) in J; [left |]; tauto).
      destruct K as [K | (K & _)].
      * apply N. rewrite <- K. auto.
      * apply is_category_of in K; auto. pose proof (X1 Q). congruence.
    + destruct ((t_dim d =? 1) && (t_id d =? ID_ANY_OBJECT)).
      * destruct J as [J | (J & _)]; [left; lia |].
        right. split; [lia |]. destruct I as [-> | (I & _)]; auto.
        pose proof (class_range p _ I) as Bi. rewrite !(is_category_of p i) by auto.
        unfold bt_is_class, bt_is_interface in I. destruct (category_of p i); auto; discriminate.
      * exfalso. destruct J as (_ & [K | (K & _)]).
        -- apply N. rewrite <- K. auto.
        -- apply is_category_of in K; auto. pose proof (X1 Q). congruence.
  - assert (NS : no_interface p s) by (intros K; apply Q; auto).
    destruct (C25_isa_is_instance p w f v f' o s OK C L D Os NS) as (b & E & S).
    rewrite I in E. inversion E; subst b. eapply instance_trans; eauto. tauto.
Qed.

(** The object made by an accepted numeric-to-object assignment: the string of
    the number, or its box (spvm_opcode_builder.c, NUMERIC_TO_STRING and boxing
    opcodes; C20 shows that the box of type id [t] is of class [t + 8]). *)
Theorem C24_boxing_sound_partial p w f v hi d s :
  program_ok p -> compiles p w f -> (w <= v)%nat ->
  object_type p d -> no_interface p d -> type_ok p s -> t_dim s = 0 -> t_flag s = 0 -> 3 <= t_id s <= 8 ->
  satisfy_assignment p v hi false false d s = Ret (true, true) ->
  instance p (if t_id d =? ID_STRING then (ID_STRING, 0) else (t_id s + 8, 0)) d.
Proof.
  intros OK C L Od N TS D0 F0 R A. pose proof Od as (TD & _).
  apply (object_type_shape p OK _ TD) in Od. rewrite (sh_object p OK _ TD) in Od.
  pose proof (shape_spec p OK _ TD) as MD. pose proof (shape_spec p OK _ TS) as MS.
  assert (SS : shape p s = SNum).
  { pose proof (sh_numeric p OK s TS) as H. unfold is_numeric, bt_is_numeric, is_ref in H.
    rewrite D0, F0 in H. cbn in H.
    destruct (Z.leb_spec ID_BYTE (t_id s)); unfold ID_BYTE, ID_DOUBLE in *; [| lia].
    destruct (Z.leb_spec (t_id s) 8); [| lia]. destruct (shape p s); try discriminate H. reflexivity. }
  unfold satisfy_assignment in A. revert A. shapes_of d TD. shapes_of s TS. rewrite SS.
  unfold no_interface in N. rewrite is_category_of in N by apply TD.
  unfold shape_means in MD. unfold conv, no, yes, yes_if, instance, same_or_sub, ID_STRING, ID_ANY_OBJECT.
  pose proof (cat_ids p OK _ (proj1 TD)) as CD.
  destruct (shape p d); try discriminate Od; intros A; try discriminate A; decompose [and] MD; clear MD.
  - rewrite H, H1. cbn. auto.
  - unfold UPGRADE_SHIFT in A. destruct (Z.eqb_spec (t_id d) (t_id s + 8)); [| discriminate].
    destruct (Z.eqb_spec (t_id d) 9); [lia |]. rewrite H. cbn.
    destruct (Z.eqb_spec (t_id d) 10); [lia |].
    destruct (Z.leb_spec 11 (t_id d)); [| lia]. destruct (Z.leb_spec (t_id d) 16); [| lia]. cbn. auto.
  - rewrite H, H1. cbn. auto.
Qed.

(** For a variable whose type is an interface (or an array of it), under
    hypotheses that the compiler does not check: all the instance methods of
    the interface are required, the methods of these names in the class of the
    expression and in the class of the object take the same number of
    (required) arguments as in the interface, and no signature has an array of
    an interface. *)
Theorem C24_interface_sound_partial p w f f' d s o :
  program_ok p -> methods_ok p -> compiles p w f ->
  object_type p d -> is_category p (t_id d) CInterface -> object_type p s -> dynamic_type p o ->
  iface_ok p (t_id d) -> (is_category p (t_id s) CInterface -> iface_ok p (t_id s)) ->
  agrees p (t_id d) (t_id s) -> agrees p (t_id d) (fst o) ->
  can_assign_types p (S w) (S f') d s = Ret true ->
  isa p (S w) (S f') o (t_id s) (t_dim s) = Ret true ->
  isa p (S w) (S f') o (t_id d) (t_dim d) = Ret true.
Proof.
  intros OK MOK C Od CI Os D IO JO AS AO A I.
  unfold can_assign_types in A. rewrite (assign_interface p OK) in A by auto.
  unfold isa, can_assign_types.
  assert (CI' : is_category p (t_id (Ty (t_id d) (t_dim d) 0)) CInterface) by exact CI.
  rewrite (assign_interface p OK) by (auto using flag0_object, dynamic_object). cbn [t_id t_dim].
  destruct A as (DS & A).
  pose proof Os as ((Bs & Ds & _ & HI) & _).
  assert (DEC : category_of p (t_id s) = CInterface \/ category_of p (t_id s) <> CInterface)
    by (destruct (category_of p (t_id s)); auto; right; discriminate).
  destruct DEC as [Q | Q].
  - apply is_category_of in Q; auto.
    unfold isa, can_assign_types in I.
    rewrite (assign_interface p OK) in I by (auto using flag0_object, dynamic_object).
    cbn [t_id t_dim] in I. destruct I as (DO & I). split; [lia |].
    destruct A as [A | (KA & A)]; [rewrite <- A; auto |].
    destruct I as [I | (KI & I)]; [rewrite I; auto |].
    right. split; auto.
    eapply (has_interface_iface p OK MOK w (proj1 C) f' (fst o) (t_id s) (t_id d)); eauto.
  - assert (NS : no_interface p s).
    { intros K. apply Q. apply is_category_of in K; auto. }
    destruct A as [A | (KA & A)].
    { exfalso. apply NS. rewrite A. auto. }
    destruct (C25_isa_is_instance p w f (S w) (S f') o s OK C ltac:(lia) D Os NS) as (b & E & S).
    rewrite I in E. inversion E; subst b. pose proof (proj1 S eq_refl) as J. clear S E I.
    destruct o as [i n]. cbn [fst snd] in *.
    assert (KS : category_of p (t_id s) = CClass).
    { unfold bt_is_class, bt_is_interface in KA. destruct (category_of p (t_id s)); auto; try discriminate KA; congruence. }
    assert (K10 : t_id s <> 10) by (intros K; rewrite K in *; eapply cat_any; eauto; apply is_category_of; auto).
    assert (SO : n = t_dim s /\ same_or_sub p i (t_id s)).
    { unfold instance, ID_ANY_OBJECT in J. destruct (Z.eqb_spec (t_id s) 10); [lia |].
      rewrite andb_false_r in J.
      destruct (Z.eqb_spec (t_dim s) 0) as [E0 |]; [rewrite E0 | auto].
      destruct (_ && _) in J; [| auto]. destruct J as (-> & ->). split; auto. now left. }
    destruct SO as (-> & [-> | (Ki & _ & SU)]); (split; [lia |]); right; [auto |].
    split.
    + unfold bt_is_class. rewrite (proj1 (is_category_of p i CClass (proj1 D)) Ki). reflexivity.
    + eapply (has_interface_sub p OK MOK w (proj1 C) f (proj2 C) f' i (t_id s) (t_id d)); eauto.
Qed.

(** ** Concrete programs *)

Definition bt (name : string) (c : category) (parent : option string) (ms : list meth) : btype :=
  {| bt_name := bytes name; bt_category := c; bt_parent_name := option_map bytes parent; bt_methods := ms |}.
Definition core : prog :=
  [bt "unknown" CUnknown None []; bt "undef" CUndef None []; bt "void" CVoid None [];
   bt "byte" CNumeric None []; bt "short" CNumeric None []; bt "int" CNumeric None [];
   bt "long" CNumeric None []; bt "float" CNumeric None []; bt "double" CNumeric None [];
   bt "string" CString None []; bt "object" CAnyObject None [];
   bt "Byte" CClass None []; bt "Short" CClass None []; bt "Int" CClass None [];
   bt "Long" CClass None []; bt "Float" CClass None []; bt "Double" CClass None []].
(** An instance method of the class [self], with the types of the arguments
    after the invocant, [opt] of which are optional. *)
Definition im (name : string) (required : bool) (self : Z) (args : list ty) (opt : Z) (ret : ty) : meth :=
  {| m_name := bytes name; m_is_class_method := false; m_is_required := required;
     m_args := Ty self 0 0 :: args; m_required_args_length := zlen args + 1 - opt; m_return := ret |}.
Definition ty_int := Ty ID_INT 0 0.
Definition ty_string := Ty ID_STRING 0 0.
Definition ty_object := Ty ID_ANY_OBJECT 0 0.
Definition ty_void := Ty ID_VOID 0 0.

Lemma nodup_dec {A} (dec : forall x y : A, {x = y} + {x <> y}) l : nodup dec l = l -> NoDup l.
Proof. intros E. rewrite <- E. apply NoDup_nodup. Qed.

Ltac prog_ok :=
  constructor;
  [ reflexivity
  | let i := fresh "i" in let b := fresh "b" in let B := fresh "B" in let E := fresh "E" in let H := fresh "H" in
    intros i b B E;
    assert (i = 11 \/ i = 12 \/ i = 13 \/ i = 14 \/ i = 15 \/ i = 16) as H by lia;
    repeat destruct H as [H | H]; subst i; vm_compute in E; inversion E; reflexivity
  | vm_compute; discriminate
  | let i := fresh "i" in let b := fresh "b" in let B := fresh "B" in let E := fresh "E" in let H := fresh "H" in
    intros i b B E;
    match type of E with znth ?p _ = _ =>
      change p with (ztake 11 p ++ zdrop 11 p) in E;
      rewrite znth_app in E;
      destruct (Z.ltb_spec i (zlen (ztake 11 p))); [exfalso; change (zlen (ztake 11 p)) with 11 in *; lia |]
    end;
    apply znth_In in E; vm_compute in E;
    repeat destruct E as [E | E]; subst; cbn; try destruct E; auto
  | apply (nodup_dec (list_eq_dec Z.eq_dec)); vm_compute; reflexivity ].

(** interface I { required method m : int ($x : int); }
    class A { method m : int ($x : int) {...} }
    class B extends A { method m ...; method n : void () }
    class C extends B { } *)
Definition ex1 : prog := core ++
  [bt "I" CInterface None [im "m" true 17 [ty_int] 0 ty_int];
   bt "A" CClass None [im "m" false 18 [ty_int] 0 ty_int];
   bt "B" CClass (Some "A"%string) [im "m" false 19 [ty_int] 0 ty_int; im "n" false 19 [] 0 ty_void];
   bt "C" CClass (Some "B"%string) []].

Lemma ex1_ok : program_ok ex1.
Proof. prog_ok. Qed.
Lemma ex1_methods : methods_ok ex1.
Proof.
  intros i b E. apply znth_In in E. vm_compute in E.
  repeat (destruct E as [<- | E]; [apply (nodup_dec (list_eq_dec Z.eq_dec)); vm_compute; reflexivity |]).
  destruct E.
Qed.
Example ex1_compiles : compiles ex1 3 2.
Proof. split; vm_compute; reflexivity. Qed.

(** The hypotheses of the theorems above are met: C's objects, the variable
    types A and I, an expression of type B. *)
Example C25_example :
  isa ex1 4 1 (20, 0) 18 0 = Ret true /\ isa ex1 4 1 (18, 0) 20 0 = Ret false /\
  isa ex1 4 1 (20, 2) 18 2 = Ret true /\ isa ex1 4 1 (20, 1) ID_ANY_OBJECT 1 = Ret true /\
  isa ex1 4 1 (20, 0) 17 0 = Ret true /\
  dynamic_type ex1 (20, 0) /\ object_type ex1 (Ty 18 0 0) /\ no_interface ex1 (Ty 18 0 0).
Proof.
  repeat (split; [vm_compute; reflexivity |]).
  assert (C : forall i, i = 18 \/ i = 20 -> is_category ex1 i CClass).
  { intros i [-> | ->]; eexists; (split; [vm_compute; reflexivity | reflexivity]). }
  split; [| split].
  - unfold dynamic_type. cbn [fst snd]. change (zlen ex1) with 21. split; [lia |]. left. auto.
  - unfold object_type, type_ok, FLAG_REF. cbn [t_id t_dim t_flag]. change (zlen ex1) with 21.
    repeat split; auto 10; lia.
  - intros (b & E & Q). vm_compute in E. inversion E; subst. discriminate Q.
Qed.

Example C24_example :
  can_assign_types ex1 4 1 (Ty 18 0 0) (Ty 19 0 0) = Ret true /\
  can_assign_types ex1 4 1 (Ty 17 0 0) (Ty 19 0 0) = Ret true /\
  isa ex1 4 1 (20, 0) 19 0 = Ret true /\
  iface_ok ex1 17 /\ agrees ex1 17 19 /\ agrees ex1 17 20 /\
  satisfy_assignment ex1 4 (has_interface ex1 4 1) false false ty_object ty_int = Ret (true, true).
Proof.
  repeat (split; [vm_compute; reflexivity |]).
  assert (SG : forall i, (17 <= i <= 20 \/ i = 5) -> sig_type ex1 (Ty i 0 0)).
  { intros i B. unfold sig_type, type_ok, ID_UNDEF. cbn [t_id t_dim t_flag].
    change (zlen ex1) with 21. repeat split; auto; lia. }
  assert (SO : forall i r, 17 <= i <= 20 -> sig_ok ex1 (im "m" r i [ty_int] 0 ty_int)).
  { intros i r B. split; cbn; repeat constructor; apply SG; auto; try (right; reflexivity). }
  assert (IN : forall m, In m (methods_of ex1 17) -> m = im "m" true 17 [ty_int] 0 ty_int).
  { intros m I. vm_compute in I. destruct I as [<- | []]. vm_compute. reflexivity. }
  assert (AG : forall c, (c = 19 \/ c = 20) -> agrees ex1 17 c).
  { intros c Bc m e m' I _ N. rewrite (IN m I) in *. cbn [m_name im] in N.
    assert (Hit : nearest ex1 (bytes "m") 19 19 (im "m" false 19 [ty_int] 0 ty_int)).
    { eapply nearest_here; [vm_compute; reflexivity | left; vm_compute; reflexivity | reflexivity]. }
    assert (Q : nearest ex1 (bytes "m") c 19 (im "m" false 19 [ty_int] 0 ty_int)).
    { destruct Bc as [-> | ->]; auto. eapply nearest_up; [vm_compute; reflexivity | intros ? [] | | exact Hit].
      unfold extends. do 2 eexists. repeat split; vm_compute; reflexivity. }
    destruct (nearest_fun ex1 ex1_ok ex1_methods _ _ _ _ Q _ _ N) as (<- & <-).
    split; [split; reflexivity | apply SO; lia]. }
  split; [| split; [| split]].
  - intros m I _. rewrite (IN m I). split; [reflexivity | apply SO; lia].
  - apply AG; auto.
  - apply AG; auto.
  - vm_compute. reflexivity.
Qed.

(** ** Defects *)

(** class MyInt extends Int {}: an instance of MyInt is not an instance of its
    super class Int (although MyInt[] is an instance of Int[]). *)
Definition ex2 : prog := core ++ [bt "MyInt" CClass (Some "Int"%string) []].
Theorem C25_numeric_subclass_refuted :
  program_ok ex2 /\ compiles ex2 2 1 /\ super ex2 17 ID_INT_CLASS /\
  isa ex2 2 1 (17, 0) ID_INT_CLASS 0 = Ret false /\ isa ex2 2 1 (17, 1) ID_INT_CLASS 1 = Ret true.
Proof.
  split; [prog_ok |]. split; [split; vm_compute; reflexivity |].
  split; [| split; vm_compute; reflexivity].
  constructor. unfold extends. do 2 eexists. repeat split; vm_compute; reflexivity.
Qed.

(** interface I { required method m : void ($x : int = 0); }
    class S { method m : void () {} }
    class D extends S { method m : void ($x : string = undef) {} }
    An expression of type S can be assigned to a variable of type I, but the
    objects of the sub class D are not instances of I. *)
Definition ex3 : prog := core ++
  [bt "I" CInterface None [im "m" true 17 [ty_int] 1 ty_void];
   bt "S" CClass None [im "m" false 18 [] 0 ty_void];
   bt "D" CClass (Some "S"%string) [im "m" false 19 [ty_string] 1 ty_void]].
Theorem C24_interface_refuted :
  program_ok ex3 /\ compiles ex3 2 1 /\
  can_assign_types ex3 3 1 (Ty 17 0 0) (Ty 18 0 0) = Ret true /\
  isa ex3 3 1 (19, 0) 18 0 = Ret true /\ isa ex3 3 1 (19, 0) 17 0 = Ret false.
Proof.
  split; [prog_ok |]. split; [split; vm_compute; reflexivity |].
  repeat (split; [vm_compute; reflexivity |]). vm_compute; reflexivity.
Qed.

(** interface I { required method m : void ($x : I[]); }
    class C { method m : void ($x : C[]) {} }
    The check of the assignment of a C to an I never ends (it needs its own
    answer), in the compiler and at run time. *)
Definition ex4 : prog := core ++
  [bt "I" CInterface None [im "m" true 17 [Ty 17 1 0] 0 ty_void];
   bt "C" CClass None [im "m" false 18 [Ty 18 1 0] 0 ty_void]].
Theorem C24_check_terminates_refuted :
  program_ok ex4 /\ compiles ex4 1 1 /\
  forall w f, can_assign_types ex4 (S w) f (Ty 17 0 0) (Ty 18 0 0) = Fuel.
Proof.
  split; [prog_ok |]. split; [split; vm_compute; reflexivity |].
  intros w f.
  assert (H : forall f, has_interface ex4 (S w) f 18 17 = Fuel).
  { clear f. induction f as [| f IH]; [reflexivity |]. cbn [has_interface].
    unfold has_interface_step, has_interface_common.
    change (methods_of ex4 17) with [im "m" true 17 [Ty 17 1 0] 0 ty_void].
    change (bt_is_interface ex4 17) with true. change (bt_is_class ex4 18) with true.
    rewrite orb_true_r. cbn [orb negb methods_match m_is_class_method im m_name].
    cbn [search_method].
    change (own_method ex4 18 (bytes "m")) with (Some (im "m" false 18 [Ty 18 1 0] 0 ty_void)).
    cbn [obind]. unfold satisfy_method. cbn [im m_is_class_method m_args m_required_args_length tl args_match].
    change (zlen [Ty 17 0 0; Ty 17 1 0] >=? zlen [Ty 18 1 0] + 1 - 0) with true. cbn [negb].
    unfold assign_noconv at 1. unfold satisfy_assignment.
    change (is_numeric (Ty 17 1 0)) with false. change (is_mulnum ex4 (Ty 17 1 0)) with false.
    change (is_ref (Ty 17 1 0)) with false. change (is_string (Ty 17 1 0)) with false.
    change (is_numeric_object (Ty 17 1 0)) with false. change (is_class ex4 (Ty 17 1 0)) with false.
    change (is_interface ex4 (Ty 17 1 0)) with false. change (is_any_object (Ty 17 1 0)) with false.
    change (is_undef (Ty 17 1 0)) with false. change (is_numeric_array (Ty 17 1 0)) with false.
    change (is_mulnum_array ex4 (Ty 17 1 0)) with false. change (is_string_array (Ty 17 1 0)) with false.
    change (is_class_array ex4 (Ty 17 1 0)) with false. change (is_interface_array ex4 (Ty 17 1 0)) with true.
    change (is_interface_array ex4 (Ty 18 1 0)) with false. change (is_class_array ex4 (Ty 18 1 0)) with true.
    cbn [t_id]. rewrite IH. reflexivity. }
  unfold can_assign_types, assign_noconv, satisfy_assignment.
  change (is_numeric (Ty 17 0 0)) with false. change (is_mulnum ex4 (Ty 17 0 0)) with false.
  change (is_ref (Ty 17 0 0)) with false. change (is_string (Ty 17 0 0)) with false.
  change (is_numeric_object (Ty 17 0 0)) with false. change (is_class ex4 (Ty 17 0 0)) with false.
  change (is_interface ex4 (Ty 17 0 0)) with true. change (is_interface ex4 (Ty 18 0 0)) with false.
  change (is_class ex4 (Ty 18 0 0)) with true. cbn [t_id]. rewrite H. reflexivity.
Qed.

(** class A extends B {}  class B extends C {}  class C extends B {}
    The compiler never finishes its check for recursive inheritance. *)
Definition ex5 : prog := core ++
  [bt "A" CClass (Some "B"%string) []; bt "B" CClass (Some "C"%string) []; bt "C" CClass (Some "B"%string) []].
Theorem C25_recursion_check_terminates_refuted :
  program_ok ex5 /\ forall w, check_relation ex5 w (all_ids ex5) = Fuel.
Proof.
  split; [prog_ok |]. intros w.
  assert (H : forall w, recursion_walk ex5 w (bytes "A") (Some 18) = Fuel /\
                        recursion_walk ex5 w (bytes "A") (Some 19) = Fuel).
  { clear w. induction w as [| w (IH1 & IH2)]; [split; reflexivity |]. cbn [recursion_walk].
    change (name_eqb (name_of ex5 18) (bytes "A")) with false.
    change (name_eqb (name_of ex5 19) (bytes "A")) with false.
    change (parent_of ex5 18) with (Some 19). change (parent_of ex5 19) with (Some 18). auto. }
  destruct w as [| w]; [vm_compute; reflexivity |].
  unfold check_relation.
  replace (check_all (check_parent ex5) (all_ids ex5)) with (Ret tt) by (vm_compute; reflexivity).
  cbn [obind].
  change (all_ids ex5) with [0;1;2;3;4;5;6;7;8;9;10;11;12;13;14;15;16;17;18;19].
  cbn [check_all].
  repeat (rewrite (eq_refl : parent_of ex5 _ = None); cbn [recursion_walk obind]).
  change (parent_of ex5 17) with (Some 18). change (name_of ex5 17) with (bytes "A").
  rewrite (proj1 (H (S w))). reflexivity.
Qed.

Print Assumptions C24_assignment_sound_partial.
Print Assumptions C24_boxing_sound_partial.
Print Assumptions C24_interface_sound_partial.
Print Assumptions C24_interface_refuted.
Print Assumptions C24_check_terminates_refuted.
Print Assumptions C25_isa_is_instance.
Print Assumptions C25_isa_partial_order.
Print Assumptions C25_numeric_subclass_refuted.
Print Assumptions C25_recursion_check_terminates_refuted.
