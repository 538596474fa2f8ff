(** * C55, C56, C57: precompiled methods

    C55: the identifiers of the generated C function are declared once and mean
    what they are used for. C56: the generated function compiles and does what
    the interpreter does. C57: the numbers and strings written into the
    generated source are read back unchanged.

    [declare_all us] (Precomp_model.v) is the list of declarations generated for
    the uses [us]; [start rt ds] executes them in the runtime [rt] and gives the
    values of the declared variables; [resolve e i] is the value of the variable
    with the identifier [i]. [build rt m] is the generated function of the method
    [m]; [c_run] runs it, [vm_run] interprets the opcodes. Precomp_spec.v says
    what well-formed names, runtimes and methods are, what [denotes] and
    [compiles] mean. *)

From Coq Require Import String.
From Coq Require Import List Lia.
Import ListNotations.
From Verif Require Import Base CLib Bytes Type_model Dispatch_model Switch_model Switch_proofs.
From Verif Require Import Precomp_syntax Precomp_table Precomp_model Precomp_spec PrecompName_proofs PrecompLit_proofs
  PrecompLook_proofs PrecompSim_proofs.
Local Open Scope string_scope.

Definition type_decl (c : string) := {| d_kind := KType; d_class := bytes c; d_member := [] |}.
Definition field_decl (c f : string) := {| d_kind := KField; d_class := bytes c; d_member := bytes f |}.
Definition method_decl (c f : string) := {| d_kind := KMethod; d_class := bytes c; d_member := bytes f |}.

(** ** C55 *)

(** Whatever classes and members a method uses, in whatever order: if the names
    are good, no variable is declared twice, every variable used is declared, the
    declarations can be executed, and each variable used then holds the very
    type, field offset, class variable or method it was used for. *)
Theorem C55_identifiers_partial rt us :
  runtime_ok rt -> Forall good_decl us -> Forall (fun u => exists a, denotes rt u a) us ->
  NoDup (map ident (declare_all us)) /\
  exists e, start rt (declare_all us) = Some e /\
    forall u, In u us ->
      In (ident u) (map ident (declare_all us)) /\ forall a, denotes rt u a -> resolve e (ident u) = Some a.
Proof. intros R G D. split; [apply declare_all_ok; auto | apply start_ok; auto]. Qed.

(** Different things have different identifiers. *)
Theorem C55_identifiers_injective u d :
  good_decl u -> good_decl d -> ident u = ident d ->
  d_kind u = d_kind d /\ d_class u = d_class d /\ (d_kind u <> KType -> d_member u = d_member d).
Proof. intros G H E. apply ident_occurs; auto. rewrite E. apply occurs_refl. Qed.

(** The names the tokenizer accepts (spvm_toke.c:2556-2560, 2656-2660: a word
    that does not begin with a digit and does not contain two underscores) are not
    all good. *)
Definition accepted_word (p : name) : Prop := p <> [] /\ Forall word p /\ ~ occurs [95; 95] p.

Definition ex_class (n : string) (fs : list (string * Z)) (ms : list string) : klass := {|
  k_name := bytes n; k_fields := map (fun x => (bytes (fst x), snd x)) fs; k_class_vars := [];
  k_methods := map (fun x => {| m_name := bytes x; m_is_class_method := true; m_is_required := false; m_args := [];
                                m_required_args_length := 0; m_return := Ty 0 0 0 |}) ms;
  k_consts := []; k_file := bytes "Foo.spvm" |}.

Lemma plain_ok s : forallb (fun c => negb (existsb (Z.eqb c) [34; 10; 63; 0; 92])) s = true -> plain s.
Proof.
  intros H. unfold plain. rewrite Forall_forall. intros c I N. rewrite forallb_forall in H. specialize (H c I).
  apply Bool.negb_true_iff in H. assert (existsb (Z.eqb c) [34; 10; 63; 0; 92] = true); [| congruence].
  apply existsb_exists. exists c. split; [exact N | apply Z.eqb_refl].
Qed.

Ltac plain_tac := apply plain_ok; reflexivity.
Ltac nodup_tac := repeat constructor; cbn; intros H; repeat destruct H as [H | H]; try discriminate H; auto.

(** A field x_ used before a field x of the same class: the variable for x is not
    declared, so the generated function does not compile. *)
Theorem C55_trailing_underscore_refuted :
  exists u v : decl, In v [u; v] /\ d_class u = d_class v /\ accepted_word (d_member u) /\ accepted_word (d_member v) /\
    ~ In (ident v) (map ident (declare_all [u; v])).
Proof.
  exists (field_decl "Foo" "x_"), (field_decl "Foo" "x"). split; [right; left; reflexivity |]. split; [reflexivity |].
  split; [| split].
  - split; [discriminate |]. split; [repeat constructor; unfold word; cbn; lia |].
    intros O. apply occurs_strstr in O. discriminate O.
  - split; [discriminate |]. split; [repeat constructor; unfold word; cbn; lia |].
    intros O. apply occurs_strstr in O. discriminate O.
  - vm_compute. intros [H | []]. discriminate H.
Qed.

(** The classes A_::B and A::_B have the same identifier; the second one used
    gets the value of the first. *)
Theorem C55_clash_refuted :
  exists rt u v e, runtime_ok rt /\ start rt (declare_all [u; v]) = Some e /\
    denotes rt u (AType 0) /\ denotes rt v (AType 1) /\ resolve e (ident v) = Some (AType 0).
Proof.
  exists [ex_class "A_::B" [] []; ex_class "A::_B" [] []], (type_decl "A_::B"), (type_decl "A::_B"). eexists.
  split; [| split; [vm_compute; reflexivity |]; split; [| split]].
  - split; [nodup_tac |].
    repeat apply Forall_cons; try apply Forall_nil; (split; try (repeat constructor; fail); try plain_tac;
      intros i j a b _ H; cbn [k_methods ex_class map] in H; rewrite znth_nil in H; discriminate H).
  - exists 0, (ex_class "A_::B" [] []). repeat split.
  - exists 1, (ex_class "A::_B" [] []). repeat split.
  - vm_compute. reflexivity.
Qed.

(** A field Foo of a class My_basic_type, used before the class Foo: the variable
    for the class Foo is not declared. *)
Theorem C55_basic_type_refuted :
  ~ In (ident (type_decl "Foo")) (map ident (declare_all [type_decl "My_basic_type"; field_decl "My_basic_type" "Foo"; type_decl "Foo"])).
Proof. vm_compute. intros [H | [H | []]]; discriminate H. Qed.

(** ** C56 *)

(** For every well-formed runtime and method, and whatever the macros do: the
    source is generated and compiles, and from every state the generated
    function ends with the same state as the interpreter (or both never end, or
    both go wrong). The macro LEAVE_SCOPE is omitted by the generator when the
    method has no mortal stack; it does nothing then. *)
Theorem C56_precompiled_method_partial rt m : runtime_ok rt -> method_ok rt m ->
  exists ds code, build rt m = Some (ds, code) /\ compiles ds code /\
    exists e, start rt ds = Some e /\
      forall St macro load err,
        (mc_mortal_length m = 0 -> forall a s, macro "LEAVE_SCOPE" a s = Some s) ->
        forall (s : St) x, x <> Fuel ->
          (exists n, vm_run St macro load err rt m n 0 s = x) <-> (exists n, c_run St macro load err e code n code s = x).
Proof. exact (build_ok rt m). Qed.

(** ** C57 *)

(** Integers of every type, as operands, labels, or constants. *)
Theorem C57_int v : c_int (add_int v) = Some v.
Proof. apply c_int_add_int. Qed.

Theorem C57_long v : c_int (add_long v) = Some v.
Proof. apply c_int_add_long. Qed.

Theorem C57_byte v : c_int (add_byte v) = Some v.
Proof. apply c_int_add_byte. Qed.

(** String constants with any bytes. *)
Theorem C57_string s : Forall is_byte s -> c_string (flat_map add_hex_char s) = Some s.
Proof. apply hex_string. Qed.

(** Names and file names are copied as they are. *)
Theorem C57_plain_partial s : plain s -> c_string (c_str s) = Some s.
Proof. intros P. rewrite (plain_c_str s P). apply plain_string, P. Qed.

(** A file name with a backslash, as on Windows, is read back differently. *)
Theorem C57_file_name_refuted :
  exists s, c_str s = s /\ c_string (c_str s) <> Some s /\ c_string (c_str s) <> None.
Proof. exists (bytes "C:\new.spvm"). split; [reflexivity |]. split; vm_compute; discriminate. Qed.

(** One with a double quote does not even compile. *)
Theorem C57_quote_refuted : exists s, c_str s = s /\ c_string (c_str s) = None.
Proof. exists (bytes "a""b.spvm"). split; reflexivity. Qed.

(** ** Non-vacuity *)

(** A class with a field, a class variable, two methods and a string. *)
Definition ex_Foo : klass := {|
  k_name := bytes "My::Foo"; k_fields := [(bytes "x", 0); (bytes "y_z", 8)]; k_class_vars := [bytes "$COUNT"];
  k_methods := k_methods (ex_class "" [] ["main"; "new"]); k_consts := [bytes "hello"; [0; 255; 34]]; k_file := bytes "lib/My/Foo.spvm" |}.
Definition ex_rt : runtime := [ex_class "int" [] []; ex_Foo].

Definition O (i : opid) (a b c d : Z) : op := {| o_id := i; o_0 := a; o_1 := b; o_2 := c; o_3 := d |}.

(** new, a field, a switch on it, a class variable, a string, a call, a warning. *)
Definition ex_m : method_code := {|
  mc_class := 1; mc_name := bytes "main"; mc_mortal_length := 1;
  mc_ops := [
    O OP_NEW_OBJECT 0 1 0 0;
    O OP_GET_FIELD_INT 0 0 1 1;
    O OP_LOOKUP_SWITCH 0 8 2 0;
    O OP_CASE_INFO 0 (u32 (-3)) 5 0;
    O OP_CASE_INFO 0 7 6 0;
    O OP_SET_CLASS_VAR_INT 1 0 0 0;
    O OP_NEW_STRING 1 1 0 0;
    O OP_CALL_CLASS_METHOD 1 1 0 0;
    O OP_WARN 1 42 0 0;
    O OP_IF_EQ_ZERO 1 0 0 0;
    O OP_LEAVE_SCOPE 0 0 0 0;
    O OP_END_METHOD 0 0 0 0 ] |}.

Lemma good_wordb p : p <> [] -> forallb wordb p = true -> strstr p [95; 95] = false -> last p 0 <> 95 -> good_word p.
Proof.
  intros N W U L. split; auto.
  - rewrite Forall_forall. intros c I. apply wordb_spec. rewrite forallb_forall in W. auto.
  - intros H. apply occurs_strstr in H. congruence.
  - intros (a & ->). apply L. rewrite last_last. reflexivity.
Qed.

Example ex_runtime_ok : runtime_ok ex_rt.
Proof.
  split.
  - nodup_tac.
  - assert (S : forall l : list meth, (l = [] \/ exists a b, l = [a; b] /\ strcmp (m_name a) (m_name b) <= 0) ->
        forall i j a b, 0 <= i < j -> znth l i = Some a -> znth l j = Some b -> strcmp (m_name a) (m_name b) <= 0).
    { intros l [-> | (x & y & -> & L)] i j a b H A B; [rewrite znth_nil in A; discriminate A |].
      pose proof (znth_Some _ _ _ A) as RA. pose proof (znth_Some _ _ _ B) as RB. unfold zlen in RA, RB. cbn in RA, RB.
      assert (i = 0) by lia. assert (j = 1) by lia. subst. injection A as <-. injection B as <-. exact L. }
    constructor; [| constructor; [| constructor]].
    + split; try (apply S; left; reflexivity); try (repeat constructor; fail). plain_tac.
    + split.
      * plain_tac.
      * nodup_tac.
      * apply Forall_cons; [plain_tac | apply Forall_cons; [plain_tac | apply Forall_nil]].
      * nodup_tac.
      * apply Forall_cons; [plain_tac | apply Forall_nil].
      * nodup_tac.
      * apply Forall_cons; [plain_tac | apply Forall_cons; [plain_tac | apply Forall_nil]].
      * apply S. right. do 2 eexists. split; [reflexivity |]. vm_compute. discriminate.
Qed.

Lemma bytes_ok (s : name) : forallb (fun c => (0 <=? c) && (c <=? 255))%Z s = true -> Forall is_byte s.
Proof.
  intros H. rewrite Forall_forall. intros c I. rewrite forallb_forall in H. specialize (H c I).
  apply andb_prop in H as (H1 & H2). apply Z.leb_le in H1. apply Z.leb_le in H2. unfold is_byte. lia.
Qed.

Lemma ranges_ok rt m o : ((0 <=? o_0 o) && (o_0 o <? 4294967296) && (0 <=? o_1 o) && (o_1 o <? 4294967296) &&
    (0 <=? o_2 o) && (o_2 o <? 4294967296) && (0 <=? o_3 o) && (o_3 o <? 65536))%Z%bool = true ->
  Forall (stmt_ok rt m o) (vm_case (o_id o)) -> o_id o <> OP_SET_ERROR_ID_BY_TYPE -> o_id o <> OP_CAN -> op_ok rt m o.
Proof.
  intros H F A B. repeat (apply andb_prop in H as (H & ?)).
  repeat match goal with H : (_ <=? _)%Z = true |- _ => apply Z.leb_le in H | H : (_ <? _)%Z = true |- _ => apply Z.ltb_lt in H end.
  split; auto; congruence.
Qed.

Ltac ex_expr := cbn [expr_ok get o_0 o_1 o_2 o_3 O]; first
  [ exact I
  | discriminate
  | exists ex_Foo; split; [vm_compute; reflexivity |]; first [exact I | vm_compute; discriminate]
  | exists [0; 255; 34]; split; [vm_compute; reflexivity |]; split; [apply bytes_ok; reflexivity | vm_compute; discriminate] ].

Ltac ex_op := apply ranges_ok; [reflexivity | | discriminate | discriminate]; cbn [o_id O vm_case];
  repeat apply Forall_cons; try apply Forall_nil; cbn [stmt_ok].

Example ex_ops_ok : Forall (op_ok ex_rt ex_m) (mc_ops ex_m).
Proof.
  unfold ex_m at 2. cbn [mc_ops].
  repeat apply Forall_cons; try apply Forall_nil; ex_op;
    try exact I; try discriminate; try ex_expr.
  split; [discriminate |]. split; [constructor |]. vm_compute. split; [discriminate | reflexivity].
Qed.

Example ex_method_ok : method_ok ex_rt ex_m.
Proof.
  split.
  - exists ex_Foo. split; [reflexivity | plain_tac].
  - plain_tac.
  - cbn. lia.
  - vm_compute. discriminate.
  - exists (firstn 11 (mc_ops ex_m)), (O OP_END_METHOD 0 0 0 0). split; [reflexivity |]. split; [reflexivity |].
    repeat constructor; discriminate.
  - exact ex_ops_ok.
  - intros pc o Z E. pose proof (znth_Some _ _ _ Z) as R. change (zlen (mc_ops ex_m)) with 12 in R.
    assert (pc = 2).
    { assert (D : pc = 0 \/ pc = 1 \/ pc = 2 \/ pc = 3 \/ pc = 4 \/ pc = 5 \/ pc = 6 \/ pc = 7 \/ pc = 8 \/ pc = 9 \/ pc = 10 \/ pc = 11) by lia.
      repeat destruct D as [-> | D]; try reflexivity; try subst pc; vm_compute in Z; injection Z as <-; discriminate E. }
    subst pc. exists 0, 8, [(-3, 5); (7, 6)]. eexists. split; [vm_compute; reflexivity |].
    assert (T : forall t, 0 <= t < 12 -> target_ok ex_m t) by (intros t; unfold target_ok; change (zlen (mc_ops ex_m)) with 12; auto).
    split; [| split; [vm_compute; discriminate |]; split; [unfold in_i32; lia |]; split; [apply T; lia |]].
    + intros p q vp vq H (tp & P) (tq & Q).
      pose proof (znth_Some _ _ _ P) as RP. pose proof (znth_Some _ _ _ Q) as RQ. unfold zlen in RP, RQ. cbn in RP, RQ.
      assert (p = 0) by lia. assert (q = 1) by lia. subst. injection P as <- <-. injection Q as <- <-. lia.
    + repeat constructor; cbn [fst snd]; unfold in_i32; try lia; cbn; lia.
  - intros us U. vm_compute in U. injection U as <-.
    assert (GC : good_class (bytes "My::Foo")).
    { exists [bytes "My"; bytes "Foo"]. split; [discriminate |]. split.
      - repeat apply Forall_cons; try apply Forall_nil; apply good_wordb; (discriminate || reflexivity).
      - split; [reflexivity |]. intros (a & E).
        assert (L : length (join [95; 95] [bytes "My"; bytes "Foo"]) = length (a ++ bytes "basic_type")) by (rewrite E at 1; reflexivity).
        rewrite app_length in L. cbn in L. lia. }
    assert (GW : forall s, s <> [] -> forallb wordb s = true -> strstr s [95; 95] = false -> last s 0 <> 95 -> good_word s)
      by (intros; apply good_wordb; auto).
    repeat apply Forall_cons; try apply Forall_nil; (split; [exact GC |]); cbn; intros K; try congruence;
      apply GW; (discriminate || reflexivity).
Qed.

(** A method that reads the field x_ and then the field x: its generated function
    does not compile, though the method is fine in the interpreter. *)
Definition ex_bad_rt : runtime := [ex_class "Foo" [("x", 0); ("x_", 4)] []].
Definition ex_bad : method_code := {|
  mc_class := 0; mc_name := bytes "main"; mc_mortal_length := 0;
  mc_ops := [O OP_GET_FIELD_INT 0 0 0 1; O OP_GET_FIELD_INT 1 0 0 0; O OP_END_METHOD 0 0 0 0] |}.

Theorem C56_names_refuted :
  Forall (op_ok ex_bad_rt ex_bad) (mc_ops ex_bad) /\
  exists ds code, build ex_bad_rt ex_bad = Some (ds, code) /\ ~ compiles ds code.
Proof.
  split.
  - unfold ex_bad at 2. cbn [mc_ops]. repeat apply Forall_cons; try apply Forall_nil; ex_op;
      try exact I; try discriminate;
      (exists (ex_class "Foo" [("x", 0); ("x_", 4)] []); split; [vm_compute; reflexivity | vm_compute; discriminate]).
  - do 2 eexists. split; [vm_compute; reflexivity |]. intros (_ & _ & F).
    rewrite Forall_forall in F.
    specialize (F (CDo "GET_FIELD_INT" [CSym "env"; CSym "stack"; CAddr Int (bytes "1"); CRd Object (bytes "0");
                                        CId (ident (field_decl "Foo" "x")); CSym "&error_id"; CSym "object_data_offset"])).
    assert (I0 : In (ident (field_decl "Foo" "x")) (map ident (declare_all [type_decl "Foo"; field_decl "Foo" "x_"; type_decl "Foo"; field_decl "Foo" "x"]))).
    { assert (Q := F ltac:(cbn; tauto)). cbn [citem_ok] in Q. do 4 apply Forall_inv_tail in Q. apply Forall_inv in Q. exact Q. }
    vm_compute in I0. repeat destruct I0 as [I0 | I0]; try discriminate I0. exact I0.
Qed.

(** What the generator makes of the first method: the identifiers declared ... *)
Example ex_declarations :
  omap (fun x => map ident (fst x)) (build ex_rt ex_m) =
  Some (map bytes ["basic_type____My__Foo____"; "field_offset____My__Foo____y_z____";
                   "class_var____My__Foo____$COUNT____"; "method____My__Foo____new____"]).
Proof. vm_compute. reflexivity. Qed.

(** ... and the switch and the string among the statements. *)
Example ex_statements : exists ds code, build ex_rt ex_m = Some (ds, code) /\
  In (CSwitch (bytes "0") [(bytes "-3", bytes "5"); (bytes "7", bytes "6")] (bytes "8")) code /\
  In (CDo "NEW_STRING" [CSym "env"; CSym "stack"; CAddr Object (bytes "1"); CStr (bytes "\x00\xFF\x22"); CInt (bytes "3"); CSym "&error_id"]) code.
Proof. do 2 eexists. split; [vm_compute; reflexivity |]. split; cbn; tauto. Qed.

Example ex_int_min : add_int (-2147483648) = bytes "INT32_MIN" /\ add_long 5 = bytes "5LL".
Proof. split; reflexivity. Qed.

Print Assumptions C55_identifiers_partial.
Print Assumptions C55_identifiers_injective.
Print Assumptions C55_trailing_underscore_refuted.
Print Assumptions C55_clash_refuted.
Print Assumptions C55_basic_type_refuted.
Print Assumptions C56_precompiled_method_partial.
Print Assumptions C56_names_refuted.
Print Assumptions C57_int.
Print Assumptions C57_long.
Print Assumptions C57_byte.
Print Assumptions C57_string.
Print Assumptions C57_plain_partial.
Print Assumptions C57_file_name_refuted.
Print Assumptions C57_quote_refuted.
