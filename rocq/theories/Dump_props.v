(** * C60: the dump operator *)

From Verif Require Import Base Utf8_spec Dec Dump_model Dump_spec Dump_proofs.

(** [fmt_p] prints different addresses of objects differently; strings consist
    of bytes; there is no object at the null address. *)
Definition heap_ok (heap : Z -> option object) (fmt_p : Z -> list Z) : Prop :=
  (forall a b, heap a <> None -> heap b <> None -> fmt_p a = fmt_p b -> a = b) /\
  (forall a s, heap a = Some (OString s) -> Forall in_u8 s) /\ heap 0 = None.

(** ** What is shown *)

(** For every heap and every object: if the dump ends, it is the text of a tree
    that shows the object, in which the fields of an instance of a class are
    shown at its first occurrence and only there, and every instance that can
    be reached is shown. *)
Theorem C60_dump : forall heap fmt_g fmt_p fuel p s, heap_ok heap fmt_p -> address p = p ->
  dump heap fmt_g fmt_p fuel p = Ret s ->
  exists t, represents heap p t /\ s = text fmt_g fmt_p 0 t /\ first_in_full (marks t) /\
    forall q ty fields, reaches heap p q -> heap (address q) = Some (OClass ty fields) -> In (address q, true) (marks t).
Proof.
  intros heap fmt_g fmt_p fuel p s (INJ & BYTES & NULL) A E. unfold dump in E.
  destruct (dump_recursive heap fmt_g fmt_p fuel 0 p ([], [])) as [st | | |] eqn:Q; cbn [obind] in E; try discriminate.
  inversion E; subst. change ([], []) with (mkst fmt_p [] []) in Q.
  apply (sound heap fmt_g fmt_p INJ BYTES) in Q; auto; [| intros a []].
  destruct Q as (t & R & seen & -> & W & K). exists t. split; auto. split; [reflexivity |].
  pose proof (walk_first_in_full _ _ W) as F. split; auto. intros q ty fields H C.
  destruct (covered heap ltac:(intros o X; congruence) p t R F) with (q := q) as (u & S & U & Fu); auto.
  { destruct t as [| | | a | | |]; try exact Logic.I. cbn in F.
    assert (X : false = true) by (apply (F [] a false []); auto). discriminate X. }
  apply (subtree_marks _ _ S). destruct U; cbn in *; try congruence; auto.
Qed.

(** ** It ends *)

(** The dump ends if no array contains itself other than through an instance
    of a class. Cycles of instances are allowed. *)
Theorem C60_ends : forall heap fmt_g fmt_p p, heap_ok heap fmt_p -> address p = p ->
  (p = 0 \/ heap p <> None) -> no_dangling heap -> finite heap -> arrays_acyclic heap ->
  exists s n, forall fuel, (n <= fuel)%nat -> dump heap fmt_g fmt_p fuel p = Ret s.
Proof.
  intros heap fmt_g fmt_p p (INJ & BYTES & NULL) A H D (classes & C) (rank & R).
  destruct (all_end heap fmt_g fmt_p INJ BYTES D classes C rank R (unseen classes []) p A H) as (n & E).
  destruct (E n (le_n n) 0%nat [] [] ltac:(intros a []) (le_n _)) as (st & Es).
  exists (fst st), n. intros fuel L. unfold dump. change ([], []) with (mkst fmt_p [] []).
  rewrite (dump_mono _ _ _ _ _ _ _ _ Es fuel L). reflexivity.
Qed.

(** An array of objects that contains itself is dumped forever (in C: until
    the stack overflows). *)
Definition loop_heap (a : Z) : option object :=
  if a =? 2 then Some (OObjects [111; 98; 106; 101; 99; 116] 1 [2]) else None.

Theorem C60_cyclic_array_refuted : forall fmt_g fmt_p fuel, dump loop_heap fmt_g fmt_p fuel 2 = Fuel.
Proof.
  intros fmt_g fmt_p fuel. unfold dump.
  assert (X : forall depth st, dump_recursive loop_heap fmt_g fmt_p fuel depth 2 st = Fuel).
  { induction fuel as [| fuel IH]; intros depth st; [reflexivity |].
    change (dump_recursive loop_heap fmt_g fmt_p (S fuel) depth 2 st) with
      (let! st := items (fun q st => dump_recursive loop_heap fmt_g fmt_p fuel (depth + 1) (no_weaken_address q) (add st (spaces (depth + 1))))
                    [2] (add st [91; 10]) in Ret (add st (array_end fmt_p depth [111; 98; 106; 101; 99; 116] 1 2))).
    cbn [items]. change (no_weaken_address 2) with 2. rewrite IH. reflexivity. }
  rewrite X. reflexivity.
Qed.

(** The dump of a string does not determine the string: the byte 0 and the six
    characters backslash x { 0 0 } are shown alike. *)
Theorem C60_string_refuted : forall fmt_g fmt_p, let one s := fun a => if a =? 2 then Some (OString s) else None in
  dump (one [0]) fmt_g fmt_p 1 2 = dump (one [92; 120; 123; 48; 48; 125]) fmt_g fmt_p 1 2 /\
  dump (one [0]) fmt_g fmt_p 1 2 = Ret [34; 92; 120; 123; 48; 48; 125; 34].
Proof. intros fmt_g fmt_p one. split; vm_compute; reflexivity. Qed.

(** The closing brace of an element of an array of multi-numeric type is
    indented by two spaces at every depth: here at depth 1, where the element
    itself is indented by four. *)
Definition nested_heap (a : Z) : option object :=
  if a =? 2 then Some (OObjects [80] 2 [4])
  else if a =? 4 then Some (OMulnums [80] [[120]] [[NInt 7]]) else None.

Theorem C60_indent_refuted : forall fmt_g, dump nested_heap fmt_g (fun a => [48 + a]) 2 2 =
  Ret ([91; 10] ++ [32; 32] ++ [91; 10] ++ [32; 32; 32; 32] ++ [123; 10] ++ [32; 32; 32; 32; 32; 32] ++ [120; 32; 61; 62; 32; 55; 10]
       ++ [32; 32] ++ [125; 10] ++ [32; 32] ++ [93; 32; 58; 32; 80; 91; 93; 40; 52; 41; 10]
       ++ [93; 32; 58; 32; 80; 91; 93; 91; 93; 40; 50; 41]).
Proof. intros. vm_compute. reflexivity. Qed.

(** ** The hypotheses are met *)

(** A node that is its own successor (through a weak reference), with a name
    and a list that contains the node and undef. *)
Definition ex_heap (a : Z) : option object :=
  if a =? 2 then Some (OClass [78] [([110; 97], FRef 4); ([110; 120], FRef 3); ([108], FRef 6); ([105], FNum (NInt (-5)))])
  else if a =? 4 then Some (OString [65; 1; 255; 195; 169])
  else if a =? 6 then Some (OObjects [78] 1 [2; 0]) else None.
Definition ex_p (a : Z) : list Z := [48 + a].

Example C60_example :
  heap_ok ex_heap ex_p /\ no_dangling ex_heap /\ finite ex_heap /\ arrays_acyclic ex_heap /\
  forall fmt_g, dump ex_heap fmt_g ex_p 4 2 =
    Ret ([78; 32; 40; 50; 41; 32; 123; 10]
         ++ [32; 32] ++ [110; 97; 32; 61; 62; 32] ++ [34; 65; 92; 120; 123; 48; 49; 125; 92; 120; 123; 70; 70; 125; 195; 169; 34; 44; 10]
         ++ [32; 32] ++ [110; 120; 32; 61; 62; 32] ++ [82; 69; 85; 83; 69; 95; 79; 66; 74; 69; 67; 84; 40; 50; 41; 44; 10]
         ++ [32; 32] ++ [108; 32; 61; 62; 32; 91; 10]
         ++ [32; 32; 32; 32] ++ [82; 69; 85; 83; 69; 95; 79; 66; 74; 69; 67; 84; 40; 50; 41; 44; 10]
         ++ [32; 32; 32; 32] ++ [117; 110; 100; 101; 102; 10]
         ++ [32; 32] ++ [93; 32; 58; 32; 78; 91; 93; 40; 54; 41; 44; 10]
         ++ [32; 32] ++ [105; 32; 61; 62; 32; 45; 53; 10] ++ [125]).
Proof.
  assert (CASES : forall a o, ex_heap a = Some o -> a = 2 \/ a = 4 \/ a = 6).
  { intros a o. unfold ex_heap. destruct (Z.eqb_spec a 2); auto. destruct (Z.eqb_spec a 4); auto.
    destruct (Z.eqb_spec a 6); auto. discriminate. }
  split; [split; [| split] | split; [| split; [| split]]].
  - intros a b _ _ E. unfold ex_p in E. inversion E. lia.
  - intros a s E. destruct (CASES _ _ E) as [-> | [-> | ->]]; inversion E.
    repeat (apply Forall_cons; [unfold in_u8; lia |]). apply Forall_nil.
  - reflexivity.
  - intros p q [(ty & dim & l & E & I) | (ty & fields & name & E & I)];
      destruct (CASES _ _ E) as [Q | [Q | Q]]; rewrite Q in E; inversion E; subst.
    + destruct I as [<- | [<- | []]]; [right; discriminate | left; reflexivity].
    + repeat destruct I as [I | I]; inversion I; subst; right; discriminate.
  - exists [2; 4; 6]. intros a ty fields E. destruct (CASES _ _ E) as [-> | [-> | ->]]; cbn; auto.
  - exists (fun _ => 0%nat). intros a ty dim l q ty' dim' l' E I E'.
    destruct (CASES _ _ E) as [-> | [-> | ->]]; inversion E; subst. destruct I as [<- | [<- | []]]; discriminate E'.
  - intros fmt_g. vm_compute. reflexivity.
Qed.

Print Assumptions C60_dump.
Print Assumptions C60_ends.
Print Assumptions C60_cyclic_array_refuted.
Print Assumptions C60_string_refuted.
Print Assumptions C60_indent_refuted.
