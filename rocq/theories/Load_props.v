(** * C65: which classes a compilation loads *)
From Verif Require Import Base CLib FnMem_model Toke_model Toke_spec Utf8_model Utf8_spec Lex_model Lex_spec.
From Verif Require Import Load_model Load_spec LoadText_proofs Load_proofs.

(** A compilation starts from the class that it is for and the default classes, and none
    of them may be missing. *)
Theorem C65_start default_classes n file line u :
  In u (start_uses default_classes n file line) <->
  u = Use n false file line \/ exists d, In d default_classes /\ u = Use d false d 0.
Proof.
  unfold start_uses. rewrite in_app_iff, in_concat. split.
  - intros [(l & Hl & Hu) | Hu].
    + apply in_map_iff in Hl. destruct Hl as (d & <- & Hd). right. exists d. split; [exact Hd |].
      destruct Hu as [<- | [<- | []]]; reflexivity.
    + left. destruct Hu as [<- | [<- | []]]; reflexivity.
  - intros [-> | (d & Hd & ->)]; [right; left; reflexivity |]. left. exists (api_use d d 0).
    split; [apply in_map_iff; eauto | left; reflexivity].
Qed.


(** A compilation meets every use statement, directly or not; it succeeds if and only
    if each is without an error and the checks of the loaded classes give no message.
    Then exactly the classes of the statements are added, each once. A failed
    compilation leaves the types as they were. *)
Theorem C65_compile_partial fs dirs parse core default_files default_classes check c n file line U fuel :
  let c0 := init core default_files c in
  let start := start_uses default_classes n file line in
  well_formed c ->
  (forall m f, get_class_file (class_files c0) m = Some f -> Forall text_byte (cf_content f)) ->
  (forall p t, fs p = Some t -> Forall in_u8 t) ->
  (forall u m f t, wanted fs dirs parse c0 start u -> ~ In (u_name u) (p_anon (parse m f t))) ->
  (forall u, wanted fs dirs parse c0 start u -> In (u_name u) U) ->
  (length U < fuel)%nat ->
  exists es c', compile fs dirs parse core default_files default_classes fuel check c n file line = Ret (es, c') /\ well_formed c' /\
    ((exists u, wanted fs dirs parse c0 start u /\ ~ use_ok fs dirs parse c0 u) /\ es <> [] \/
     (forall u, wanted fs dirs parse c0 start u -> use_ok fs dirs parse c0 u) /\
     exists c1, es = check c1 /\ (es = [] -> c' = c1) /\ well_formed c1 /\
       (exists new, types c1 = types c0 ++ new /\ forall m, In m new <-> added fs dirs parse c0 start m) /\
       forall m f t, source fs dirs c1 m f t <-> source fs dirs c0 m f t) /\
    (es <> [] -> types c' = types c /\ forall m, symtable c' m = symtable c m).
Proof. apply compile_ok. Qed.

(** The names, the path and the characters that are accepted. *)
Theorem C65_class_name n : check_name n = None <-> by_compiler n \/ class_name n.
Proof. apply check_name_ok. Qed.

Theorem C65_relative_path parts : Forall (Forall (fun c => c <> 58)) parts ->
  rel_path (join (bytes "::") parts) = join (bytes "/") parts ++ bytes ".spvm".
Proof. apply rel_path_ok. Qed.

Theorem C65_source_text s : Forall text_byte s ->
  exists r, check_text (length s) s 0 = Ret r /\ (r = None <-> source_text s).
Proof. apply check_text_ok. Qed.

(** ** A world: Main uses Foo and requires Baz, which is not there; Foo uses Main. The
    text of a class tells what it is. *)
Definition t_main := bytes "class Main { use Foo; }".
Definition t_foo := bytes "class Foo { use Main; }".
Definition t_bad := bytes "class Foo {".
Definition w_parse (n : name) (f : path) (t : list Z) : parsed :=
  if same_name t t_main then Parsed [bytes "Main::anon_method::1"] (Some (bytes "Main")) [Use (bytes "Foo") false f 1; Use (bytes "Baz") true f 1] false
  else if same_name t t_foo then Parsed [] (Some (bytes "Foo")) [Use (bytes "Main") false f 1] false
  else Parsed [] None [] true.
Definition w_fs (foo : list Z) (p : path) : option (list Z) :=
  if same_name p (bytes "lib/Main.spvm") then Some t_main
  else if same_name p (bytes "lib/Foo.spvm") then Some foo
  else None.
Definition w_dirs := [bytes "none"; bytes "lib"].
Definition w_core := [bytes "int"; bytes "long"].
Definition empty : compiler := Compiler [] (fun _ => None) [].
Definition w_compile (foo : list Z) (c : compiler) : outcome (list message * compiler) :=
  compile (w_fs foo) w_dirs w_parse w_core [] [] 10 (fun _ => []) c (bytes "Main") (bytes "a.pl") 1.
Definition shown (o : outcome (list message * compiler)) : option (list message * list name * list name) :=
  match o with Ret (es, c) => Some (es, types c, map fst (class_files c)) | _ => None end.
Definition then_ (o : outcome (list message * compiler)) (f : compiler -> outcome (list message * compiler)) : outcome (list message * compiler) :=
  match o with Ret (_, c) => f c | _ => o end.

Example C65_run_ex : shown (w_compile t_foo empty) =
  Some ([], [bytes "int"; bytes "long"; bytes "Main::anon_method::1"; bytes "Main"; bytes "Foo"], [bytes "Main"; bytes "Foo"]).
Proof. vm_compute. reflexivity. Qed.

Lemma w_wanted foo u : (foo = t_foo \/ foo = t_bad) ->
  wanted (w_fs foo) w_dirs w_parse (init w_core [] empty) (start_uses [] (bytes "Main") (bytes "a.pl") 1) u ->
  In (u_name u) [bytes "Main"; bytes "Foo"; bytes "Baz"].
Proof.
  intros HF. induction 1 as [u H | u f t u' WU IH N S' U'].
  - destruct H as [<- | [<- | []]]; left; reflexivity.
  - clear - U'. revert U'. unfold w_parse. destruct (same_name t t_main); [| destruct (same_name t t_foo)]; cbn [p_uses In].
    + intros [<- | [<- | []]]; cbn [u_name In]; auto.
    + intros [<- | []]; cbn [u_name In]; auto.
    + contradiction.
Qed.

(** The hypotheses hold of this world. *)
Example C65_hypotheses_ex foo : (foo = t_foo \/ foo = t_bad) ->
  well_formed empty /\
  (forall m f, get_class_file (class_files (init w_core [] empty)) m = Some f -> Forall text_byte (cf_content f)) /\
  (forall p t, w_fs foo p = Some t -> Forall in_u8 t) /\
  (forall u m f t, wanted (w_fs foo) w_dirs w_parse (init w_core [] empty) (start_uses [] (bytes "Main") (bytes "a.pl") 1) u -> ~ In (u_name u) (p_anon (w_parse m f t))) /\
  (forall u, wanted (w_fs foo) w_dirs w_parse (init w_core [] empty) (start_uses [] (bytes "Main") (bytes "a.pl") 1) u -> In (u_name u) [bytes "Main"; bytes "Foo"; bytes "Baz"]).
Proof.
  intros HF. split; [| split; [| split; [| split]]].
  - split; [constructor |]. intros n i. cbn. split; [discriminate |]. intros H. apply znth_Some in H. change (zlen []) with 0 in H. lia.
  - cbn. discriminate.
  - intros p t. unfold w_fs. assert (B : forall s, forallb (fun c => (0 <=? c) && (c <=? 255)) s = true -> Forall in_u8 s).
    { intros s H. rewrite forallb_forall in H. apply Forall_forall. intros x X. apply H in X. unfold in_u8. lia. }
    destruct (same_name p (bytes "lib/Main.spvm")); [intros [= <-]; apply B; vm_compute; reflexivity |].
    destruct (same_name p (bytes "lib/Foo.spvm")); [intros [= <-]; destruct HF; subst; apply B; vm_compute; reflexivity | discriminate].
  - intros u m f t WU AN. pose proof (w_wanted foo u HF WU) as I'. revert AN. unfold w_parse. destruct (same_name t t_main); [| destruct (same_name t t_foo); contradiction].
    cbn [p_anon In]. intros [E | []]. rewrite <- E in I'. destruct I' as [I' | [I' | [I' | []]]]; apply (f_equal (@length Z)) in I'; vm_compute in I'; discriminate.
  - intros u. apply w_wanted. exact HF.
Qed.

(** A failed compilation leaves no type behind. *)
Example C65_failed_ex : shown (w_compile t_bad empty) = Some ([(Parse_error, bytes "Foo"); (Parse_error, bytes "Foo")], [], [bytes "Foo"]).
Proof. vm_compute. reflexivity. Qed.

(** ** What a user may expect and what does not hold *)

(** After a syntax error in a file the corrected file is not read: the old text stays
    with the compiler, because the class was not defined. *)
Theorem C65_corrected_file_refuted :
  exists bad good, shown (w_compile good empty) = Some ([], [bytes "int"; bytes "long"; bytes "Main::anon_method::1"; bytes "Main"; bytes "Foo"], [bytes "Main"; bytes "Foo"]) /\
    exists c es, w_compile bad empty = Ret (es, c) /\ types c = [] /\ exists es' c', w_compile good c = Ret (es', c') /\ es' <> [].
Proof.
  exists t_bad, t_foo. split; [vm_compute; reflexivity |]. destruct (w_compile t_bad empty) as [(es, c) | | |] eqn:E; try (vm_compute in E; discriminate). exists c, es. split; [reflexivity |].
  assert (T : types c = []). { pose proof (f_equal shown E) as H. vm_compute in H. injection H as _ H _. symmetry. exact H. } split; [exact T |].
  assert (R : exists es' c', then_ (w_compile t_bad empty) (w_compile t_foo) = Ret (es', c') /\ es' <> []) by (vm_compute; eexists _, _; split; [reflexivity | discriminate]).
  rewrite E in R. exact R.
Qed.

(** The class files that were given to the compiler are not as before after a failed
    compilation: the one of a class that was loaded is gone. *)
Definition given : compiler := Compiler [] (fun _ => None) [(bytes "Main", ClassFile None None (bytes "Main.spvm") t_main)].
Theorem C65_given_file_refuted :
  exists f es c, get_class_file (class_files given) (bytes "Main") = Some f /\ w_compile t_bad given = Ret (es, c) /\ es <> [] /\ get_class_file (class_files c) (bytes "Main") = None.
Proof.
  destruct (w_compile t_bad given) as [(es, c) | | |] eqn:E; try (vm_compute in E; discriminate). exists (ClassFile None None (bytes "Main.spvm") t_main), es, c.
  split; [vm_compute; reflexivity |]. split; [reflexivity |].
  assert (H : match w_compile t_bad given with Ret (es, c) => es <> [] /\ get_class_file (class_files c) (bytes "Main") = None | _ => False end) by (vm_compute; split; [discriminate | reflexivity]).
  rewrite E in H. exact H.
Qed.

(** The text of a file behind a 0 is not looked at: it need not be a source text. *)
Theorem C65_nul_byte_refuted :
  exists foo c, Forall in_u8 foo /\ ~ source_text foo /\ w_compile foo empty = Ret ([], c).
Proof.
  exists (t_foo ++ [0; 255]). destruct (w_compile (t_foo ++ [0; 255]) empty) as [(es, c) | | |] eqn:E; try (vm_compute in E; discriminate). exists c. split; [| split].
  - assert (B : forall s, forallb (fun c => (0 <=? c) && (c <=? 255)) s = true -> Forall in_u8 s).
    { intros s H. rewrite forallb_forall in H. apply Forall_forall. intros x X. apply H in X. unfold in_u8. lia. }
    apply B. vm_compute. reflexivity.
  - intros (cps & W & F). remember (t_foo ++ [0; 255]) as s eqn:ES. assert (L : exists a, s = a ++ [255]) by (exists (t_foo ++ [0]); rewrite ES, <- app_assoc; reflexivity). clear ES E c.
    induction W as [| c cp s cps WC WS IH]; [destruct L as ([| x a] & L); discriminate |]. inversion F; subst. destruct s as [| x s].
    + rewrite app_nil_r in L. destruct L as (a & ->). clear - WC. inversion WC; subst; unfold tail_byte, byte_in in *;
        repeat match goal with H : _ = a ++ [255] |- _ => destruct a as [| ? a]; cbn in H; try discriminate H; injection H as; subst; try lia end.
    + apply IH; [assumption |]. destruct L as (a & L). exists (firstn (length (x :: s) - 1) (x :: s)).
      assert (LST : last (c ++ x :: s) 0 = 255) by (rewrite L; apply last_last). clear - LST.
      assert (Q : last (x :: s) 0 = 255). { rewrite <- LST. clear. induction c as [| y c IH]; [reflexivity |]. cbn [app]. rewrite IH. destruct (c ++ x :: s) eqn:E; [destruct c; discriminate |]. reflexivity. }
      rewrite <- Q. replace (firstn (length (x :: s) - 1) (x :: s)) with (removelast (x :: s)); [apply app_removelast_last; discriminate |]. rewrite removelast_firstn_len. f_equal. cbn. lia.
  - assert (H : match w_compile (t_foo ++ [0; 255]) empty with Ret (es, _) => es = [] | _ => False end) by (vm_compute; reflexivity). rewrite E in H. rewrite H. reflexivity.
Qed.

Example C65_class_name_ex : check_name (bytes "Foo::Bar_2") = None /\ check_name (bytes "Foo::bar") = Some Name_part_lower /\ check_name (bytes "Foo::2") = None.
Proof. vm_compute. auto. Qed.
Example C65_relative_path_ex : rel_path (bytes "Foo::Bar::Baz") = bytes "Foo/Bar/Baz.spvm".
Proof. reflexivity. Qed.
Example C65_source_text_ex : check_text 5 [97; 10; 227; 129; 130] 0 = Ret None /\ check_text 3 [97; 13; 10] 0 = Ret (Some Carriage_return).
Proof. vm_compute. auto. Qed.

Print Assumptions C65_start.
Print Assumptions C65_compile_partial.
Print Assumptions C65_class_name.
Print Assumptions C65_relative_path.
Print Assumptions C65_source_text.
Print Assumptions C65_corrected_file_refuted.
Print Assumptions C65_given_file_refuted.
Print Assumptions C65_nul_byte_refuted.
