(** * C68: the text and the ID of an exception *)
From Coq Require Import Lia.
From Verif Require Import Base CLib Dec Exc_model Exc_spec Exc_proofs.
Local Open Scope Z_scope.

(** A method that is called at depth [d], in a program that keeps within the limits,
    ends as documented: it shows and warns the same things, and it returns the error ID
    of the exception, with the message and the whole stack trace in the exception
    variable, or 0 with the documented value of the exception variable. *)
Theorem C68_text_partial methods native_message f d c v r w' :
  invokes methods native_message f d c (World v [] []) = Some (r, w') -> Forall within (events w') ->
  call methods f d c (State v []) =
    Ret (match r with
         | None => (0, State (var w') (seen w'))
         | Some x => (x_id x, State (Some (text x)) (seen w'))
         end).
Proof.
  intros H W. pose proof (follows methods native_message f) as (_ & F & _).
  destruct (F _ _ _ _ _ (State v []) H W (conj eq_refl eq_refl)) as ([x o] & R & O & X). cbn [exc out] in O, X. subst o.
  rewrite R. destruct r as [y |]; cbn [err]; [destruct X as (-> & _) | rewrite X]; reflexivity.
Qed.

(** An exception is not lost: its ID is not 0, so the caller sees it. *)
Theorem C68_thrown_partial methods native_message f d c v x w' :
  invokes methods native_message f d c (World v [] []) = Some (Some x, w') -> Forall within (events w') -> x_id x <> 0.
Proof.
  intros H W. pose proof (follows methods native_message f) as (_ & F & _).
  destruct (F _ _ _ _ _ (State v []) H W (conj eq_refl eq_refl)) as (s & _ & _ & _ & N). exact N.
Qed.

(** The message of env->die: the first 511 bytes of the documented text, if the format has
    at most 255 bytes. *)
Theorem C68_native_message_partial format args func file line t :
  documented format args func file line t -> zlen format <= 255 -> ~ In 0 t ->
  die_text format args func file line = Ret (ztake 511 t).
Proof.
  intros (ps & -> & -> & ->) L Z0. unfold die_text.
  destruct (Z.ltb_spec 255 (zlen (concat (map piece_format ps)))); [lia |]. rewrite ztake_all by lia.
  rewrite expand_pieces, expand_place. cbn [obind]. fold (native_text ps func file line).
  rewrite c_str_id; [reflexivity |]. intros K. apply Z0. unfold ztake in K.
  rewrite <- (firstn_skipn (Z.to_nat (BUFFER - 1)) (native_text ps func file line)). apply in_or_app. now left.
Qed.

(** Of a longer format exactly the first 255 bytes are used; the rest of it is dropped. *)
Theorem C68_long_format ps rest args func file line :
  zlen (concat (map piece_format ps)) = 255 -> args = concat (map piece_args ps) -> ~ In 0 (native_text ps func file line) ->
  die_text (concat (map piece_format ps) ++ rest) args func file line = Ret (ztake 511 (native_text ps func file line)).
Proof.
  intros L -> Z0. unfold die_text. rewrite zlen_app, L.
  assert (T : ztake (if 255 <? 255 + zlen rest then 255 else 255 + zlen rest) (concat (map piece_format ps) ++ rest) = concat (map piece_format ps)).
  { pose proof (zlen_nonneg rest). destruct (Z.ltb_spec 255 (255 + zlen rest)).
    - rewrite ztake_app_l, ztake_all by lia. reflexivity.
    - destruct rest as [| c r]; [rewrite app_nil_r; apply ztake_all; unfold zlen in *; cbn in *; lia | unfold zlen in *; cbn in *; lia]. }
  rewrite T, expand_pieces, expand_place. cbn [obind]. fold (native_text ps func file line).
  rewrite c_str_id; [reflexivity |]. intros K. apply Z0. unfold ztake in K.
  rewrite <- (firstn_skipn (Z.to_nat (BUFFER - 1)) (native_text ps func file line)). apply in_or_app. now left.
Qed.
Example C68_long_format_ex : zlen (concat (map piece_format (map Lit (zrep 253 97) ++ [Arg (AInt 7)]))) = 255
  /\ ~ In 0 (native_text (map Lit (zrep 253 97) ++ [Arg (AInt 7)]) (bytes "f") (bytes "g.c") 5).
Proof. split; [vm_compute; reflexivity |]. intros H. assert (F : forallb (fun c => negb (c =? 0)) (native_text (map Lit (zrep 253 97) ++ [Arg (AInt 7)]) (bytes "f") (bytes "g.c") 5) = true) by (vm_compute; reflexivity).
  rewrite forallb_forall in F. specialize (F 0 H). discriminate. Qed.

(** ** Where the implementation differs. *)
Definition Main := Info (bytes "MyClass") (bytes "main") (bytes "MyClass.spvm").
Definition one (b : stmts) : nat -> option method := fun _ => Some (Vm Main b []).
Definition no_native : str -> list arg -> str -> str -> Z -> option str := fun _ _ _ _ _ => None.
Fixpoint seq (l : list stmt) : stmts := match l with [] => Nil | s :: l => Cons s (seq l) end.

(** my $message : string; die $message; the documented message is Error. The code reads
    the length of undef. *)
Theorem C68_undef_refuted : exists p x w, (forall f, invokes p no_native (3 + f) 1 0 (World None [] []) = Some (Some x, w)) /\
  text x = bytes "Error" ++ 10 :: bytes "  MyClass->main at MyClass.spvm line 3" /\
  forall f, call p (3 + f) 1 0 (State None []) = UB.
Proof. exists (one (seq [Die_ 18 (MVal None) 3])). do 2 eexists. repeat split. Qed.

(** die 0, "x"; does not throw. *)
Theorem C68_zero_refuted : exists p x w, (forall f, invokes p no_native (3 + f) 1 0 (World None [] []) = Some (Some x, w)) /\
  x_message x = bytes "x" /\
  forall f, call p (3 + f) 1 0 (State None []) = Ret (0, State (Some (bytes "x")) []).
Proof. exists (one (seq [Die_ 0 (MVal (Some (bytes "x"))) 3])). do 2 eexists. repeat split. Qed.

(** The line of a method at a call depth of more than 100 is missing. *)
Theorem C68_depth_refuted : exists p x w, (forall f, invokes p no_native (3 + f) 101 0 (World None [] []) = Some (Some x, w)) /\
  text x = bytes "x" ++ 10 :: bytes "  MyClass->main at MyClass.spvm line 3" /\
  forall f, call p (3 + f) 101 0 (State None []) = Ret (18, State (Some (bytes "x")) []).
Proof. exists (one (seq [Die_ 18 (MVal (Some (bytes "x"))) 3])). do 2 eexists. repeat split. Qed.

(** A conversion after the first 255 bytes of the format is dropped, and the place is
    written with the wrong arguments: an integer is read as a pointer. *)
Theorem C68_format_refuted : exists format args t, documented format args (bytes "f") (bytes "g.c") 5 t /\ zlen t <= 511 /\
  die_text format args (bytes "f") (bytes "g.c") 5 = UB.
Proof.
  exists (concat (map piece_format (map Lit (zrep 255 97) ++ [Arg (AInt 7)]))), [AInt 7].
  exists (native_text (map Lit (zrep 255 97) ++ [Arg (AInt 7)]) (bytes "f") (bytes "g.c") 5).
  split; [eexists; split; [reflexivity |]; split; [vm_compute |]; reflexivity |].
  split; [vm_compute; discriminate | vm_compute; reflexivity].
Qed.

(** ** Examples. main calls f in an eval, f calls the native g, whose message passes
    through f; a DESTROY that throws at the end of f changes nothing; main sees the
    exception, throws it again and catches it again. *)
Definition F := Info (bytes "MyClass") (bytes "f") (bytes "MyClass.spvm").
Definition D := Info (bytes "Foo") (bytes "DESTROY") (bytes "Foo.spvm").
Definition program (c : nat) : option method :=
  match c with
  | 0%nat => Some (Vm Main (seq [Eval (seq [Eval (seq [Call 1 10]); Log; Branch (fun v _ => match v with Some _ => true | None => false end) (seq [Die_ 30 MExc 13]) Nil]); Log]) [])
  | 1%nat => Some (Vm F (seq [Call 2 20; Log]) [3%nat])
  | 2%nat => Some (Native [N_die (bytes "bad %s, %d%%") [AStr (bytes "arg"); AInt (-5)] (bytes "SPVM__MyClass__g") (bytes "MyClass.c") 7])
  | 3%nat => Some (Vm D (seq [Die_ 18 MNone 3]) [])
  | _ => None
  end.
Definition caught : str := bytes "bad arg, -5%" ++ 10 :: bytes "    SPVM__MyClass__g at MyClass.c line 7"
  ++ 10 :: bytes "  MyClass->f at MyClass.spvm line 20" ++ 10 :: bytes "  MyClass->main at MyClass.spvm line 10".
Example C68_ex : call program 100 1 0 (State None []) = Ret (0, State (Some (caught ++ 10 :: bytes "  MyClass->main at MyClass.spvm line 13"))
  [Warned (bytes "Error" ++ 10 :: bytes "  Foo->DESTROY at Foo.spvm line 3");
   Seen (Some caught) 18; Seen (Some (caught ++ 10 :: bytes "  MyClass->main at MyClass.spvm line 13")) 30]).
Proof. vm_compute. reflexivity. Qed.
Definition native_example (format : str) (args : list arg) (func file : str) (line : Z) : option str :=
  Some (native_text (map Lit (bytes "bad ") ++ [Arg (AStr (bytes "arg"))] ++ map Lit (bytes ", ") ++ [Arg (AInt (-5)); Lit 37]) func file line).
Example C68_ex_within : exists w, invokes program native_example 100 1 0 (World None [] []) = Some (None, w) /\ Forall within (events w).
Proof.
  eexists. split; [vm_compute; reflexivity |]. cbn [events].
  repeat match goal with |- Forall _ (_ :: _) => apply Forall_cons end; try apply Forall_nil; cbn [within].
  - split; [| split; [vm_compute; discriminate | split; [vm_compute; discriminate |]]].
    + eexists (map Lit (bytes "bad ") ++ [Arg (AStr (bytes "arg"))] ++ map Lit (bytes ", ") ++ [Arg (AInt (-5)); Lit 37]).
      split; [reflexivity | split; vm_compute; reflexivity].
    + vm_compute. intuition discriminate.
  - split; [lia |]. vm_compute. discriminate.
  - split; discriminate.
  - split; [lia |]. vm_compute. discriminate.
  - split; [lia |]. vm_compute. discriminate.
  - split; discriminate.
  - split; [lia |]. vm_compute. discriminate.
Qed.
Example C68_message_ex : documented (bytes "a%s%%") [AStr (bytes "b")] (bytes "f") (bytes "g.c") 5
  (bytes "ab%" ++ 10 :: bytes "    f at g.c line 5").
Proof. exists [Lit 97; Arg (AStr (bytes "b")); Lit 37]. vm_compute. auto. Qed.

Print Assumptions C68_text_partial.
Print Assumptions C68_thrown_partial.
Print Assumptions C68_native_message_partial.
Print Assumptions C68_undef_refuted.
Print Assumptions C68_zero_refuted.
Print Assumptions C68_depth_refuted.
Print Assumptions C68_format_refuted.
Print Assumptions C68_long_format.
