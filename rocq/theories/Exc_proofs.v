(** * Exceptions: proofs *)
From Coq Require Import Lia.
From Verif Require Import Base CLib Dec Exc_model Exc_spec.
Local Open Scope Z_scope.

(** ** Messages *)
Lemma expand_pieces ps rest as_ :
  expand (concat (map piece_format ps) ++ rest) (concat (map piece_args ps) ++ as_)
  = let! r := expand rest as_ in Ret (concat (map piece_text ps) ++ r).
Proof.
  induction ps as [| p ps IH]; cbn [map concat app].
  - destruct (expand rest as_); reflexivity.
  - rewrite <- !app_assoc. destruct p as [c | [s | z]]; cbn [piece_format piece_args piece_text].
    + destruct (Z.eqb_spec c 37) as [-> | N].
      * cbn [app expand]. change (37 =? 37) with true. cbn iota. change (37 =? 115) with false.
        change ((37 =? 100) || (37 =? 105)) with false. cbn iota. rewrite IH. destruct (expand rest as_); reflexivity.
      * cbn [app expand]. destruct (Z.eqb_spec c 37); [congruence |]. rewrite IH. destruct (expand rest as_); reflexivity.
    + cbn [app expand]. change (37 =? 37) with true. change (115 =? 115) with true. cbn iota. rewrite IH.
      destruct (expand rest as_); cbn [obind]; rewrite <- ?app_assoc; reflexivity.
    + cbn [app expand]. change (37 =? 37) with true. change (100 =? 115) with false. change ((100 =? 100) || (100 =? 105)) with true.
      cbn iota. rewrite IH. destruct (expand rest as_); cbn [obind]; rewrite <- ?app_assoc; reflexivity.
Qed.
Lemma expand_place func file line :
  expand place_format [AStr func; AStr file; AInt line]
  = Ret (10 :: bytes "    " ++ func ++ bytes " at " ++ file ++ bytes " line " ++ print_dec line).
Proof.
  assert (E : place_format = concat (map piece_format (map Lit (10 :: bytes "    ") ++ [Arg (AStr func)] ++ map Lit (bytes " at ")
     ++ [Arg (AStr file)] ++ map Lit (bytes " line ") ++ [Arg (AInt line)]))) by reflexivity.
  rewrite E. rewrite <- (app_nil_r (concat _)).
  match goal with |- expand (concat (map piece_format ?ps) ++ []) _ = _ => pose proof (expand_pieces ps [] []) as H end.
  cbn [map concat app piece_args bytes] in H. rewrite app_nil_r in H. cbn [map concat app piece_args bytes].
  etransitivity; [exact H |]. cbn [expand obind piece_text]. rewrite !app_nil_r. reflexivity.
Qed.
Lemma c_str_id l : ~ In 0 l -> c_str l = l.
Proof.
  induction l as [| c l IH]; intros H; [reflexivity |]. cbn [c_str].
  destruct (Z.eqb_spec c 0) as [-> |]; [exfalso; apply H; now left |]. rewrite IH; [reflexivity |]. intros K. apply H. now right.
Qed.
Lemma die_text_ok format args func file line t :
  documented format args func file line t -> zlen format <= 255 -> zlen t <= 511 -> ~ In 0 t ->
  die_text format args func file line = Ret t.
Proof.
  intros (ps & -> & -> & ->) L T Z0. unfold die_text.
  destruct (Z.ltb_spec 255 (zlen (concat (map piece_format ps)))); [lia |]. rewrite ztake_all by lia.
  rewrite expand_pieces, expand_place. cbn [obind]. fold (native_text ps func file line).
  rewrite ztake_all by (unfold BUFFER; lia). now rewrite c_str_id.
Qed.

(** ** Stack traces *)
Lemma text_through x i line : text (through x i line) = text x ++ trace_line (i, line).
Proof. unfold text, through. cbn [x_message x_places]. rewrite map_app, concat_app, app_assoc. cbn. now rewrite app_nil_r. Qed.
Lemma wrap32_id z : in_i32 z -> wrap32 z = z.
Proof. unfold in_i32, wrap32, wrap. intros H. rewrite Z.mod_small; lia. Qed.
Lemma trace_ok d t i line : d <= 100 -> zlen (t ++ trace_line (i, line)) <= INT32_MAX ->
  new_stack_trace d (Some t) i line = Ret (Some (t ++ trace_line (i, line))).
Proof.
  intros D L. unfold new_stack_trace. destruct (Z.ltb_spec 100 d); [lia |].
  assert (E : zlen (t ++ trace_line (i, line)) = zlen t + zlen new_line_part + zlen (i_class i) + zlen (bytes "->") + zlen (i_name i)
                           + zlen (bytes " at ") + zlen (i_file i) + zlen (bytes " line ") + zlen (print_dec line)).
  { unfold trace_line, zlen. cbn [fst snd]. rewrite app_length. cbn [length]. rewrite !app_length. cbn [length bytes new_line_part]. lia. }
  rewrite <- E. rewrite wrap32_id by (unfold in_i32; unfold zlen in *; lia).
  destruct (Z.ltb_spec (zlen (t ++ trace_line (i, line))) 0); [unfold zlen in *; lia |].
  change (t ++ new_line_part ++ i_class i ++ bytes "->" ++ i_name i ++ bytes " at " ++ i_file i ++ bytes " line " ++ print_dec line)
    with (t ++ trace_line (i, line)).
  now rewrite Z.eqb_refl.
Qed.

Section Proofs.
  Variable methods : nat -> option method.
  Variable nm : str -> list arg -> str -> str -> Z -> option str.
  Notation does := (does methods nm).
  Notation invokes := (invokes methods nm).
  Notation natively := (natively methods nm).
  Notation frees := (frees methods nm).
  Notation frees_all := (frees_all methods nm).
  Notation run := (run methods).
  Notation call := (call methods).
  Notation run_native := (run_native methods).
  Notation destroy := (destroy methods).
  Notation destroy_all := (destroy_all methods).

  Lemma does_S f (d : Z) (i : info) (b : stmts) (e : Z) (w : world) : does (S f) d i b e w =
        match b with
        | Nil => Some (None, e, w)
        | Cons (Die_ id m line) _ =>
            let x := Ex id (or_error (operand m w)) [(i, line)] in
            Some (Some x, e, w_event (w_event w (Died id (operand m w))) (Passed d x))
        | Cons (Call c line) b =>
            match invokes f (d + 1) c w with
            | None => None
            | Some (None, w) => does f d i b e w
            | Some (Some x, w) => Some (Some (through x i line), e, w_event w (Passed d (through x i line)))
            end
        | Cons (Eval b1) b =>
            match does f d i b1 0 (w_var w None) with
            | None => None
            | Some (None, e, w) => does f d i b e w
            | Some (Some x, _, w) => does f d i b (x_id x) (w_var w (Some (text x)))
            end
        | Cons (Branch g b1 b2) b =>
            match does f d i (if g (var w) e then b1 else b2) e w with
            | Some (None, e, w) => does f d i b e w
            | r => r
            end
        | Cons (Set_exc v) b => does f d i b e (w_var w v)
        | Cons Log b => does f d i b e (w_see w (Seen (var w) e))
        | Cons (Free c) b => match frees f (d + 1) c w with None => None | Some w => does f d i b e w end
        end.
  Proof. reflexivity. Qed.
  Lemma invokes_S f (d : Z) (c : nat) (w : world) : invokes (S f) d c w =
        if 1000 <? d then Some (Some (Ex 18 too_deep []), w)
        else match methods c with
        | None => None
        | Some (Vm i b l) =>
            match does f d i b 0 w with
            | None => None
            | Some (x, _, w) => match frees_all f (d + 1) l w with None => None | Some w => Some (x, w) end
            end
        | Some (Native b) => natively f d b w
        end.
  Proof. reflexivity. Qed.
  Lemma natively_S f (d : Z) (b : list native) (w : world) : natively (S f) d b w =
        match b with
        | [] => Some (None, w)
        | N_die format args func file line :: _ =>
            match nm format args func file line with
            | None => None
            | Some t => Some (Some (Ex 18 t []), w_event w (Formatted format args func file line t))
            end
        | N_call c :: b =>
            match invokes f (d + 1) c w with Some (None, w) => natively f d b w | r => r end
        | N_try c :: b =>
            match invokes f (d + 1) c w with
            | None => None
            | Some (None, w) => natively f d b w
            | Some (Some x, w) => natively f d b (w_var w (Some (text x)))
            end
        | N_set v :: b => natively f d b (w_var w v)
        | N_return id :: _ =>
            Some (if id =? 0 then None else Some (Ex id (or_error (var w)) []), w)
        end.
  Proof. reflexivity. Qed.
  Lemma frees_S f (d : Z) (c : nat) (w : world) : frees (S f) d c w =
        match invokes f d c (w_var w None) with
        | None => None
        | Some (None, w') => Some (w_var w' (var w))
        | Some (Some x, w') => Some (w_var (w_see w' (Warned (c_str (text x)))) (var w))
        end.
  Proof. reflexivity. Qed.
  Lemma frees_all_S f (d : Z) (l : list nat) (w : world) : frees_all (S f) d l w =
        match l with
        | [] => Some w
        | c :: l => match frees f d c w with None => None | Some w => frees_all f d l w end
        end.
  Proof. reflexivity. Qed.
  Lemma run_S f (d : Z) (i : info) (b : stmts) (e : Z) (s : state) : run (S f) d i b e s =
        match b with
        | Nil => Ret (0, e, s)
        | Cons (Die_ id m line) b =>
            let s := set_exc s (message_value m s) in
            if id =? 0 then run f d i b e s
            else let! x := new_stack_trace d (exc s) i line in Ret (id, e, set_exc s x)
        | Cons (Call c line) b =>
            let! (err, s) := call f (d + 1) c s in
            if err =? 0 then run f d i b e s
            else let! x := new_stack_trace d (exc s) i line in Ret (err, e, set_exc s x)
        | Cons (Eval b1) b =>
            let! (err, e, s) := run f d i b1 0 (set_exc s None) in
            if err =? 0 then run f d i b e s else run f d i b err s
        | Cons (Branch g b1 b2) b =>
            let! (err, e, s) := run f d i (if g (exc s) e then b1 else b2) e s in
            if err =? 0 then run f d i b e s else Ret (err, e, s)
        | Cons (Set_exc v) b => run f d i b e (set_exc s v)
        | Cons Log b => run f d i b e (log s (Seen (exc s) e))
        | Cons (Free c) b => let! s := destroy f (d + 1) c s in run f d i b e s
        end.
  Proof. reflexivity. Qed.
  Lemma call_S f (d : Z) (c : nat) (s : state) : call (S f) d c s =
        if MAX_CALL_DEPTH <? d then
          let! t := die_text deep_format [AInt MAX_CALL_DEPTH] (bytes "SPVM_API_call_method_common") (bytes "spvm_api.c") 4803 in
          Ret (ERROR_CLASS, set_exc s (Some t))
        else match methods c with
        | None => UB
        | Some (Vm i b l) =>
            let! (err, _, s) := run f d i b 0 s in
            let! s := destroy_all f (d + 1) l s in Ret (err, s)
        | Some (Native b) =>
            let! (err, s) := run_native f d b s in
            if negb (err =? 0) && match exc s with None => true | _ => false end
            then Ret (err, set_exc s (Some (bytes "Error"))) else Ret (err, s)
        end.
  Proof. reflexivity. Qed.
  Lemma run_native_S f (d : Z) (b : list native) (s : state) : run_native (S f) d b s =
        match b with
        | [] => Ret (0, s)
        | N_die format args func file line :: _ =>
            let! t := die_text format args func file line in Ret (ERROR_CLASS, set_exc s (Some t))
        | N_call c :: b =>
            let! (err, s) := call f (d + 1) c s in
            if err =? 0 then run_native f d b s else Ret (err, s)
        | N_try c :: b => let! (err, s) := call f (d + 1) c s in run_native f d b s
        | N_set v :: b => run_native f d b (set_exc s v)
        | N_return id :: _ => Ret (id, s)
        end.
  Proof. reflexivity. Qed.
  Lemma destroy_S f (d : Z) (c : nat) (s : state) : destroy (S f) d c s =
        let saved := exc s in
        let! (err, s) := call f d c (set_exc s None) in
        if err =? 0 then Ret (set_exc s saved)
        else match exc s with
        | None => UB
        | Some t => Ret (set_exc (log s (Warned (c_str t))) saved)
        end.
  Proof. reflexivity. Qed.
  Lemma destroy_all_S f (d : Z) (l : list nat) (s : state) : destroy_all (S f) d l s =
        match l with
        | [] => Ret s
        | c :: l => let! s := destroy f d c s in destroy_all f d l s
        end.
  Proof. reflexivity. Qed.

  Definition more (w w' : world) : Prop := exists l, events w' = events w ++ l.
  Lemma more_refl w : more w w.
  Proof. exists []. now rewrite app_nil_r. Qed.
  Lemma more_trans a b c : more a b -> more b c -> more a c.
  Proof. intros (l & H1) (k & H2). exists (l ++ k). now rewrite H2, H1, app_assoc. Qed.
  Lemma more_var a v b : more (w_var a v) b -> more a b.
  Proof. exact (fun H => H). Qed.
  Lemma more_event w e : more w (w_event w e).
  Proof. exists [e]. reflexivity. Qed.
  Lemma more_see a e b : more (w_see a e) b -> more a b.
  Proof. exact (fun H => H). Qed.
  Lemma more_to w w' v : more w w' -> more w (w_var w' v).
  Proof. exact (fun H => H). Qed.
  Lemma more_to_see w w' v : more w w' -> more w (w_see w' v).
  Proof. exact (fun H => H). Qed.
  Lemma within_less w w' : more w w' -> Forall within (events w') -> Forall within (events w).
  Proof. intros (l & H) F. rewrite H in F. now apply Forall_app in F. Qed.

  Lemma grows f :
    (forall d i b e w r e' w', does f d i b e w = Some (r, e', w') -> more w w') /\
    (forall d c w r w', invokes f d c w = Some (r, w') -> more w w') /\
    (forall d b w r w', natively f d b w = Some (r, w') -> more w w') /\
    (forall d c w w', frees f d c w = Some w' -> more w w') /\
    (forall d l w w', frees_all f d l w = Some w' -> more w w').
  Proof.
    induction f as [| f (H1 & H2 & H3 & H4 & H5)]; [repeat apply conj; intros; discriminate |].
    repeat apply conj.
    - intros d i b e w r e' w' H. rewrite does_S in H. destruct b as [| st b]; [injection H as <- <- <-; apply more_refl |].
      destruct st as [id m line | c line | b1 | g b1 b2 | v | | c].
      + injection H as <- <- <-. eapply more_trans; apply more_event.
      + destruct (invokes f (d + 1) c w) as [[[x |] w1] |] eqn:E; [| | discriminate]; apply H2 in E.
        * injection H as <- <- <-. eapply more_trans; [exact E | apply more_event].
        * eapply more_trans; [exact E | eauto].
      + destruct (does f d i b1 0 (w_var w None)) as [[[[x |] e1] w1] |] eqn:E; [| | discriminate]; apply H1 in E; apply more_var in E;
          (eapply more_trans; [exact E | apply H1 in H; exact H]).
      + destruct (does f d i (if g (var w) e then b1 else b2) e w) as [[[[x |] e1] w1] |] eqn:E; [| | discriminate]; apply H1 in E.
        * injection H as <- <- <-. exact E.
        * eapply more_trans; [exact E | eauto].
      + apply H1 in H. exact H.
      + apply H1 in H. exact H.
      + destruct (frees f (d + 1) c w) as [w1 |] eqn:E; [| discriminate]. apply H4 in E. eapply more_trans; [exact E | eauto].
    - intros d c w r w' H. rewrite invokes_S in H. destruct (1000 <? d); [injection H as <- <-; apply more_refl |].
      destruct (methods c) as [[i b l | b] |]; [| eauto | discriminate].
      destruct (does f d i b 0 w) as [[[x e1] w1] |] eqn:E; [| discriminate]. apply H1 in E.
      destruct (frees_all f (d + 1) l w1) as [w2 |] eqn:E2; [| discriminate]. apply H5 in E2. injection H as <- <-.
      eapply more_trans; eassumption.
    - intros d b w r w' H. rewrite natively_S in H. destruct b as [| [format args func file line | c | c | v | id] b].
      + injection H as <- <-. apply more_refl.
      + destruct (nm format args func file line); [| discriminate]. injection H as <- <-. apply more_event.
      + destruct (invokes f (d + 1) c w) as [[[x |] w1] |] eqn:E; [| | discriminate]; apply H2 in E.
        * injection H as <- <-. exact E.
        * eapply more_trans; [exact E | eauto].
      + destruct (invokes f (d + 1) c w) as [[[x |] w1] |] eqn:E; [| | discriminate]; apply H2 in E;
          (eapply more_trans; [exact E | apply H3 in H; exact H]).
      + apply H3 in H. exact H.
      + injection H as <- <-. apply more_refl.
    - intros d c w w' H. rewrite frees_S in H.
      destruct (invokes f d c (w_var w None)) as [[[x |] w1] |] eqn:E; [| | discriminate]; apply H2 in E; injection H as <-; exact E.
    - intros d l w w' H. rewrite frees_all_S in H. destruct l as [| c l]; [injection H as <-; apply more_refl |].
      destruct (frees f d c w) as [w1 |] eqn:E; [| discriminate]. apply H4 in E. eapply more_trans; [exact E | eauto].
  Qed.

  Definition err (r : option ex) : Z := match r with None => 0 | Some x => x_id x end.
  (** The state of the code after a method has ended. *)
  Definition ends (r : option ex) (s : state) (w : world) : Prop :=
    out s = seen w /\ match r with None => exc s = var w | Some x => exc s = Some (text x) /\ x_id x <> 0 end.

  Lemma pass d x i line s w : Forall within (events (w_event w (Passed d (through x i line)))) -> exc s = Some (text x) ->
    new_stack_trace d (exc s) i line = Ret (Some (text (through x i line))).
  Proof.
    intros W ->. cbn [w_event events] in W. apply Forall_app in W as (_ & W). apply Forall_inv in W as (D & L). rewrite text_through in *.
    now apply trace_ok.
  Qed.

  Lemma follows f :
    (forall d i b e w r e' w' s, does f d i b e w = Some (r, e', w') -> Forall within (events w') -> ends None s w ->
       exists s', run f d i b e s = Ret (err r, e', s') /\ ends r s' w') /\
    (forall d c w r w' s, invokes f d c w = Some (r, w') -> Forall within (events w') -> ends None s w ->
       exists s', call f d c s = Ret (err r, s') /\ ends r s' w') /\
    (forall d b w r w' s, natively f d b w = Some (r, w') -> Forall within (events w') -> ends None s w ->
       exists s', run_native f d b s = Ret (err r, s') /\ out s' = seen w' /\
         match r with None => exc s' = var w' | Some x => or_error (exc s') = text x /\ x_id x <> 0 end) /\
    (forall d c w w' s, frees f d c w = Some w' -> Forall within (events w') -> out s = seen w ->
       exists s', destroy f d c s = Ret s' /\ out s' = seen w' /\ exc s' = exc s /\ var w' = var w) /\
    (forall d l w w' s, frees_all f d l w = Some w' -> Forall within (events w') -> out s = seen w ->
       exists s', destroy_all f d l s = Ret s' /\ out s' = seen w' /\ exc s' = exc s /\ var w' = var w).
  Proof.
    induction f as [| f (H1 & H2 & H3 & H4 & H5)]; [repeat apply conj; intros; discriminate |].
    pose proof (grows f) as (G1 & G2 & G3 & G4 & G5).
    repeat apply conj.
    - intros d i b e w r e' w' s H W (O & X). rewrite does_S in H; rewrite run_S.
      destruct b as [| st b]; [injection H as <- <- <-; exists s; repeat split; assumption |].
      destruct st as [id m line | c line | b1 | g b1 b2 | v | | c].
      + injection H as <- <- <-. cbn [w_event events] in W. rewrite <- app_assoc in W. apply Forall_app in W as (_ & W).
        pose proof (Forall_inv W) as (I & M). apply Forall_inv_tail in W. apply Forall_inv in W as (D & L). cbn [err x_id].
        destruct (Z.eqb_spec id 0); [congruence |].
        assert (E : message_value m s = operand m w) by (destruct m; cbn; auto). rewrite E.
        destruct (operand m w) as [t |] eqn:T; [| congruence]. cbn [set_exc exc or_error] in *.
        change (text (Ex id t [(i, line)])) with (t ++ trace_line (i, line) ++ []) in L. rewrite app_nil_r in L.
        rewrite trace_ok by assumption. cbn [obind]. eexists. split; [reflexivity |]. split; [exact O |].
        split; [| exact I]. cbn [set_exc exc]. unfold text. cbn [x_message x_places map concat]. now rewrite app_nil_r.
      + destruct (invokes f (d + 1) c w) as [[[x |] w1] |] eqn:E; [| | discriminate].
        * injection H as <- <- <-. destruct (H2 _ _ _ _ _ s E (within_less _ _ (more_event _ _) W) (conj O X)) as (s1 & R & O1 & X1 & I1).
          rewrite R. cbn [obind err]. destruct (Z.eqb_spec (x_id x) 0); [congruence |].
          rewrite (pass _ _ _ _ _ _ W X1). cbn [obind]. eexists. split; [reflexivity |]. repeat split; assumption.
        * pose proof (G1 _ _ _ _ _ _ _ _ H) as M1. destruct (H2 _ _ _ _ _ s E (within_less _ _ M1 W) (conj O X)) as (s1 & R & N1).
          rewrite R. cbn [obind err]. change (0 =? 0) with true. cbn iota. eauto.
      + destruct (does f d i b1 0 (w_var w None)) as [[[[x |] e1] w1] |] eqn:E; [| | discriminate].
        * pose proof (G1 _ _ _ _ _ _ _ _ H) as M1. apply more_var in M1.
          destruct (H1 _ _ _ _ _ _ _ _ (set_exc s None) E (within_less _ _ M1 W) (conj O eq_refl)) as (s1 & R & O1 & X1 & I1).
          rewrite R. cbn [obind err]. destruct (Z.eqb_spec (x_id x) 0); [congruence |].
          apply (H1 _ _ _ _ _ _ _ _ s1 H W). split; assumption.
        * pose proof (G1 _ _ _ _ _ _ _ _ H) as M1.
          destruct (H1 _ _ _ _ _ _ _ _ (set_exc s None) E (within_less _ _ M1 W) (conj O eq_refl)) as (s1 & R & N1).
          rewrite R. cbn [obind err]. change (0 =? 0) with true. cbn iota. eauto.
      + cbn in X. rewrite X. destruct (does f d i (if g (var w) e then b1 else b2) e w) as [[[[x |] e1] w1] |] eqn:E; [| | discriminate].
        * injection H as <- <- <-. destruct (H1 _ _ _ _ _ _ _ _ s E W (conj O X)) as (s1 & R & O1 & X1 & I1).
          rewrite R. cbn [obind err]. destruct (Z.eqb_spec (x_id x) 0); [congruence |].
          eexists. split; [reflexivity |]. repeat split; assumption.
        * pose proof (G1 _ _ _ _ _ _ _ _ H) as M1. destruct (H1 _ _ _ _ _ _ _ _ s E (within_less _ _ M1 W) (conj O X)) as (s1 & R & N1).
          rewrite R. cbn [obind err]. change (0 =? 0) with true. cbn iota. eauto.
      + apply (H1 _ _ _ _ _ _ _ _ _ H W). split; [exact O | reflexivity].
      + apply (H1 _ _ _ _ _ _ _ _ _ H W). cbn in X. split; cbn; [now rewrite O, X | exact X].
      + destruct (frees f (d + 1) c w) as [w1 |] eqn:E; [| discriminate]. pose proof (G1 _ _ _ _ _ _ _ _ H) as M1.
        destruct (H4 _ _ _ _ s E (within_less _ _ M1 W) O) as (s1 & R & O1 & X1 & V1). rewrite R. cbn [obind].
        apply (H1 _ _ _ _ _ _ _ _ _ H W). cbn in X. split; [exact O1 | cbn; congruence].
    - intros d c w r w' s H W (O & X). rewrite invokes_S in H; rewrite call_S. unfold MAX_CALL_DEPTH at 1.
      destruct (1000 <? d).
      + injection H as <- <-. replace (die_text _ _ _ _ _) with (Ret too_deep) by (vm_compute; reflexivity).
        cbn [obind]. eexists. split; [reflexivity |]. split; [exact O |]. split; [| discriminate]. cbn [set_exc exc]. unfold text. cbn [x_message x_places map concat]. now rewrite app_nil_r.
      + destruct (methods c) as [[i b l | b] |]; [| | discriminate].
        * destruct (does f d i b 0 w) as [[[x e1] w1] |] eqn:E; [| discriminate].
          destruct (frees_all f (d + 1) l w1) as [w2 |] eqn:E2; [| discriminate]. injection H as <- <-.
          pose proof (G5 _ _ _ _ E2) as M1. destruct (H1 _ _ _ _ _ _ _ _ s E (within_less _ _ M1 W) (conj O X)) as (s1 & R & O1 & X1).
          rewrite R. cbn [obind]. destruct (H5 _ _ _ _ s1 E2 W O1) as (s2 & R2 & O2 & X2 & V2). rewrite R2. cbn [obind].
          exists s2. split; [reflexivity |]. split; [exact O2 |]. rewrite X2. destruct x as [x |]; [exact X1 | congruence].
        * destruct (H3 _ _ _ _ _ s H W (conj O X)) as (s1 & R & O1 & X1). rewrite R. cbn [obind].
          destruct r as [x |]; cbn [err].
          -- destruct X1 as (X1 & I1). destruct (Z.eqb_spec (x_id x) 0); [congruence |]. cbn [negb andb].
             destruct (exc s1) as [t |] eqn:Es; cbn [or_error] in X1; eexists; (split; [reflexivity |]); (split; [exact O1 |]); (split; [| exact I1]).
             ++ rewrite Es. now f_equal.
             ++ cbn [set_exc exc]. now f_equal.
          -- change (0 =? 0) with true. cbn [negb andb]. eexists. split; [reflexivity |]. split; assumption.
    - intros d b w r w' s H W (O & X). rewrite natively_S in H; rewrite run_native_S.
      destruct b as [| [format args func file line | c | c | v | id] b].
      + injection H as <- <-. exists s. repeat split; assumption.
      + destruct (nm format args func file line) as [t |] eqn:T; [| discriminate]. injection H as <- <-.
        cbn [w_event events] in W. apply Forall_app in W as (_ & W). apply Forall_inv in W as (Dc & L1 & L2 & N0).
        rewrite (die_text_ok _ _ _ _ _ _ Dc L1 L2 N0). cbn [obind]. eexists. split; [reflexivity |]. split; [exact O |].
        split; [| discriminate]. cbn [set_exc exc or_error]. unfold text. cbn [x_message x_places map concat]. now rewrite app_nil_r.
      + destruct (invokes f (d + 1) c w) as [[[x |] w1] |] eqn:E; [| | discriminate].
        * injection H as <- <-. destruct (H2 _ _ _ _ _ s E W (conj O X)) as (s1 & R & O1 & X1 & I1).
          rewrite R. cbn [obind err]. destruct (Z.eqb_spec (x_id x) 0); [congruence |]. exists s1. repeat split; try assumption. now rewrite X1.
        * pose proof (G3 _ _ _ _ _ H) as M1. destruct (H2 _ _ _ _ _ s E (within_less _ _ M1 W) (conj O X)) as (s1 & R & N1).
          rewrite R. cbn [obind err]. change (0 =? 0) with true. cbn iota. eauto.
      + destruct (invokes f (d + 1) c w) as [[[x |] w1] |] eqn:E; [| | discriminate].
        * pose proof (G3 _ _ _ _ _ H) as M1. apply more_var in M1.
          destruct (H2 _ _ _ _ _ s E (within_less _ _ M1 W) (conj O X)) as (s1 & R & O1 & X1 & I1).
          rewrite R. cbn [obind err]. apply (H3 _ _ _ _ _ s1 H W). split; assumption.
        * pose proof (G3 _ _ _ _ _ H) as M1. destruct (H2 _ _ _ _ _ s E (within_less _ _ M1 W) (conj O X)) as (s1 & R & N1).
          rewrite R. cbn [obind err]. eauto.
      + apply (H3 _ _ _ _ _ _ H W). split; [exact O | reflexivity].
      + injection H as <- <-. exists s. cbn in X. destruct (Z.eqb_spec id 0) as [-> | N]; cbn [err x_id]; repeat split; try assumption.
        rewrite X. unfold text. cbn [x_message x_places map concat]. now rewrite app_nil_r.
    - intros d c w w' s H W O. rewrite frees_S in H; rewrite destroy_S.
      destruct (invokes f d c (w_var w None)) as [[[x |] w1] |] eqn:E; [| | discriminate]; injection H as <-.
      + destruct (H2 _ _ _ _ _ (set_exc s None) E W (conj O eq_refl)) as (s1 & R & O1 & X1 & I1). rewrite R. cbn [obind err].
        destruct (Z.eqb_spec (x_id x) 0); [congruence |]. rewrite X1. eexists. split; [reflexivity |]. cbn. rewrite O1. auto.
      + destruct (H2 _ _ _ _ _ (set_exc s None) E W (conj O eq_refl)) as (s1 & R & O1 & X1). rewrite R. cbn [obind err].
        change (0 =? 0) with true. cbn iota. eexists. split; [reflexivity |]. cbn. auto.
    - intros d l w w' s H W O. rewrite frees_all_S in H; rewrite destroy_all_S. destruct l as [| c l].
      + injection H as <-. exists s. auto.
      + destruct (frees f d c w) as [w1 |] eqn:E; [| discriminate]. pose proof (G5 _ _ _ _ H) as M1.
        destruct (H4 _ _ _ _ s E (within_less _ _ M1 W) O) as (s1 & R & O1 & X1 & V1). rewrite R. cbn [obind].
        destruct (H5 _ _ _ _ s1 H W O1) as (s2 & R2 & O2 & X2 & V2). exists s2. repeat split; congruence.
  Qed.
End Proofs.
