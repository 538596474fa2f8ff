(** * Properties of numeric methods (C63) *)

From Verif Require Import Code_model Code_spec Code_props Expr_props.
From Verif Require Import Base VmArith_model VmArith_proofs Expr_model Expr_spec Expr_proofs Prog_model Prog_spec Prog_proofs ProgSim_proofs ProgMain_proofs.

Section Float.
  Context {F D : Type} (fl : floats F D).

  (** The variables of the source are numbers from 1 to [n - 1] ([T] gives their
      types); 0 is the hidden variable of conditions. *)
  Definition variables (T : nat -> option nty) (n : nat) : Prop :=
    (1 <= n)%nat /\ T FLAG = None /\ forall x, (n <= x)%nat -> T x = None.

  (** The restrictions of Expr_spec.v on each of the expressions: declared
      variables and proper literals; no right operand changes a variable that
      is the left operand; no sequence is lost. *)
  Definition regular (T : nat -> option nty) (e : expr F D) : Prop :=
    well_formed T e /\ stable T e /\ not_dropped T e.

  (** How a call ends: its error id, and what the caller finds. *)
  Definition ends (R0 : regs F D) (r : done (F:=F) (D:=D)) (e : Z) (w : world F D) : Prop :=
    match r with
    | Returned v => e = 0 /\ w = World F D R0 (Some v) None false
    | Threw msg => e = ERROR_ID /\ w = World F D R0 None (Some msg) false
    | Undefined => w_ub F D w = true
    | _ => False
    end.

  (** ** Exactly the methods that follow the rules compile. *)
  Theorem C63_accepts : forall T n rt s, variables T n -> every (well_formed T) s ->
    (exists c, gen_method F D T n rt s = Some c) <-> stmt_ok T rt false s = true.
  Proof.
    intros T n rt s (P & T0 & Fr) W. rewrite <- (method_accept fl T n rt s P T0 Fr W).
    destruct (gen_method F D T n rt s); cbn [isS]; split; try discriminate; eauto. intros (c & H). discriminate.
  Qed.

  (** ** The meaning does not depend on the bound on iterations. *)
  Lemma after_mono {A} (o : outcome A) g g' (r : done (F:=F) (D:=D)) :
    (forall a, g a = Some r -> g' a = Some r) -> after o g = Some r -> after o g' = Some r.
  Proof. destruct o; cbn [after]; auto. Qed.

  Lemma loop_mono tst bd bd' nx : (forall st (r : done (F:=F) (D:=D)), bd st = Some r -> bd' st = Some r) ->
    forall k st r, loop tst bd nx k st = Some r -> loop tst bd' nx (S k) st = Some r.
  Proof.
    intros H. induction k as [| k IH]; intros st r.
    - cbn [loop]. apply after_mono. intros p. destruct (fst p =? 0); [auto |].
      destruct (bd (snd p)) as [x |] eqn:E; [| discriminate]. rewrite (H _ _ E). destruct x; auto; discriminate.
    - change (loop tst bd nx (S k) st) with (after (tst st) (fun p =>
        if fst p =? 0 then Some (Normal (snd p))
        else match bd (snd p) with
             | Some (Normal st) | Some (Next st) => after (nx st) (loop tst bd nx k)
             | Some (Last st) => Some (Normal st)
             | other => other
             end)).
      change (loop tst bd' nx (S (S k)) st) with (after (tst st) (fun p =>
        if fst p =? 0 then Some (Normal (snd p))
        else match bd' (snd p) with
             | Some (Normal st) | Some (Next st) => after (nx st) (loop tst bd' nx (S k))
             | Some (Last st) => Some (Normal st)
             | other => other
             end)).
      apply after_mono. intros p. destruct (fst p =? 0); [auto |].
      destruct (bd (snd p)) as [x |] eqn:E; [| discriminate]. rewrite (H _ _ E). destruct x; auto.
      + apply after_mono. auto.
      + apply after_mono. auto.
  Qed.

  Lemma exec_mono T rt f s : forall st r, Prog_spec.exec fl T rt f s st = Some r -> Prog_spec.exec fl T rt (S f) s st = Some r.
  Proof.
    induction s as [| s1 IH1 s2 IH2 | e | x c | s IH | u c s1 IH1 s2 IH2 | c s IH | i c j s IH | | | c];
      intros st r; cbn [Prog_spec.exec]; auto.
    - destruct (Prog_spec.exec fl T rt f s1 st) as [x |] eqn:E; [| discriminate]. rewrite (IH1 _ _ E). destruct x; auto.
    - apply after_mono. intros p. destruct (xorb u (fst p =? 0)); auto.
    - apply loop_mono. exact IH.
    - apply after_mono. intros p. apply loop_mono. exact IH.
  Qed.

  Theorem C63_one_meaning : forall T rt s st f f' r r',
    call fl T rt f s st = Some r -> call fl T rt f' s st = Some r' -> r = r'.
  Proof.
    intros T rt s st.
    assert (M : forall f r, call fl T rt f s st = Some r -> call fl T rt (S f) s st = Some r).
    { intros f r. unfold call. destruct (Prog_spec.exec fl T rt f s st) as [x |] eqn:E; [| discriminate].
      rewrite (exec_mono _ _ _ _ _ _ E). auto. }
    assert (M' : forall j f r, call fl T rt f s st = Some r -> call fl T rt (j + f) s st = Some r).
    { induction j; cbn [Nat.add]; auto. }
    intros f f' r r' E E'. apply (M' f') in E. apply (M' f) in E'. rewrite Nat.add_comm in E'. congruence.
  Qed.

  (** ** Running the compiled method in the virtual machine

      does what the source says: it ends if and only if the source does, with
      the returned value, or the exception and its message, and never leaves
      its code; undefined behaviour occurs only if the source has it (a
      conversion of a floating point value that does not fit). *)
  Theorem C63_runs : forall T n rt s nd tbl, variables T n -> every (regular T) s ->
    gen_method F D T n rt s = Some (nd, tbl) ->
    forall (d : Z) (nest : nat) (R0 : regs F D) (st : nat -> val F D),
    d < MAX_DEPTH -> MAX_DEPTH - d <= Z.of_nat nest ->
    (forall x t, T x = Some t -> R0 t x = st x) ->
    let run k := vm_call (machine F D fl tbl) (fun _ => Some (Code_model.compile nd))
                   k nest d 0%nat (World F D R0 None None false) in
    (forall f r, call fl T rt f s st = Some r -> exists k e w, run k = VRet e d w /\ ends R0 r e w) /\
    (forall k, run k = VFuel \/
       exists e w f r, run k = VRet e d w /\ call fl T rt f s st = Some r /\ ends R0 r e w).
  Proof.
    intros T n rt s nd tbl (P & T0 & Fr) W G d nest R0 st Hd Hn HR.
    set (prog := fun _ : nat => Some nd). set (w0 := World F D R0 None None false).
    assert (SUP : forall m b, prog m = Some b -> supported b = true).
    { intros m b. unfold prog. intros [= <-]. apply (plain_supported fl). eapply method_plain; eauto. }
    pose proof (C22_control_flow_partial _ _ (machine F D fl tbl) prog SUP d nest 0%nat w0 Hn) as (A & B).
    change (fun m => option_map Code_model.compile (prog m)) with (fun _ : nat => Some (Code_model.compile nd)) in A, B.
    assert (NE : exists a c j, nd = NSeq a (NSeq c (NReturn j))).
    { revert G. unfold gen_method. destruct (build_stmt F D s n) as [a n'].
      destruct (gen_ast F D (all_types T n n') n' rt false 0 a) as [[nb l] |]; [| discriminate]. intros [= <- _]. eauto. }
    assert (SC : forall f, sem_call (machine F D fl tbl) prog (S f) d 0%nat w0 =
      match sem (machine F D fl tbl) 0%nat (sem_call (machine F D fl tbl) prog f (d + 1)) f nd (mks w0 (Some R0) 0 []) with
      | None => None
      | Some (sig, s) =>
          Some (match sig with SThrow e => e | _ => 0%Z end, s_g (leave (machine F D fl tbl) 0 s))
      end).
    { intros f. cbn [sem_call]. destruct (Z.ltb_spec MAX_DEPTH (d + 1)); [lia |]. reflexivity. }
    assert (M : forall b f, fits false b w0 (rel T) (call fl T rt f s st)
      (sem (machine F D fl tbl) 0%nat (sem_call (machine F D fl tbl) prog (bump b f) (d + 1)) (bump b f) nd (mks w0 (Some R0) 0 []))).
    { intros b f. eapply (method_run fl T n rt s); eauto. }
    assert (Fin : forall b f r, call fl T rt f s st = Some r ->
      (r = Undefined /\ b = false /\ sem_call (machine F D fl tbl) prog (S (bump b f)) d 0%nat w0 = None) \/
      exists e w, sem_call (machine F D fl tbl) prog (S (bump b f)) d 0%nat w0 = Some (e, w) /\ ends R0 r e w).
    { intros b f r C. specialize (M b f). rewrite C in M. rewrite SC.
      assert (NN : forall st', r <> Normal st') by (intros st' ->; unfold call in C; destruct (Prog_spec.exec fl T rt f s st) as [[] |]; discriminate).
      destruct r as [st' | st' | st' | v | msg |]; cbn [fits] in M.
      - congruence.
      - destruct M as (M & _). discriminate.
      - destruct M as (M & _). discriminate.
      - destruct M as (R & ->). right. rewrite leave_nil by reflexivity. do 2 eexists. split; [reflexivity |]. cbn. auto.
      - destruct M as (R & ->). right. rewrite leave_nil by reflexivity. do 2 eexists. split; [reflexivity |]. cbn. auto.
      - destruct M as [(-> & ->) | (sg & s1 & H1 & R1 & L1 & Q1)]; [left; auto | right]. rewrite H1.
        rewrite leave_nil by auto. do 2 eexists. split; [reflexivity |]. cbn [ends].
        destruct sg; try contradiction; try discriminate Q1; auto.
        destruct NE as (a & c & j & ->). exfalso. revert H1. cbn [sem].
        destruct (sem _ _ _ _ a _) as [[[] ?] |]; try discriminate.
        destruct (sem _ _ _ _ c _) as [[[] ?] |]; try discriminate.
        destruct (p_return _ _ _ _). discriminate. }
    split.
    - intros f r C. destruct (Fin true f r C) as [(_ & X & _) | (e & w & E & H)]; [discriminate |].
      destruct (proj2 (A e w) (ex_intro _ _ E)) as (k & K). exists k, e, w. auto.
    - intros k. destruct (B k) as [K | (e & w & K)]; [left; exact K | right].
      destruct (proj1 (A e w) (ex_intro _ k K)) as (f & E). destruct f as [| f].
      { cbn [sem_call] in E. destruct (Z.ltb_spec MAX_DEPTH (d + 1)); [lia |]. discriminate. }
      destruct (call fl T rt f s st) as [r |] eqn:C.
      + destruct (Fin false f r C) as [(_ & _ & X) | (e' & w' & E' & H)]; cbn [bump] in *; [congruence |].
        rewrite E in E'. injection E' as <- <-. exists e, w, f, r. auto.
      + exfalso. specialize (M false f). rewrite C in M. cbn [fits bump] in M. rewrite SC, M in E by reflexivity. discriminate.
  Qed.
End Float.

(** ** Examples *)

(** int $a, int $b, long $n:
      for ($n = 0; $a && $b; ++$n) {
        if ($a > $b) { $a %= $b; next; }
        $b %= $a;
      }
      unless (!($n > 100)) { return 1 / ($n - $n); }
      $a = ($a || $b);
      return $a;                      # returns long *)
Definition gcd_types (x : nat) : option nty :=
  match x with 1%nat | 2%nat => Some TInt | 3%nat => Some TLong | _ => None end.
Definition lit (z : Z) : expr Z Z := EConst Z Z TInt (VI Z Z z).
Definition a_ : expr Z Z := EVar Z Z 1.
Definition b_ : expr Z Z := EVar Z Z 2.
Definition n_ : expr Z Z := EVar Z Z 3.
Definition v_ (e : expr Z Z) : cond Z Z := CVal Z Z e.
Definition gcd_body : stmt Z Z :=
  TSeq Z Z
    (TFor Z Z (EAssign Z Z 3 (lit 0)) (CAnd Z Z (v_ a_) (v_ b_)) (EInc Z Z false false 3)
       (TSeq Z Z
          (TIf Z Z false (v_ (ECmp Z Z CGt a_ b_))
             (TBlock Z Z (TSeq Z Z (TExp Z Z (EOpAssign Z Z BMod 1 b_)) (TNext Z Z))) (TSkip Z Z))
          (TExp Z Z (EOpAssign Z Z BMod 2 a_))))
  (TSeq Z Z
    (TIf Z Z true (CNot Z Z (v_ (ECmp Z Z CGt n_ (lit 100))))
       (TReturn Z Z (v_ (EBin Z Z BDiv (lit 1) (EBin Z Z BSub n_ n_)))) (TSkip Z Z))
  (TSeq Z Z (TSet Z Z 1 (COr Z Z (v_ a_) (v_ b_)))
            (TReturn Z Z (v_ a_)))).
Definition gcd_regs (a b : Z) : regs Z Z :=
  fun t x => match t, x with TInt, 1%nat => VI Z Z a | TInt, 2%nat => VI Z Z b | _, _ => VI Z Z 0 end.
Definition gcd_store (a b : Z) : nat -> val Z Z :=
  fun x => match x with 1%nat => VI Z Z a | 2%nat => VI Z Z b | _ => VI Z Z 0 end.

Definition vres_out (r : vres (world Z Z)) : option (Z * Z * option (val Z Z) * option string * bool) :=
  match r with VRet e d w => Some (e, d, w_ret Z Z w, w_msg Z Z w, w_ub Z Z w) | _ => None end.
Definition run_gcd (s : stmt Z Z) (a b : Z) (k : nat) :=
  match gen_method Z Z gcd_types 4 TLong s with
  | Some (nd, tbl) =>
      vres_out (vm_call (machine Z Z Expr_props.toy tbl) (fun _ => Some (Code_model.compile nd)) k 1000 0 0%nat (World Z Z (gcd_regs a b) None None false))
  | None => None
  end.

Example C63_gcd_meets :
  variables gcd_types 4 /\ every (regular gcd_types) gcd_body /\ stmt_ok gcd_types TLong false gcd_body = true /\
  (forall a b x t, gcd_types x = Some t -> gcd_regs a b t x = gcd_store a b x) /\
  run_gcd gcd_body 12 18 300 = Some (0, 0, Some (VI Z Z 6), None, false) /\
  run_gcd gcd_body 12 18 20 = None /\
  call Expr_props.toy gcd_types TLong 5 gcd_body (gcd_store 12 18) = Some (Returned (VI Z Z 6)).
Proof.
  split. { split; [lia | split; [reflexivity |]]. intros x H. do 4 (destruct x; [lia |]). reflexivity. }
  split.
  { unfold gcd_body, regular, v_, a_, b_, n_, lit. cbn [every cond_every well_formed stable not_dropped].
    repeat split; try (cbn; congruence); try (intros x H; vm_compute in H; vm_compute; tauto). }
  split; [reflexivity |].
  split. { intros a b x t H. destruct x as [| [| [| [| x]]]]; try discriminate; injection H as <-; reflexivity. }
  split; [vm_compute; reflexivity |]. split; vm_compute; reflexivity.
Qed.

(** A division by zero in a condition that is reached; the same operand is not
    evaluated behind a false left operand of &&. The value of && is that of the
    operand that decides. *)
Definition div0 : expr Z Z := EBin Z Z BDiv (lit 1) (EBin Z Z BSub a_ a_).
Example C63_short_circuit :
  run_gcd (TReturn Z Z (CAnd Z Z (v_ b_) (v_ div0))) 7 0 100 = Some (0, 0, Some (VI Z Z 0), None, false) /\
  run_gcd (TReturn Z Z (CAnd Z Z (v_ a_) (v_ div0))) 7 0 100 = Some (ERROR_ID, 0, None, Some DIVIDE_ZERO, false) /\
  run_gcd (TReturn Z Z (COr Z Z (v_ a_) (v_ div0))) 7 0 100 = Some (0, 0, Some (VI Z Z 7), None, false) /\
  run_gcd (TReturn Z Z (CAnd Z Z (v_ (lit 2)) (v_ a_))) 7 0 100 = Some (0, 0, Some (VI Z Z 7), None, false) /\
  run_gcd (TReturn Z Z (CNot Z Z (v_ n_))) 7 0 100 = Some (0, 0, Some (VI Z Z 1), None, false) /\
  run_gcd (TSkip Z Z) 7 0 100 = Some (0, 0, Some (VI Z Z 0), None, false).
Proof. repeat split; vm_compute; reflexivity. Qed.

(** next outside of a loop, and an int variable given a long, do not compile. *)
Example C63_refuses :
  stmt_ok gcd_types TLong false (TNext Z Z) = false /\
  stmt_ok gcd_types TLong false (TSet Z Z 1 (v_ n_)) = false /\
  stmt_ok gcd_types TByte false (TReturn Z Z (v_ a_)) = false /\
  stmt_ok gcd_types TByte false (TReturn Z Z (v_ (lit 127))) = true.
Proof. repeat split. Qed.

Print Assumptions C63_accepts.
Print Assumptions C63_one_meaning.
Print Assumptions C63_runs.
