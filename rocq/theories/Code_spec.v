(** * What the statements mean

    A structured semantics of the statements: no code addresses, no patching,
    no mortal stack. Running a statement ends in one of six ways. *)

From Verif Require Import Code_model.
Import ListNotations.

Inductive signal :=
| SNormal
| SNext
| SLast
| SBreak
| SReturn
| SThrow (e : Z).

Section Sem.
Variables G R : Type.
Variable P : prims G R.

(** The state of a running method: the rest of the world, the variables,
    eval_error_id, and the object variables that are alive, in the order of
    their declaration. *)
Record sst := mks { s_g : G; s_r : R; s_err : Z; s_live : list nat }.

(** The end of a scope: the variables declared since its beginning, when
    [base] of them were alive, are released in the order of declaration. *)
Definition leave (base : nat) (s : sst) : sst :=
  let '(g, r) := release_all P (skipn base (s_live s)) (s_g s) (s_r s) in
  mks g r (s_err s) (firstn base (s_live s)).
Definition lives (s : sst) : nat := length (s_live s).

Section Body.
Variable me : nat.                                   (* the running method *)
Variable call : nat -> G -> option (Z * G).          (* what a method call does; None: runs out of fuel *)
Variable fuel : nat.                                 (* bounds the iterations of a loop *)

Definition throw (e : Z) (line : nat) (g : G) (s : sst) : signal * sst :=
  (SThrow e, mks (p_trace P me line g) (s_r s) (s_err s) (s_live s)).

Fixpoint sem (n : node) (s : sst) {struct n} : option (signal * sst) :=
  match n with
  | NSkip => Some (SNormal, s)
  | NSeq a b =>
      match sem a s with
      | Some (SNormal, s) => sem b s
      | other => other
      end
  | NDo a =>
      let '(g, r) := p_do P a (s_g s) (s_r s) in
      Some (SNormal, mks g r (s_err s) (s_live s))
  | NTry a line =>
      let '(g, r, e) := p_try P a (s_g s) (s_r s) in
      let s := mks g r (s_err s) (s_live s) in
      if Z.eqb e 0 then Some (SNormal, s) else Some (throw e line g s)
  | NCall m line =>
      match call m (s_g s) with
      | None => None
      | Some (e, g) =>
          let s := mks g (s_r s) (s_err s) (s_live s) in
          if Z.eqb e 0 then Some (SNormal, s) else Some (throw e line g s)
      end
  | NDecl v => Some (SNormal, mks (s_g s) (s_r s) (s_err s) (s_live s ++ [v]))
  | NGetErr v => Some (SNormal, mks (s_g s) (p_get_err P v (s_err s) (s_r s)) (s_err s) (s_live s))
  | NReturn a =>
      let '(g, r) := p_return P a (s_g s) (s_r s) in
      Some (SReturn, mks g r (s_err s) (s_live s))
  | NNext => Some (SNext, s)
  | NLast => Some (SLast, s)
  | NBreak => Some (SBreak, s)
  | NBlock b =>
      match sem b s with
      | Some (SNormal, s') => Some (SNormal, leave (lives s) s')
      | other => other
      end
  | NIf no_scope c r t e =>
      match sem c s with
      | Some (SNormal, s) =>
          match (if p_test P r (s_r s) then sem t s else sem e s) with
          | Some (SNormal, s') =>
              (* The variables of the branch are released here if the else
                 branch declares some; otherwise at the end of the block
                 around the if statement. Only the order in which they and
                 the variables of the condition are released depends on it. *)
              Some (SNormal, if has_decl e && negb no_scope then leave (lives s) s' else s')
          | other => other
          end
      | other => other
      end
  | NLoop init body inc c r =>
      match sem init s with
      | Some (SNormal, s1) =>
          (fix iter (k : nat) (again : bool) (si : sst) {struct k} : option (signal * sst) :=
            (* variables of the condition and the increment live to the end
               of the body *)
            match (if again then sem inc si else Some (SNormal, si)) with
            | Some (SNormal, si) =>
                match sem c si with
                | Some (SNormal, si) =>
                    if p_test P r (s_r si) then
                      match sem body si with
                      | Some (SNormal, s') | Some (SNext, s') =>
                          match k with
                          | O => None
                          | S k => iter k true (leave (lives s1) s')
                          end
                      | Some (SLast, s') => Some (SNormal, leave (lives s) s')
                      | other => other
                      end
                    else Some (SNormal, leave (lives s) si)
                | other => other
                end
            | other => other
            end) fuel false s1
      | other => other
      end
  | NEval b =>
      match sem b (mks (p_clear_exc P (s_g s)) (s_r s) 0 (s_live s)) with
      | Some (SNormal, s') => Some (SNormal, leave (lives s) s')
      | Some (SThrow e, s') =>
          Some (SNormal, leave (lives s) (mks (s_g s') (s_r s') e (s_live s')))
      | other => other
      end
  | NSwitch c r cs =>
      match sem c s with
      | Some (SNormal, s) =>
          match sem_cases (p_sel P r (s_r s)) false cs s with
          | Some (SNormal, s') | Some (SBreak, s') => Some (SNormal, leave (lives s) s')
          | other => other
          end
      | other => other
      end
  end
(** Run the block that belongs to the value: of the first case label that
    matches, or of the first one below it that has a block, or the default. *)
with sem_cases (v : Z) (found : bool) (cs : cases) (s : sst) {struct cs} : option (signal * sst) :=
  match cs with
  | CDefault b => sem b s
  | CLabel w cs => sem_cases v (found || Z.eqb v w) cs s
  | CCase w b cs => if found || Z.eqb v w then sem b s else sem_cases v found cs s
  end.
End Body.

(** A method call at call depth [d]: the error id (0: none) and the state
    after it. [prog] gives the statements of the methods, [None] for a native
    method. Calls deeper than the limit fail without running anything. When
    the method ends, in whatever way, its live variables are released. *)
Variable prog : nat -> option node.

Fixpoint sem_call (fuel : nat) (d : Z) (m : nat) (g : G) {struct fuel} : option (Z * G) :=
  if Z.ltb MAX_DEPTH (d + 1) then Some (ERROR_ID, p_deep P g)
  else
    let '(g, pre) := p_enter P m g in
    match pre with
    | Some e => Some (e, g)
    | None =>
        match prog m with
        | None => let '(g, e) := p_native P m g in Some (e, g)
        | Some b =>
            match fuel with
            | O => None
            | S fuel =>
                match sem m (sem_call fuel (d + 1)) fuel b (mks g (p_frame P m g) 0 []) with
                | None => None
                | Some (sig, s) =>
                    let s := leave 0 s in
                    let e := match sig with SThrow e => e | _ => 0%Z end in
                    Some (e, p_leave P m e (s_g s))
                end
            end
        end
    end.
End Sem.
Arguments mks {G R}. Arguments s_g {G R}. Arguments s_r {G R}. Arguments s_err {G R}.
Arguments s_live {G R}. Arguments leave {G R}. Arguments lives {G R}. Arguments throw {G R}.
Arguments sem {G R}. Arguments sem_cases {G R}. Arguments sem_call {G R}.

(** ** The programs for which the code generator is right

    Three restrictions. Each is needed: the theorems with the suffix _refuted
    in Code_props.v give programs outside of them that misbehave. *)

(** next and last are in a loop, break in a switch (spvm_check.c:1402-1423
    rejects other programs), and not in the header of a loop (where the
    grammar allows expressions only). *)
Fixpoint flow_ok (inloop inswitch : bool) (n : node) : bool :=
  match n with
  | NNext | NLast => inloop
  | NBreak => inswitch
  | NSeq a b => flow_ok inloop inswitch a && flow_ok inloop inswitch b
  | NBlock b | NEval b => flow_ok inloop inswitch b
  | NIf _ c _ t e => flow_ok false false c && flow_ok inloop inswitch t && flow_ok inloop inswitch e
  | NLoop i b n c _ => flow_ok false false i && flow_ok true inswitch b && flow_ok false false n && flow_ok false false c
  | NSwitch c _ cs => flow_ok false false c && flow_ok_cases inloop cs
  | _ => true
  end
with flow_ok_cases (inloop : bool) (cs : cases) : bool :=
  match cs with
  | CDefault b => flow_ok inloop true b
  | CLabel _ cs => flow_ok_cases inloop cs
  | CCase _ b cs => flow_ok inloop true b && flow_ok_cases inloop cs
  end.

(** Inside an eval block, nothing that can fail comes before another eval
    block (in the order of the generated code). *)
Fixpoint has_eval (n : node) : bool :=
  match n with
  | NEval _ => true
  | NSeq a b => has_eval a || has_eval b
  | NBlock b => has_eval b
  | NIf _ c _ t e => has_eval c || has_eval t || has_eval e
  | NLoop i b n c _ => has_eval i || has_eval b || has_eval n || has_eval c
  | NSwitch c _ cs => has_eval c || has_eval_cases cs
  | _ => false
  end
with has_eval_cases (cs : cases) : bool :=
  match cs with
  | CDefault b => has_eval b
  | CLabel _ cs => has_eval_cases cs
  | CCase _ b cs => has_eval b || has_eval_cases cs
  end.

(** can fail outside of a further eval block *)
Fixpoint can_fail (n : node) : bool :=
  match n with
  | NTry _ _ | NCall _ _ => true
  | NSeq a b => can_fail a || can_fail b
  | NBlock b => can_fail b
  | NIf _ c _ t e => can_fail c || can_fail t || can_fail e
  | NLoop i b n c _ => can_fail i || can_fail b || can_fail n || can_fail c
  | NSwitch c _ cs => can_fail c || can_fail_cases cs
  | _ => false
  end
with can_fail_cases (cs : cases) : bool :=
  match cs with
  | CDefault b => can_fail b
  | CLabel _ cs => can_fail_cases cs
  | CCase _ b cs => can_fail b || can_fail_cases cs
  end.

Fixpoint eval_ok (ineval : bool) (n : node) : bool :=
  match n with
  | NSeq a b => eval_ok ineval a && eval_ok ineval b && negb (ineval && can_fail a && has_eval b)
  | NBlock b => eval_ok ineval b
  | NEval b => eval_ok true b
  | NIf _ c _ t e =>
      eval_ok ineval c && eval_ok ineval t && eval_ok ineval e
      && negb (ineval && can_fail c && (has_eval t || has_eval e))
      && negb (ineval && can_fail t && has_eval e)
  | NLoop i b n c _ =>
      eval_ok ineval i && eval_ok ineval b && eval_ok ineval n && eval_ok ineval c
      && negb (ineval && can_fail i && (has_eval b || has_eval n || has_eval c))
      && negb (ineval && can_fail b && (has_eval n || has_eval c))
      && negb (ineval && can_fail n && has_eval c)
  | NSwitch c _ cs =>
      eval_ok ineval c && eval_ok_cases ineval cs
      && negb (ineval && can_fail c && has_eval_cases cs)
  | _ => true
  end
with eval_ok_cases (ineval : bool) (cs : cases) : bool :=
  match cs with
  | CDefault b => eval_ok ineval b
  | CLabel _ cs => eval_ok_cases ineval cs
  | CCase _ b cs => eval_ok ineval b && eval_ok_cases ineval cs
                    && negb (ineval && can_fail b && has_eval_cases cs)
  end.

(** Object variables declared in an operand of &&, || or ! (temporaries
    included), or in a loop condition or increment, are alive without the
    compiler knowing. [exact] says that there are none of them before the
    statement (since the beginning of the method); the first result that no
    block that declares object variables begins while there are such
    variables, the second is the new value of [exact]. *)
Fixpoint scope_ok (exact : bool) (n : node) : bool * bool :=
  match n with
  | NSeq a b =>
      let '(oka, x) := scope_ok exact a in
      let '(okb, x) := scope_ok x b in (oka && okb, x)
  | NBlock b | NEval b => ((negb (has_decl b) || exact) && fst (scope_ok exact b), exact)
  | NIf ns c _ t e =>
      let '(okc, x) := scope_ok exact c in
      (okc && fst (scope_ok x t) && fst (scope_ok x e)
       && (negb (negb ns && (has_decl t || has_decl e)) || x),
       x && (negb (has_decl t) || (has_decl e && negb ns)) && (negb (has_decl e) || negb ns))
  | NLoop i b n c _ =>
      let '(oki, x) := scope_ok exact i in
      let inner := x && negb (has_decl n) && negb (has_decl c) in
      (oki && fst (scope_ok inner b) && fst (scope_ok inner n) && fst (scope_ok inner c)
       && (negb (has_decl i || has_decl b || has_decl n || has_decl c) || exact)
       && (negb (has_decl b) || x)
       && (negb (has_decl n || has_decl c) || has_decl b),
       exact)
  | NSwitch c _ cs =>
      let '(okc, x) := scope_ok exact c in
      (okc && scope_ok_cases x cs && (negb (has_decl_cases cs) || x), x)
  | _ => (true, exact)
  end
with scope_ok_cases (exact : bool) (cs : cases) : bool :=
  match cs with
  | CDefault b => fst (scope_ok exact b)
  | CLabel _ cs => scope_ok_cases exact cs
  | CCase _ b cs => fst (scope_ok exact b) && scope_ok_cases exact cs
  end.

Definition supported (b : node) : bool :=
  flow_ok false false b && eval_ok false b && fst (scope_ok true b).
