(** * Special assignment, increments and array initialization

    lib/SPVM/Builder/src/spvm_op.c: SPVM_OP_build_special_assign (2505-2800), SPVM_OP_build_inc
    and SPVM_OP_build_dec (2802-2820), SPVM_OP_build_array_init (2178-2292),
    SPVM_OP_build_assign (3031-3046), SPVM_OP_clone_op_var (3306-3315).

    Simplifications. The state, with the user's variables, and the values are of arbitrary
    types, and reading and writing a place are arbitrary functions, which may throw. Types
    are left out: the conversion of special assignments is part of the operation. The
    branches of SPVM_OP_build_special_assign for element accesses, field accesses and fields
    of elements are one: they put the operands of the access, in order, into temporaries. *)
From Verif Require Import Base.
Local Open Scope Z_scope.

(** Accesses: $x, $@, $$x, ARRAY->[INDEX], OBJECT->{f} and ARRAY->[INDEX]{f}. *)
Inductive kind := KVar (x : list Z) | KExc | KDeref (x : list Z) | KElem | KField (f : list Z) | KElemField (f : list Z).

Section Lang.
  Variables St V : Type.
  Variable read : St -> kind -> list V -> outcome V.
  Variable write : St -> kind -> list V -> V -> outcome St.
  Variable new_array : St -> V -> Z -> outcome (V * St).     (* of the type of the first element *)
  Variable new_empty : St -> outcome (V * St).               (* object[] of length 0 *)
  Variable cast : St -> V -> outcome (V * St).               (* to object *)
  Variable int : Z -> V.
  Variable undef : V.

  Definition operation := St -> V -> V -> outcome (V * St).
  (** Operators as written; [post] for the post-increment and the post-decrement. *)
  Inductive expr :=
  | EConst (v : V)
  | EUndef
  | ERead (k : kind) (l : list expr)
  | EAssign (k : kind) (l : list expr) (e : expr)
  | ECall (f : operation) (a b : expr)
  | ESpecial (k : kind) (l : list expr) (g : operation) (post : bool) (e : expr)
  | EInit (pairs : bool) (l : list expr).
  (** Operators after the parser. *)
  Inductive core :=
  | CConst (v : V)
  | CTmp (n : nat)
  | CMy (n : nat) (c : core)
  | CRead (k : kind) (l : list core)
  | CAssign (k : kind) (l : list core) (c : core)
  | CCall (f : operation) (a b : core)
  | CCast (c : core)
  | CNew (c : core) (length : Z)
  | CNewEmpty
  | CSequence (l : list core).

  (** 2255-2283: $array->[i] = ELEMENT, from index [i] on. *)
  Fixpoint set_elements (array : nat) (i : Z) (l : list core) : list core :=
    match l with
    | [] => []
    | c :: l => CAssign KElem [CTmp array; CConst (int i)] c :: set_elements array (i + 1) l
    end.

  Fixpoint build (e : expr) (n : nat) : outcome (core * nat) :=
    let build_list :=
      fix build_list (l : list expr) (n : nat) : outcome (list core * nat) :=
        match l with
        | [] => Ret ([], n)
        | e :: l => let! (c, n) := build e n in let! (cl, n) := build_list l n in Ret (c :: cl, n)
        end in
    match e with
    | EConst v => Ret (CConst v, n)
    | EUndef => Ret (CConst undef, n)
    | ERead k l => let! (cl, n) := build_list l n in Ret (CRead k cl, n)
    | EAssign k l e => let! (cl, n) := build_list l n in let! (c, n) := build e n in Ret (CAssign k cl c, n)
    | ECall f a b => let! (ca, n) := build a n in let! (cb, n) := build b n in Ret (CCall f ca cb, n)
    | ESpecial k l g post e =>
        let! (cl, n) := build_list l n in
        let! (c, n) := build e n in
        match k with
        | KExc => UB                                                            (* 2665, 3308: uv.var is NULL *)
        | _ =>
            let old := n in                                                     (* 2555 *)
            let ts := seq (S n) (length l) in
            let place := map CTmp ts in
            Ret (CSequence (map (fun tc => CMy (fst tc) (snd tc)) (combine ts cl)
                   ++ CMy old (CRead k place)                                   (* 2789 *)
                   :: CAssign k place (CCall g (CTmp old) c)                    (* 2790 *)
                   :: if post then [CTmp old] else []),                         (* 2793-2796 *)
                 (S n + length l)%nat)
        end
    | EInit pairs l =>
        let! (cl, n) := build_list l n in
        if pairs && Z.odd (zlen l) then Die "The length of the elements must be an even number."     (* 2194 *)
        else
          match l, cl with
          | EUndef :: _, _ => Die "The first element in the array initialization must be defined."   (* 2212 *)
          | _ :: _, c :: cl =>
              let first := n in
              let array := S n in
              Ret (CSequence (CMy first (if pairs then CCast c else c)                               (* 2218-2243 *)
                     :: CMy array (CNew (CTmp first) (zlen l))                                       (* 2246-2254 *)
                     :: set_elements array 0 (CTmp first :: cl)
                     ++ [CTmp array]),                                                               (* 2286-2287 *)
                   S (S n))
          | _, _ => Ret (CNewEmpty, n)                                                               (* 2201-2206 *)
          end
    end.

  (** Temporaries; the last declaration counts. *)
  Definition temps := list (nat * V).
  Fixpoint get (t : temps) (n : nat) : option V :=
    match t with
    | [] => None
    | (m, v) :: t => if Nat.eqb m n then Some v else get t n
    end.

  (** Evaluation. The right operand of an assignment is evaluated first (3036-3037). *)
  Fixpoint eval (c : core) (t : temps) (s : St) : outcome (V * temps * St) :=
    let eval_list :=
      fix eval_list (l : list core) (t : temps) (s : St) : outcome (list V * temps * St) :=
        match l with
        | [] => Ret ([], t, s)
        | c :: l => let! (v, t, s) := eval c t s in let! (vs, t, s) := eval_list l t s in Ret (v :: vs, t, s)
        end in
    match c with
    | CConst v => Ret (v, t, s)
    | CTmp n => match get t n with Some v => Ret (v, t, s) | None => UB end
    | CMy n c => let! (v, t, s) := eval c t s in Ret (v, (n, v) :: t, s)
    | CRead k l => let! (vs, t, s) := eval_list l t s in let! v := read s k vs in Ret (v, t, s)
    | CAssign k l c =>
        let! (v, t, s) := eval c t s in
        let! (vs, t, s) := eval_list l t s in
        let! s := write s k vs v in
        Ret (v, t, s)
    | CCall f a b =>
        let! (va, t, s) := eval a t s in
        let! (vb, t, s) := eval b t s in
        let! (v, s) := f s va vb in
        Ret (v, t, s)
    | CCast c => let! (v, t, s) := eval c t s in let! (v, s) := cast s v in Ret (v, t, s)
    | CNew c len => let! (v, t, s) := eval c t s in let! (a, s) := new_array s v len in Ret (a, t, s)
    | CNewEmpty => let! (a, s) := new_empty s in Ret (a, t, s)
    | CSequence l =>
        (fix sequence (l : list core) (v : V) (t : temps) (s : St) : outcome (V * temps * St) :=
           match l with
           | [] => Ret (v, t, s)
           | c :: l => let! (v, t, s) := eval c t s in sequence l v t s
           end) l undef t s
    end.
End Lang.
