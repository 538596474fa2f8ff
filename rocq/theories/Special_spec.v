(** * What special assignment and array initialization mean *)
From Verif Require Import Base Special_model.
Local Open Scope Z_scope.

Section Lang.
  Variables St V : Type.
  Variable read : St -> kind -> list V -> outcome V.
  Variable write : St -> kind -> list V -> V -> outcome St.
  Variable new_array : St -> V -> Z -> outcome (V * St).
  Variable new_empty : St -> outcome (V * St).
  Variable cast : St -> V -> outcome (V * St).
  Variable int : Z -> V.
  Variable undef : V.

  (** PLACE op= RIGHT: the operands of the place are evaluated once, from left to right; then
      the old value is read, the right operand is evaluated, and the result is written to the
      same place. It is the value, or the old value for PLACE++ and PLACE--.
      [E1, ..., En]: the elements are evaluated from left to right and set as soon as they are
      known; the array is created after the first one. *)
  Fixpoint run (e : expr St V) (s : St) : outcome (V * St) :=
    let run_list :=
      fix run_list (l : list (expr St V)) (s : St) : outcome (list V * St) :=
        match l with
        | [] => Ret ([], s)
        | e :: l => let! (v, s) := run e s in let! (vs, s) := run_list l s in Ret (v :: vs, s)
        end in
    match e with
    | EConst _ _ v => Ret (v, s)
    | EUndef _ _ => Ret (undef, s)
    | ERead _ _ k l => let! (vs, s) := run_list l s in let! v := read s k vs in Ret (v, s)
    | EAssign _ _ k l e =>
        let! (v, s) := run e s in
        let! (vs, s) := run_list l s in
        let! s := write s k vs v in
        Ret (v, s)
    | ECall _ _ f a b => let! (va, s) := run a s in let! (vb, s) := run b s in f s va vb
    | ESpecial _ _ k l g post e =>
        let! (place, s) := run_list l s in
        let! old := read s k place in
        let! (r, s) := run e s in
        let! (new, s) := g s old r in
        let! s := write s k place new in
        Ret (if post then old else new, s)
    | EInit _ _ pairs l =>
        match l with
        | [] => new_empty s
        | first :: rest =>
            let! (v, s) := run first s in
            let! (v, s) := if pairs then cast s v else Ret (v, s) in
            let! (array, s) := new_array s v (zlen l) in
            let! s := write s KElem [array; int 0] v in
            (fix fill (i : Z) (l : list (expr St V)) (s : St) : outcome (V * St) :=
               match l with
               | [] => Ret (array, s)
               | e :: l => let! (v, s) := run e s in let! s := write s KElem [array; int i] v in fill (i + 1) l s
               end) 1 rest s
        end
    end.
End Lang.
