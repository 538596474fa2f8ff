(** * Which blocks a client holds, from the calls and answers alone. *)

From Verif Require Import Base Alloc_model.

(** The blocks obtained by a trace. *)
Fixpoint remove_one (a : Z) (l : list Z) : list Z :=
  match l with [] => [] | b :: l' => if Z.eq_dec a b then l' else b :: remove_one a l' end.

Definition track (st : list Z * list Z) (e : al_op * Z) : list Z * list Z :=
  let (tmp, perm) := st in
  match e with
  | (AAllocTmp _, out) => if out =? 0 then st else (out :: tmp, perm)
  | (AFreeTmp b, _) => (remove_one b tmp, perm)
  | (AAllocPermanent _, out) => (tmp, out :: perm)
  | (ACount, _) => st
  end.

(** (temporary blocks, permanent blocks) held after a trace. *)
Definition held (tr : list (al_op * Z)) : list Z * list Z := fold_left track tr ([], []).

(** A correct client frees only temporary blocks it holds (or NULL), and
    asks for permanent blocks of positive size. *)
Definition client_ok (st : list Z * list Z) (op : al_op) : Prop :=
  match op with
  | AFreeTmp b => b = 0 \/ In b (fst st)
  | AAllocPermanent size => 1 <= size
  | _ => True
  end.

(** Every call of the history is made by a correct client, whatever happened
    before. *)
Fixpoint trace_ok (st : list Z * list Z) (tr : list (al_op * Z)) : Prop :=
  match tr with
  | [] => True
  | e :: tr' => client_ok st (fst e) /\ trace_ok (track st e) tr'
  end.

(** What each call has to answer. *)
Definition answer_ok (st : list Z * list Z) (e : al_op * Z) : Prop :=
  match e with
  | (AAllocTmp size, out) =>
      if size <? 1 then out = 0 else out <> 0 /\ ~ In out (fst st) /\ ~ In out (snd st)
  | (AAllocPermanent _, out) => out <> 0 /\ ~ In out (fst st) /\ ~ In out (snd st)
  | (AFreeTmp _, _) => True
  | (ACount, out) => out = zlen (fst st) + zlen (snd st)
  end.

Fixpoint answers_ok (st : list Z * list Z) (tr : list (al_op * Z)) : Prop :=
  match tr with
  | [] => True
  | e :: tr' => answer_ok st e /\ answers_ok (track st e) tr'
  end.
