(** * What the pointer array is: a sequence. *)

From Verif Require Import Base NList_model.

(** One call on the sequence [s]: the new sequence and what is returned.
    [None]: the call breaks the documented precondition (index in range). *)
Definition seq_step (s : list Z) (op : nl_op) : option (list Z * list Z) :=
  match op with
  | LPush v => Some (s ++ [v], [])
  | LUnshift v => Some (v :: s, [])
  | LGet i => match znth s i with Some v => Some (s, [v]) | None => None end
  | LSet i v => if (0 <=? i) && (i <? zlen s) then Some (zupd s i v, []) else None
  | LPop => match rev s with [] => Some (s, [0]) | v :: r => Some (rev r, [v]) end
  | LShift => match s with [] => Some (s, [0]) | v :: r => Some (r, [v]) end
  | LClear => Some ([], [])
  | LLength => Some (s, [zlen s])
  end.

Fixpoint seq_run (s : list Z) (ops : list nl_op) : option (list Z) :=
  match ops with
  | [] => Some []
  | op :: ops' =>
      match seq_step s op with
      | None => None
      | Some (s', out) =>
          match seq_run s' ops' with None => None | Some outs => Some (out ++ outs) end
      end
  end.
