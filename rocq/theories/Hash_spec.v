(** * What a Hash is: a finite map from byte strings to values.

    The map is a function [m : key -> option val]; [None] means absent (a
    present key may well map to undef). *)

From Verif Require Import Base Buckets Val Hash_model.

Definition vmap : Type := key -> option val.

(** [ks] lists the keys of [m], each once. *)
Definition lists_keys (m : vmap) (ks : list key) : Prop :=
  NoDup ks /\ forall k, In k ks <-> m k <> None.

Definition value_at (m : vmap) (k : key) : val :=
  match m k with Some v => v | None => VUndef end.

(** Pointwise effect of one call. *)
Definition unchanged (m m' : vmap) : Prop := forall k, m' k = m k.
Definition updated (m m' : vmap) (k : key) (o : option val) : Prop :=
  m' k = o /\ forall k', k' <> k -> m' k' = m k'.

(** What a typed getter returns for a stored value: the integer getters accept
    the integer boxes that are not wider than the getter's own type, the others
    accept exactly their own type (get_string also accepts undef). *)
Definition int_box (v : val) : option (Z * Z) :=   (* width in bytes, value *)
  match v with
  | VByte n => Some (1, n) | VShort n => Some (2, n) | VInt n => Some (4, n) | VLong n => Some (8, n)
  | _ => None
  end.
Definition int_getter (width : Z) (v : val) : option Z :=
  match int_box v with
  | Some (w, n) => if w <=? width then Some n else None
  | None => None
  end.
Definition getter_result (kd : kind) (v : val) : option val :=
  match kd with
  | KAny => Some v
  | KByte => option_map VInt (int_getter 1 v)
  | KShort => option_map VInt (int_getter 2 v)
  | KInt => option_map VInt (int_getter 4 v)
  | KLong => option_map VLong (int_getter 8 v)
  | KFloat => match v with VFloat _ => Some v | _ => None end
  | KDouble => match v with VDouble _ => Some v | _ => None end
  | KString => match v with VUndef => Some v | VString _ => Some v | _ => None end
  end.
Definition getter_answers (kd : kind) (v : val) (o : outcome h_out) : Prop :=
  match getter_result kd v with
  | Some w => o = Ret (RVal w)
  | None => exists e, o = Die e
  end.

(** An undef key is always rejected, and changes nothing. *)
Definition op_key (op : h_op) : option (option key) :=
  match op with
  | HSet k _ | HGet _ k | HGetOrDefault _ k _ | HDeleteOrDefault _ k _ | HExists k | HDelete k
  | HWeaken k | HUnweaken k => Some k
  | HKeys | HValues | HLength | HHasKeys => None
  end.

Inductive map_step (m : vmap) : h_op -> vmap -> outcome h_out -> Prop :=
| ms_undef_key op m' :
    op_key op = Some None -> unchanged m m' -> map_step m op m' (Die die_key)
| ms_set k v m' :
    updated m m' k (Some v) -> map_step m (HSet (Some k) v) m' (Ret RUnit)
| ms_get kd k m' o :
    unchanged m m' -> getter_answers kd (value_at m k) o ->
    map_step m (HGet kd (Some k)) m' o
| ms_get_or_default_absent kd k d m' :
    m k = None -> unchanged m m' ->
    map_step m (HGetOrDefault kd (Some k) d) m' (Ret (RVal d))
| ms_get_or_default_present kd k d v m' o :
    m k = Some v -> unchanged m m' -> getter_answers kd v o ->
    map_step m (HGetOrDefault kd (Some k) d) m' o
| ms_delete_or_default_absent kd k d m' :
    m k = None -> unchanged m m' ->
    map_step m (HDeleteOrDefault kd (Some k) d) m' (Ret (RVal d))
| ms_delete_or_default_ok kd k d v w m' :
    m k = Some v -> getter_result kd v = Some w -> updated m m' k None ->
    map_step m (HDeleteOrDefault kd (Some k) d) m' (Ret (RVal w))
| ms_delete_or_default_type kd k d v e m' :
    m k = Some v -> getter_result kd v = None -> unchanged m m' ->
    map_step m (HDeleteOrDefault kd (Some k) d) m' (Die e)
| ms_exists_yes k m' :
    m k <> None -> unchanged m m' -> map_step m (HExists (Some k)) m' (Ret (RInt 1))
| ms_exists_no k m' :
    m k = None -> unchanged m m' -> map_step m (HExists (Some k)) m' (Ret (RInt 0))
| ms_delete k m' :
    updated m m' k None -> map_step m (HDelete (Some k)) m' (Ret (RVal (value_at m k)))
| ms_keys ks m' :
    lists_keys m ks -> unchanged m m' -> map_step m HKeys m' (Ret (RKeys (map Some ks)))
| ms_values ks m' :
    lists_keys m ks -> unchanged m m' ->
    map_step m HValues m' (Ret (RVals (map (value_at m) ks)))
| ms_length ks m' :
    lists_keys m ks -> unchanged m m' -> map_step m HLength m' (Ret (RInt (zlen ks)))
| ms_has_keys_yes k m' :
    m k <> None -> unchanged m m' -> map_step m HHasKeys m' (Ret (RInt 1))
| ms_has_keys_no m' :
    (forall k, m k = None) -> unchanged m m' -> map_step m HHasKeys m' (Ret (RInt 0))
| ms_weaken k m' : unchanged m m' -> map_step m (HWeaken (Some k)) m' (Ret RUnit)
| ms_unweaken k m' : unchanged m m' -> map_step m (HUnweaken (Some k)) m' (Ret RUnit).

Inductive map_run : vmap -> list h_op -> list (outcome h_out) -> Prop :=
| mr_nil m : map_run m [] []
| mr_cons m op m' o ops os :
    map_step m op m' o -> map_run m' ops os -> map_run m (op :: ops) (o :: os).

Definition empty_map : vmap := fun _ => None.

(** The map obtained by storing the pairs of a constructor argument in order
    (a later pair with the same key wins). *)
Fixpoint map_of_pairs (kvs : list (key * val)) (m : vmap) : vmap :=
  match kvs with
  | [] => m
  | (k, v) :: rest =>
      map_of_pairs rest (fun k' => if list_eq_dec Z.eq_dec k k' then Some v else m k')
  end.
