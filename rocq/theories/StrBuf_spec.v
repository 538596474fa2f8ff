(** * StringBuffer as a growable byte string *)
From Verif Require Import Base FnStr_spec StrBuf_model.

(** A byte string; [stale]: bytes were removed by a replace that made the
    string shorter; [room]: a capacity asked for with new or reserve. *)
Record bytestr := mk_bytestr { bs : list Z; stale : bool; room : Z }.

Definition given (r : option (list Z)) : list Z := match r with Some r => r | None => [] end.

(** The low eight bits. *)
Definition low_byte (c : Z) : Z := c mod 256.

(** What each operation does to the bytes; [None]: the arguments are wrong. *)
Definition str_op (l : list Z) (op : bop) : option (list Z) :=
  match op with
  | BPush None _ _ => None
  | BPush (Some s) off n =>
      if n =? -1 then if (0 <=? off) && (off <=? zlen s) then Some (l ++ zdrop off s) else None
      else if (0 <=? off) && (0 <=? n) && (off + n <=? zlen s) then Some (l ++ zsub s off n) else None
  | BPushChar c => Some (l ++ [low_byte c])
  | BReplace off rem r =>
      if (0 <=? off) && (0 <=? rem) && (off + rem <=? zlen l)
      then Some (ztake off l ++ given r ++ zdrop (off + rem) l) else None
  | BReserve n => if 0 <=? n then Some l else None
  | BSetLength n => if 0 <=? n then Some (ztake n l ++ zrep (n - zlen l) 0) else None
  | BSet None => None
  | BSet (Some s) => Some s
  | BToString | BLength | BCapacity => Some l
  end.

(** Outcome of a call that succeeds, with the bytes afterwards. *)
Definition result_ok (s : bytestr) (op : bop) (l' : list Z) (o : outcome bres) : Prop :=
  match op with
  | BToString => o = Ret (BRString l')
  | BLength => o = Ret (BRInt (zlen l'))
  | BCapacity => exists c, o = Ret (BRInt c) /\ zlen l' <= c /\ room s <= c
  | _ => o = Ret BRUnit
  end.

(** The bytes afterwards and the outcome that an operation may have.  The
    effect on the byte string, or an exception and no change.  Two exceptions:
    set with undef empties the buffer before it throws; set_length on a
    lengthening stale buffer may expose any bytes. *)
Definition allowed (s : bytestr) (op : bop) (l' : list Z) (o : outcome bres) : Prop :=
  match str_op (bs s) op with
  | None => l' = (match op with BSet None => [] | _ => bs s end) /\ exists e, o = Die e
  | Some l1 =>
      result_ok s op l' o /\
      (l' = l1 \/
       match op with
       | BSetLength n =>
           stale s = true /\ zlen (bs s) < n /\ exists ext, l' = bs s ++ ext /\ zlen ext = n - zlen (bs s)
       | _ => False
       end)
  end.

(** set_length and set clear what is behind the new end. *)
Definition next (s : bytestr) (op : bop) (l' : list Z) (o : outcome bres) : bytestr :=
  match op with
  | BReplace off rem r =>
      mk_bytestr l' (match o with Ret _ => stale s || (zlen l' <? zlen (bs s)) | _ => stale s end) (room s)
  | BReserve n => mk_bytestr l' (stale s) (match o with Ret _ => Z.max n (room s) | _ => room s end)
  | BSetLength n => mk_bytestr l' (match o with Ret _ => false | _ => stale s end) (room s)
  | BSet _ => mk_bytestr l' false (room s)
  | _ => mk_bytestr l' (stale s) (room s)
  end.

(** The sizes for which no capacity overflows an int. *)
Definition max_length : Z := 1073741823.
Definition max_capacity : Z := INT32_MAX - 1.

Definition fits (s : bytestr) (op : bop) : Prop :=
  (forall l1, str_op (bs s) op = Some l1 ->
     zlen l1 <= max_length \/ zlen l1 <= room s \/ zlen l1 <= zlen (bs s)) /\
  match op with
  | BReserve n => n <= max_capacity
  | BPush _ off n | BReplace off n _ => off + n <= INT32_MAX
  | _ => True
  end.

(** Outcomes of a history (nothing is claimed from an operation on that does
    not [fit]). *)
Fixpoint allowed_run (s : bytestr) (ops : list bop) (outs : list (outcome bres)) : Prop :=
  match ops, outs with
  | [], [] => True
  | op :: ops, o :: outs =>
      fits s op -> exists l', allowed s op l' o /\ allowed_run (next s op l' o) ops outs
  | _, _ => False
  end.

(** Arguments are ints and strings. *)
Definition op_args_ok (op : bop) : Prop :=
  match op with
  | BPush s off n => string_arg s /\ in_i32 off /\ in_i32 n
  | BPushChar c => in_i32 c
  | BReplace off rem r => string_arg r /\ in_i32 off /\ in_i32 rem
  | BReserve n | BSetLength n => in_i32 n
  | BSet s => string_arg s
  | _ => True
  end.

(** [history a s]: the buffer [s] was made by new and changed by operations
    that fit; it holds the bytes [bs a]. *)
Inductive history : bytestr -> sbuf -> Prop :=
| HNew : forall str capacity s,
    string_arg str -> capacity <= max_capacity -> sb_new str capacity = Ret s ->
    history (mk_bytestr (given str) false (Z.max 0 capacity)) s
| HOp : forall a s op s' o l',
    history a s -> op_args_ok op -> fits a op -> sb_op op s = (s', o) ->
    sb_op BToString s' = (s', Ret (BRString l')) ->
    history (next a op l' o) s'.
